(** * SpecParse: what a source reads as a text, an integer, a float or a boolean. *)
From Coq Require Import ZArith.
From Verif Require Import PyBase Source SpecSrc SpecRound.
Open Scope Z_scope.

Definition a_text (v : val) : Prop := exists s, v = VStr s.
(** [isinstance(v, int)]: booleans are integers *)
Inductive whole : val -> Z -> Prop :=
| whole_int z : whole (VInt z) z
| whole_true : whole (VBool true) 1
| whole_false : whole (VBool false) 0.
(** From here on [float(z)] overflows: half a digit above the greatest double. *)
Definition too_large (z : Z) : Prop := 2 ^ 1024 - 2 ^ 970 <= Z.abs z.

(** Floats, the same for every source; text is read where [texts] holds. *)
Inductive float_read (E : env) (texts : bool) : val -> res val -> Prop :=
| fr_float f : float_read E texts (VFloat f) (Ok (VFloat f))
| fr_whole v z w : whole v z -> ~ too_large z -> float_of z w -> float_read E texts v (Ok w)
| fr_overflow v z : whole v z -> too_large z -> float_read E texts v (Exn EOverflow)
| fr_text s f : texts = true -> e_float E s = Some f -> float_read E texts (VStr s) (Ok (VFloat f))
| fr_no_text s : texts = false \/ e_float E s = None -> float_read E texts (VStr s) (Exn (ESource (NotFloat (VStr s))))
| fr_other v : (forall f, v <> VFloat f) -> (forall z, ~ whole v z) -> ~ a_text v ->
    float_read E texts v (Exn (ESource (NotFloat v))).

(** json.py: a strict source takes values of the type and, as floats, integers; one that
    is not strict converts. *)
Inductive json_read (E : env) : bool -> ptype -> val -> res val -> Prop :=
| jr_auto strict v : json_read E strict TyAuto v (Ok v)
| jr_text strict s : json_read E strict TyStr (VStr s) (Ok (VStr s))
| jr_to_text v : ~ a_text v -> json_read E false TyStr v (Ok (VStr (e_str E v)))
| jr_no_text v : ~ a_text v -> json_read E true TyStr v (Exn (ESource (NotString v)))
| jr_int strict z : json_read E strict TyInt (VInt z) (Ok (VInt z))
| jr_to_int v z : denotes v z -> json_read E false TyInt v (Ok (VInt z))
| jr_no_int v : (forall z, ~ denotes v z) -> json_read E false TyInt v (Exn (ESource (NotInteger v)))
| jr_not_int v : (forall z, v <> VInt z) -> json_read E true TyInt v (Exn (ESource (NotInteger v)))
| jr_float strict v r : float_read E (negb strict) v r -> json_read E strict TyFloat v r
| jr_bool strict b : json_read E strict TyBool (VBool b) (Ok (VBool b))
| jr_zero : json_read E false TyBool (VInt 0) (Ok (VBool false))
| jr_nonzero z : z <> 0 -> json_read E false TyBool (VInt z) (Ok (VBool true))
| jr_no_bool strict v : (forall z, ~ whole v z) -> json_read E strict TyBool v (Exn (ESource (NotBoolean v)))
| jr_not_bool v z : v = VInt z -> json_read E true TyBool v (Exn (ESource (NotBoolean v))).

(** source/__init__.py, [ParserMixin]: every other source. *)
Inductive native_read (E : env) : ptype -> val -> res val -> Prop :=
| nr_auto v : native_read E TyAuto v (Ok v)
| nr_text s : native_read E TyStr (VStr s) (Ok (VStr s))
| nr_no_text v : ~ a_text v -> native_read E TyStr v (Exn (ESource (NotString v)))
| nr_int v z : denotes v z -> native_read E TyInt v (Ok (VInt z))
| nr_no_int v : (forall z, ~ denotes v z) -> native_read E TyInt v (Exn (ESource (NotInteger v)))
| nr_float v r : float_read E true v r -> native_read E TyFloat v r
| nr_bool v b : means v b -> native_read E TyBool v (Ok (VBool b))
| nr_no_bool v : (forall b, ~ means v b) -> native_read E TyBool v (Exn (ESource (NotBoolean v))).
