(** * SpecField: what the theorems about mapping one field are about. *)
From Verif Require Import PyBase PyStr Source Field Context Fields SpecCtx.
From Coq Require Import QArith.
Open Scope Z_scope.

(** A mapping is in progress: the current error list is number [eid], in mode [m], with
    errors [es] so far; the current source path is number [pid], namely [p];
    [ctx.ignore_default] and [ctx.ignore_missing] are [igd] and [igm]. *)
Record mapping (W : world) (s : st) (eid : nat) (m : mode) (es : list err)
       (pid : nat) (p : path) (igd igm : bool) : Prop := {
  mp_reach : reach W s;
  mp_eid : lookup "errors" (stk s) = Some (CErrs eid);
  mp_errs : nth_error (errs s) eid = Some (m, es);
  mp_pid : lookup "src_path" (stk s) = Some (CPath pid);
  mp_path : nth_error (paths s) pid = Some p;
  mp_igd : exists c, lookup "ignore_default" (stk s) = Some c /\ truthy_c c = igd;
  mp_igm : exists c, lookup "ignore_missing" (stk s) = Some c /\ truthy_c c = igm
}.

(** No user function decides where the field reads, what it finds there or what its
    default is, and no [attach_parent].  Parse, munge, filter and validate hooks may be set. *)
Record direct_read (f : field) : Prop := {
  dr_compute : o_compute (f_opts f) = None;
  dr_resolve : o_resolve (f_opts f) = None;
  dr_default : (exists v, o_default (f_opts f) = DVal v) \/ o_default (f_opts f) = DUnset None;
  dr_parent : o_attach_parent (f_opts f) = false
}.
(** No user function is attached to the field itself, nor [attach_parent]. *)
Record hook_free (f : field) : Prop := {
  hf_read : direct_read f;
  hf_parse : o_parse (f_opts f) = None;
  hf_munge : o_munge (f_opts f) = None;
  hf_filter : o_filter (f_opts f) = None;
  hf_validate : o_validate (f_opts f) = None
}.
(** Neither a default nor [optional=True]. *)
Definition required (f : field) : Prop :=
  o_default (f_opts f) = DUnset None \/ o_default (f_opts f) = DVal (VConst NOTSET).

(** Where the field reads, when the current path is [p]: below its [src] key, except
    that a [Group] and a field without [src] read at the current path. *)
Definition own_key (f : field) : option key :=
  match f_kind f with KGroup _ => None | _ => o_src (f_opts f) end.
Definition place (f : field) (p : path) : path :=
  match own_key f with Some k => p_append k p | None => p end.
(** Where the errors of [field.map(v)] are located. *)
Definition spot (f : field) (v : val) (p : path) : path := if is_NONE v then place f p else p.

(** Mapping [f] in state [s] gives [v] and reports exactly the errors [new], in order;
    the context and all forms are as before.  In raise mode a first error is raised
    with everything collected so far. *)
Definition yields (W : world) (n : nat) (f : field) (arg : val) (s : st)
           (eid : nat) (m : mode) (es : list err) (v : val) (new : list err) : Prop :=
  exists s',
    field_map W n f arg s =
      (match m, new with Raise, _ :: _ => Exn (EForm (es ++ new)) | _, _ => Ok v end, s') /\
    stk s' = stk s /\ forms s' = forms s /\ errs s' = replace_nth eid (m, es ++ new) (errs s).

(** The error a field reports: kind, path text, field name and the live path object. *)
Definition missing_at (f : field) (pid : nat) (t : string) : err := MkErr Missing t (f_name f) (Some pid).
Definition invalid_at (f : field) (pid : nat) (x : viol) (t : string) : err :=
  MkErr (Invalid x) t (f_name f) (Some pid).

(** What a field does with a value it was given or has parsed. *)

(** The translation table: the last entry for a key counts (a Python dict). *)
Inductive translated (f : field) (v : val) : val -> Prop :=
| tr_hit w : dict_get (o_translations (f_opts f)) v = Some w -> translated f v w
| tr_miss : dict_get (o_translations (f_opts f)) v = None -> translated f v v.
(** What cannot be looked up in a dict: lists, mappings, and tuples with such a thing in them. *)
Inductive unhashable : val -> Prop :=
| uh_list l : unhashable (VList l)
| uh_dict d : unhashable (VDict d)
| uh_form i : unhashable (VForm i)
| uh_umap ms : unhashable (VUMap ms)
| uh_config cfg d : unhashable (VCfgRoot cfg d)
| uh_section o d : unhashable (VCfgSec o d)
| uh_tuple l x : In x l -> unhashable x -> unhashable (VTuple l).
(** A table lookup needs a hashable value. *)
Definition lookable (f : field) (v : val) : Prop := o_translations (f_opts f) = [] \/ ~ unhashable v.

(** The value a field maps: the one passed to [field.map(v)]; or, when none is passed, what
    is found at its place: [None] for a null, and for the kinds that read a primitive that
    primitive.  [q] is the path after reading. *)
Definition primitive_kind (k : kind) : option ptype :=
  match k with
  | KAny => Some TyAuto
  | KString _ => Some TyStr
  | KInteger _ _ => Some TyInt
  | KFloat _ _ => Some TyFloat
  | KBool => Some TyBool
  | _ => None
  end.
Inductive obtains (W : world) (s : st) (f : field) (p : path) : val -> val -> Prop :=
| ob_given v : is_NONE v = false -> obtains W s f p v v
| ob_null q1 q2 :
    p_exists (w_env W) (entries s) (place f p) = (q1, Ok true) ->
    p_is_null (w_env W) (entries s) q1 = (q2, Ok true) ->
    obtains W s f p (VConst NONE) VNone
| ob_read t q1 q2 q3 v :
    primitive_kind (f_kind f) = Some t ->
    p_exists (w_env W) (entries s) (place f p) = (q1, Ok true) ->
    p_is_null (w_env W) (entries s) q1 = (q2, Ok false) ->
    p_primitive (w_env W) (entries s) t q2 = (q3, Ok v) ->
    obtains W s f p (VConst NONE) v.

(** The key is not there. *)
Definition absent (W : world) (s : st) (f : field) (p : path) : Prop :=
  exists q, p_exists (w_env W) (entries s) (place f p) = (q, Ok false).

(** *** Numbers: the exact value of a finite number *)
Inductive number : val -> Q -> Prop :=
| n_bool b : number (VBool b) (if b then 1 else 0)
| n_int z : number (VInt z) (inject_Z z)
| n_zero s : number (VFloat (SpecFloat.S754_zero s)) 0
| n_float (s : bool) m e :
    number (VFloat (SpecFloat.S754_finite s m e))
           ((if s then -1 else 1) * inject_Z (Zpos m) * Qpower 2 e)
| n_dec m e : number (VDec (DFin m e)) (inject_Z m * Qpower 10 e).
Definition bounds (k : kind) : option (option val * option val) :=
  match k with
  | KInteger lo hi | KFloat lo hi | KDecimal lo hi => Some (lo, hi)
  | _ => None
  end.

(** *** Strings: the five constraints, each on its own *)
Definition alphabet_ok (c : strc) (s : string) : Prop :=
  sc_alphabet c = [] \/ forall ch, In ch (list_ascii_of_string s) -> In ch (sc_alphabet c).
Definition min_ok (c : strc) (s : string) : Prop :=
  forall n, sc_min c = Some n -> n <= Z.of_nat (String.length s).
Definition max_ok (c : strc) (s : string) : Prop :=
  forall n, sc_max c = Some n -> Z.of_nat (String.length s) <= n.
Definition pattern_ok (E : env) (c : strc) (s : string) : Prop :=
  forall p, sc_pattern c = Some p -> exists groups, e_re E p s = Some groups.
Definition choices_ok (f : field) (c : strc) (s : string) : Prop :=
  sc_choices c = [] \/ exists w, py_eq (VStr s) w = true /\
                         (In w (sc_choices c) \/ exists k, In (k, w) (o_translations (f_opts f))).
Definition string_ok (E : env) (f : field) (c : strc) (s : string) : Prop :=
  alphabet_ok c s /\ min_ok c s /\ max_ok c s /\ pattern_ok E c s /\ choices_ok f c s.
(** A value that is not a text: a translation can be one.  A constraint that only a text can meet. *)
Inductive textless : val -> Prop :=
| tl_bool b : textless (VBool b)
| tl_int z : textless (VInt z)
| tl_float x : textless (VFloat x)
| tl_dec d : textless (VDec d)
| tl_date z : textless (VDate z)
| tl_datetime z : textless (VDatetime z)
| tl_time z : textless (VTime z).
Definition wants_text (c : strc) : Prop :=
  sc_alphabet c <> [] \/ sc_min c <> None \/ sc_max c <> None \/ sc_pattern c <> None.
Definition among (f : field) (c : strc) (v : val) : Prop :=
  sc_choices c = [] \/ exists w, py_eq v w = true /\
                         (In w (sc_choices c) \/ exists k, In (k, w) (o_translations (f_opts f))).
(** The first constraint violated, in the order alphabet, minimum, maximum, pattern,
    choices, and what the error says. *)
Inductive first_violated (E : env) (f : field) (c : strc) (s : string) : viol -> Prop :=
| fv_alphabet bad : ~ alphabet_ok c s -> NoDup bad ->
    (forall ch, In ch bad <-> In ch (list_ascii_of_string s) /\ ~ In ch (sc_alphabet c)) ->
    first_violated E f c s (VioChars bad)
| fv_min n : alphabet_ok c s -> sc_min c = Some n -> ~ min_ok c s ->
    first_violated E f c s (VioMinLen (VStr s) n)
| fv_max n : alphabet_ok c s -> min_ok c s -> sc_max c = Some n -> ~ max_ok c s ->
    first_violated E f c s (VioMaxLen (VStr s) n)
| fv_pattern p : alphabet_ok c s -> min_ok c s -> max_ok c s -> sc_pattern c = Some p ->
    ~ pattern_ok E c s -> first_violated E f c s (VioPattern (VStr s) p)
| fv_choice : alphabet_ok c s -> min_ok c s -> max_ok c s -> pattern_ok E c s ->
    ~ choices_ok f c s -> first_violated E f c s (VioChoice (VStr s) (sc_choices c)).

(** *** Dates and decimals *)
(** The field reads the string [x] at its place. *)
Definition reads_text (W : world) (s : st) (f : field) (p : path) (x : string) : Prop :=
  exists q1 q2 q3 q4 y,
    p_exists (w_env W) (entries s) (place f p) = (q1, Ok true) /\
    p_is_null (w_env W) (entries s) q1 = (q2, Ok false) /\
    p_value (w_env W) (entries s) q2 = (q3, Ok (VStr y)) /\
    p_primitive (w_env W) (entries s) TyStr q3 = (q4, Ok (VStr x)).
(** What a date format makes of a text: a time stamp in microseconds, or nothing. *)
Definition stamp (E : env) (fmt x : string) : option Z :=
  if String.eqb fmt "iso8601" then e_iso E x else e_strp E x fmt.
(** Neither translations nor ignores say anything about [v]. *)
Definition untouched (f : field) (v : val) : Prop :=
  lookable f v /\ dict_get (o_translations (f_opts f)) v = None /\ py_in v (o_ignores (f_opts f)) = false.

(** *** Decimals *)
(** The field reads the value [v] at its place. *)
Definition finds_value (W : world) (s : st) (f : field) (p : path) (v : val) : Prop :=
  exists q1 q2 q3,
    p_exists (w_env W) (entries s) (place f p) = (q1, Ok true) /\
    p_is_null (w_env W) (entries s) q1 = (q2, Ok false) /\
    p_value (w_env W) (entries s) q2 = (q3, Ok v).
(** The field maps to [d], whose value is [q], or reports the bound it is beyond. *)
Record held_to (W : world) (n : nat) (f : field) (s : st) (eid : nat) (m : mode) (es : list err) (pid : nat) (t : string)
    (lo hi : option val) (d : dec) (q : Q) : Prop := {
  ht_within : (forall b, lo = Some b -> exists r, number b r /\ (r <= q)%Q) ->
              (forall b, hi = Some b -> exists r, number b r /\ (q <= r)%Q) ->
              yields W n f (VConst NONE) s eid m es (VDec d) [];
  ht_below : forall b r, lo = Some b -> number b r -> (q < r)%Q ->
             yields W n f (VConst NONE) s eid m es (VConst ERROR) [invalid_at f pid (VioMin (VDec d) b) t];
  ht_above : forall b r, (forall c, lo = Some c -> exists x, number c x /\ (x <= q)%Q) ->
             hi = Some b -> number b r -> (r < q)%Q ->
             yields W n f (VConst NONE) s eid m es (VConst ERROR) [invalid_at f pid (VioMax (VDec d) b) t]
}.
(** The floats that are no number, and the decimals for them *)
Inductive special : spec_float -> dec -> Prop :=
| sp_inf sg : special (SpecFloat.S754_infinity sg) (DInf sg)
| sp_nan : special SpecFloat.S754_nan DNaN.
