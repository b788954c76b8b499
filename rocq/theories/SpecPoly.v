(** * SpecPoly: polymorphic sub-forms dispatched on one type field. *)
From Verif Require Import PyBase PyStr Source Field Context Fields Eval.

(** [Type.abstract()] named [n], and the [TypeProbe] form holding nothing but its clone. *)
Definition type_field (n : string) : field := MkField (named n no_opts) (KString no_strc).
Definition type_probe (n : string) : formty := FormTy "TypeProbe" [type_field n].
(** [PolymorphicSubForm(type_field)] when the identities and their classes are [table]. *)
Definition poly_kind (n : string) (table : list (string * string)) (reset : bool) (u : unm) : kind :=
  KPoly (type_probe n) (type_field n) (map (fun ic => (VStr (fst ic), snd ic)) table) reset u.

(** The current path is number [pid], and the value there is the dict [items]. *)
Definition dict_here (W : world) (s : st) (pid : nat) (items : list (val * val)) : Prop :=
  lookup "src_path" (stk s) = Some (CPath pid) /\
  exists p p', nth_error (paths s) pid = Some p /\ p_value (w_env W) (entries s) p = (p', Ok (VDict items)).
(** No tags select fields. *)
Definition untagged (s : st) : Prop := tags_seen (lookup "tags" (stk s)) = [].
(** The context and the error lists of [s] are as they were. *)
Definition context_kept (s s' : st) : Prop :=
  stk s' = stk s /\ forall j, (j < length (errs s))%nat -> nth_error (errs s') j = nth_error (errs s) j.
(** A required field with nothing is an error: ignore_missing is not set. *)
Definition complains (s : st) : Prop :=
  match lookup "ignore_missing" (stk s) with Some c => truthy_c c | None => false end = false.
(** Python's ValueError, and the classes below it that pilo raises: form errors, field errors. *)
Inductive value_error : exn -> Prop :=
| ve_form es : value_error (EForm es)
| ve_field e : value_error (EField e)
| ve_plain m : value_error (EValue m).
(** What a type field says about data whose item at its key is [tv]: absent, or not a text. *)
Inductive untyped : option val -> ekind -> Prop :=
| un_absent : untyped None Missing
| un_other v : v <> VNone -> (forall i, v <> VStr i) -> untyped (Some v) (Invalid (VioExn (ESource (NotString v)))).
(** No mapping and no sequence: nothing a form can be mapped from. *)
Definition no_data (v : val) : Prop :=
  match v with VNone | VDict _ | VForm _ | VList _ | VTuple _ => False | _ => True end.
(** The class a table lists for an identity: the first whose identity equals it. *)
Definition lists_class (table : list (val * string)) (ident : val) (c : string) : Prop :=
  exists pre k post, table = pre ++ (k, c) :: post /\ py_eq k ident = true /\ forall k' c', In (k', c') pre -> py_eq k' ident = false.
Definition unlisted (table : list (val * string)) (ident : val) : Prop := forall k c, In (k, c) table -> py_eq k ident = false.
