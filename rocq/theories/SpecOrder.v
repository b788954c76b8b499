(** * SpecOrder: what the theorems about the order of the keys of a document are about (C105). *)
From Coq Require Import List.
From Verif Require Import PyBase PyStr Source Field Context Fields SpecSrc SpecField.

(** Two JSON values that differ only in the order of the entries of mappings, at any depth. *)
Inductive reordered : val -> val -> Prop :=
| ro_null : reordered VNone VNone
| ro_bool b : reordered (VBool b) (VBool b)
| ro_int z : reordered (VInt z) (VInt z)
| ro_float x : reordered (VFloat x) (VFloat x)
| ro_text s : reordered (VStr s) (VStr s)
| ro_list l l' : Forall2 reordered l l' -> reordered (VList l) (VList l')
| ro_dict l l' :
    (forall k v, dict_get l k = Some v -> exists v', dict_get l' k = Some v' /\ reordered v v') ->
    (forall k v', dict_get l' k = Some v' -> exists v, dict_get l k = Some v /\ reordered v v') ->
    reordered (VDict l) (VDict l').

(** User functions that do not look at the value in the source, except to ask whether it is there,
    is null or is a list and how long, and do not handle the FormError that raise mode raises. *)
Definition asks (op : pathop) : Prop := match op with OpExists | OpIsNull | OpSequence => True | _ => False end.
Definition lets_pass (k : res val -> prog) : Prop := forall es, k (Exn (EForm es)) = PRaise (EForm es).
Fixpoint orderless_prog (p : prog) : Prop :=
  match p with
  | PRet _ | PRaise _ => True
  | PCtxForm k | PSet _ _ _ k | PDel _ _ k | PItem _ _ k => forall x, orderless_prog (k x)
  | PPath op k => asks op /\ forall x, orderless_prog (k x)
  | PInvalid _ k | PMissing k => lets_pass k /\ forall x, orderless_prog (k x)
  | _ => False
  end.
Definition orderless_hook (o : option (hook prog)) : Prop :=
  forall h, o = Some h -> forall t args, orderless_prog (hk_fun h t args).
Record orderless_opts (o : fopts prog) : Prop := {
  oo_src : forall k, o_src o = Some k -> plain_key k;
  oo_default : match o_default o with DUnset h => orderless_hook h | DVal _ => True | DCall p => orderless_prog p end;
  oo_compute : orderless_hook (o_compute o);
  oo_resolve : o_resolve o = None;
  oo_parse : orderless_hook (o_parse o);
  oo_munge : orderless_hook (o_munge o);
  oo_filter : orderless_hook (o_filter o);
  oo_validate : orderless_hook (o_validate o)
}.

(** Fields with such hooks that show no mapping as it is: no Any, Code, Dict, Group and polymorphic
    field.  A source that is not strict turns a mapping into text, so the fields that read text
    are left out there. *)
Inductive orderless (strict : bool) : field -> Prop :=
| ol_field f : orderless_opts (f_opts f) -> orderless_kind strict (f_kind f) -> orderless strict f
with orderless_kind (strict : bool) : kind -> Prop :=
| ol_int lo hi : orderless_kind strict (KInteger lo hi)
| ol_float lo hi : orderless_kind strict (KFloat lo hi)
| ol_bool : orderless_kind strict KBool
| ol_string c : strict = true -> orderless_kind strict (KString c)
| ol_decimal lo hi : strict = true -> orderless_kind strict (KDecimal lo hi)
| ol_date fmts lo hi : strict = true -> orderless_kind strict (KDate fmts lo hi)
| ol_time fmt lo hi : strict = true -> orderless_kind strict (KTime fmt lo hi)
| ol_datetime fmt lo hi : strict = true -> orderless_kind strict (KDatetime fmt lo hi)
| ol_uuid : strict = true -> orderless_kind strict KUUID
| ol_list f lo hi a : orderless strict f -> orderless_kind strict (KList f lo hi a)
| ol_tuple fs : (forall f, In f fs -> orderless strict f) -> orderless_kind strict (KTuple fs)
| ol_form t rs u : u = UIgnore \/ u = UFalsy -> (forall f, In f (ft_fields t) -> orderless strict f) -> orderless_kind strict (KSubForm t rs u).

(** What a source says of a mapping or list that it refuses shows it, and so its order. *)
Inductive same_text : smsg -> smsg -> Prop :=
| st_same m : same_text m m
| st_string v v' : reordered v v' -> same_text (NotString v) (NotString v')
| st_integer v v' : reordered v v' -> same_text (NotInteger v) (NotInteger v')
| st_float v v' : reordered v v' -> same_text (NotFloat v) (NotFloat v')
| st_boolean v v' : reordered v v' -> same_text (NotBoolean v) (NotBoolean v').
(** The same error: of the same field at the same place, of the same kind and with the same
    text, but for the order of mappings shown there, also by the errors of a form within. *)
Inductive same_error : err -> err -> Prop :=
| se_same e : same_error e e
| se_refused x x' p n i : same_text x x' -> same_error (MkErr (Invalid (VioExn (ESource x))) p n i) (MkErr (Invalid (VioExn (ESource x'))) p n i)
| se_within es es' p n i : Forall2 same_error es es' -> same_error (MkErr (Invalid (VioExn (EForm es))) p n i) (MkErr (Invalid (VioExn (EForm es'))) p n i).
Definition same_errors : list err -> list err -> Prop := Forall2 same_error.

(** The same outcome: the errors returned, the FormError raised, or another exception. *)
Inductive same_outcome : res (list err) -> res (list err) -> Prop :=
| so_errors es es' : same_errors es es' -> same_outcome (Ok es) (Ok es')
| so_raised es es' : same_errors es es' -> same_outcome (Exn (EForm es)) (Exn (EForm es'))
| so_exception e : same_outcome (Exn e) (Exn e).
