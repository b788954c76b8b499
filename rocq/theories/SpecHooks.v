(** * SpecHooks: fields whose hooks are all of some sort (C106, C107). *)
From Coq Require Import List.
From Verif Require Import PyBase PyStr Source Field Context Fields SpecSrc.

Section Hooked.
Variable P : prog -> Prop.
Definition hooked_hook (o : option (hook prog)) : Prop :=
  forall h, o = Some h -> forall t args, P (hk_fun h t args).
Record hooked_opts (o : fopts prog) : Prop := {
  ho_src : forall k, o_src o = Some k -> plain_key k;
  ho_default : match o_default o with DUnset h => hooked_hook h | DVal _ => True | DCall p => P p end;
  ho_compute : hooked_hook (o_compute o);
  ho_resolve : o_resolve o = None;
  ho_parse : hooked_hook (o_parse o);
  ho_munge : hooked_hook (o_munge o);
  ho_filter : hooked_hook (o_filter o);
  ho_validate : hooked_hook (o_validate o)
}.

(** Fields of every class but the polymorphic sub-form, all of whose hooks are of the sort [P];
    no resolve hook, and [src] a string or an integer. *)
Inductive hooked : field -> Prop :=
| hf_field o k : hooked_opts o -> hooked_kind k -> hooked (MkField o k)
with hooked_kind : kind -> Prop :=
| hk_any : hooked_kind KAny
| hk_string c : hooked_kind (KString c)
| hk_integer lo hi : hooked_kind (KInteger lo hi)
| hk_float lo hi : hooked_kind (KFloat lo hi)
| hk_decimal lo hi : hooked_kind (KDecimal lo hi)
| hk_bool : hooked_kind KBool
| hk_date fmts lo hi : hooked_kind (KDate fmts lo hi)
| hk_time fmt lo hi : hooked_kind (KTime fmt lo hi)
| hk_datetime fmt lo hi : hooked_kind (KDatetime fmt lo hi)
| hk_tuple fs : (forall f, In f fs -> hooked f) -> hooked_kind (KTuple fs)
| hk_list f lo hi a : hooked f -> hooked_kind (KList f lo hi a)
| hk_dict kf vf keyf rq mx : hooked kf -> hooked vf -> hooked_hook keyf -> hooked_kind (KDict kf vf keyf rq mx)
| hk_code : hooked_kind KCode
| hk_uuid : hooked_kind KUUID
| hk_form n fs rs u : (forall f, In f fs -> hooked f) -> hooked_unmapped u -> hooked_kind (KSubForm (FormTy n fs) rs u)
| hk_group l : (forall m f, In (m, f) l -> hooked f) -> hooked_kind (KGroup l)
with hooked_unmapped : unm -> Prop :=
| hu_ignore : hooked_unmapped UIgnore
| hu_capture : hooked_unmapped UCapture
| hu_falsy : hooked_unmapped UFalsy
| hu_bad s : hooked_unmapped (UBad s)
| hu_field f : hooked f -> hooked_unmapped (UField f)
| hu_pair kf vf : hooked kf -> hooked vf -> hooked_unmapped (UPair kf vf).
End Hooked.
Arguments ho_src {P} o. Arguments ho_default {P} o. Arguments ho_compute {P} o. Arguments ho_resolve {P} o.
Arguments ho_parse {P} o. Arguments ho_munge {P} o. Arguments ho_filter {P} o. Arguments ho_validate {P} o.
