(** * SpecOwn: forms that hold entries of their fields only (C111). *)
From Coq Require Import List.
From Verif Require Import PyBase PyStr Source Field Context Fields.

(** Every key of every form is the name of a field of its class. *)
Definition own_entries (s : st) : Prop :=
  forall j t l k v, nth_error (forms s) j = Some (t, l) -> In (k, v) l -> exists f, In f (ft_fields t) /\ k = VStr (fname f).
(** The keys that are not mapped are ignored, also by the forms within. *)
Definition ignores (u : unm) : Prop := match u with UIgnore | UFalsy | UBad _ => True | _ => False end.
Inductive uncaptured : field -> Prop :=
| uc_field o k : uncaptured_kind k -> uncaptured (MkField o k)
with uncaptured_kind : kind -> Prop :=
| uk_single k : match k with KTuple _ | KList _ _ _ _ | KDict _ _ _ _ _ | KSubForm _ _ _ | KPoly _ _ _ _ _ | KGroup _ => False | _ => True end -> uncaptured_kind k
| uk_tuple fs : (forall f, In f fs -> uncaptured f) -> uncaptured_kind (KTuple fs)
| uk_list f lo hi a : uncaptured f -> uncaptured_kind (KList f lo hi a)
| uk_dict kf vf keyf rq mx : uncaptured kf -> uncaptured vf -> uncaptured_kind (KDict kf vf keyf rq mx)
| uk_form c fs rs u : (forall f, In f fs -> uncaptured f) -> ignores u -> uncaptured_kind (KSubForm (FormTy c fs) rs u)
| uk_group l : (forall m f, In (m, f) l -> uncaptured f) -> uncaptured_kind (KGroup l).
