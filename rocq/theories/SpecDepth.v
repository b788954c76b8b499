(** * SpecDepth: how deep fields are nested (C108). *)
From Coq Require Import List.
From Verif Require Import PyBase PyStr Source Field Context Fields.

(** [within n f]: the field [f] is nested at most [n] deep: a field of single values is one deep, a
    container one deeper than the fields of its items or entries.  Keys that a form captures are
    mapped by a Dict of a key field and a value field. *)
Definition single (k : kind) : Prop :=
  match k with KTuple _ | KList _ _ _ _ | KDict _ _ _ _ _ | KSubForm _ _ _ | KPoly _ _ _ _ _ | KGroup _ => False | _ => True end.
Inductive within : nat -> field -> Prop :=
| wi_field n o k : within_kind n k -> within (S n) (MkField o k)
with within_kind : nat -> kind -> Prop :=
| wk_single n k : single k -> within_kind n k
| wk_tuple n fs : (forall f, In f fs -> within n f) -> within_kind n (KTuple fs)
| wk_list n f lo hi a : within n f -> within_kind n (KList f lo hi a)
| wk_dict n kf vf keyf rq mx : within n kf -> within n vf -> within_kind n (KDict kf vf keyf rq mx)
| wk_form n c fs rs u : (forall f, In f fs -> within n f) -> within_unmapped n u -> within_kind n (KSubForm (FormTy c fs) rs u)
| wk_group n l : (forall m f, In (m, f) l -> within n f) -> within_kind n (KGroup l)
with within_unmapped : nat -> unm -> Prop :=
| wu_ignore n : within_unmapped n UIgnore
| wu_falsy n : within_unmapped n UFalsy
| wu_bad n s : within_unmapped n (UBad s)
| wu_capture n : within_unmapped (S (S n)) UCapture
| wu_field n f : within n f -> within_unmapped (S n) (UField f)
| wu_pair n kf vf : within n kf -> within n vf -> within_unmapped (S n) (UPair kf vf).
