(** * HooksProofs: fields whose hooks use only the value, the errors and the forms are evaluated (C30). *)
From Coq Require Import List.
From Verif Require Import PyBase PyStr Source Field Context Fields SpecSrc SpecHooks Eval.

Scheme hf_ind2 := Minimality for hooked Sort Prop with hk_ind2 := Minimality for hooked_kind Sort Prop with hu_ind2 := Minimality for hooked_unmapped Sort Prop.
Section Direct.
Variable P : prog -> Prop.
Hypothesis PD : forall p, P p -> direct_prog p.
Lemma hook_is_direct o : hooked_hook P o -> direct_ohook o.
Proof. intros H h Q t args. apply PD. exact (H h Q t args). Qed.
Lemma hooked_direct : (forall f, hooked P f -> direct f) /\ (forall u, hooked_unmapped P u -> direct_unm u).
Proof.
  assert (O : forall o k, hooked_opts P o -> direct_kind k -> direct (MkField o k)).
  { intros o k [H1 H2 H3 H4 H5 H6 H7 H8] K. constructor; [|exact K].
    split; try assumption; try (apply hook_is_direct; assumption). destruct (o_default o) as [h|v|p]; [now apply hook_is_direct|exact I|now apply PD]. }
  split; [apply (hf_ind2 P direct direct_kind direct_unm)|apply (hu_ind2 P direct direct_kind direct_unm)];
    try (intros; now constructor); try (intros o k H _ K; now apply O);
    try (intros; constructor; try assumption; now apply hook_is_direct); try (intros; constructor; [now constructor|assumption]); intros; constructor; eauto.
Qed.
End Direct.
