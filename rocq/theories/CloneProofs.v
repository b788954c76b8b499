(** * CloneProofs: what a field's containers have after it was changed (C67). *)
From Verif Require Import PyBase PyStr Meta SpecMeta Balance MetaProofs MetaLemmas.
From Verif Require SpecChain ChainProofs.
From Coq Require Import Lia.

Lemma in_text t l : py_in (VStr t) l = true <-> In (VStr t) l.
Proof.
  unfold py_in. rewrite existsb_exists. split; [|intros H; exists (VStr t); split; [exact H|apply ChainProofs.eq_text; reflexivity]].
  intros (w & H & Q). destruct w; try discriminate Q. cbn [py_eq] in Q. apply String.eqb_eq in Q. now subst.
Qed.
Lemma added_tags ts : forall l, let l' := fold_left (fun l t => if py_in t l then l else l ++ [t]) (map VStr ts) l in
  (exists more, l' = l ++ map VStr more) /\ (forall v, In v l' <-> In v l \/ In v (map VStr ts)) /\ (NoDup l -> NoDup l').
Proof.
  induction ts as [|t ts IH]; intros l l'; unfold l'; cbn [map fold_left].
  - split; [exists []; cbn; now rewrite app_nil_r|]. split; [|auto]. intros v. cbn. tauto.
  - destruct (py_in (VStr t) l) eqn:Q.
    + destruct (IH l) as (A & B & C). apply in_text in Q. split; [exact A|]. split; [|exact C]. intros v. rewrite B. cbn [In]. intuition (subst; auto).
    + assert (NI : ~ In (VStr t) l) by (intros H; apply in_text in H; congruence). destruct (IH (l ++ [VStr t])) as ((more & A) & B & C). split; [exists (t :: more); rewrite A, <- app_assoc; reflexivity|].
      split; [intros v; rewrite B, in_app_iff; cbn [In]; intuition auto|]. intros ND. apply C. clear -ND NI. induction ND as [|x l NX ND IH]; cbn [app]; [repeat constructor; auto|].
      constructor; [rewrite in_app_iff; cbn [In] in *; intuition auto|]. apply IH. intros H. apply NI. now right.
Qed.
Lemma nth_same {A} r (g : A -> A) (l : list A) d x : nth_error l r = Some x -> nth r (replace_nth r (g x) l) d = g (nth r l d).
Proof.
  intros N. rewrite (nth_error_nth l r d N). apply nth_error_nth. apply nth_replace_eq. apply nth_error_Some. congruence.
Qed.
Lemma C67_contents_lem f o s : nth_error (cs_objs s) f = Some o ->
  (co_ignores o < length (cs_lists s))%nat -> (co_tags o < length (cs_lists s))%nat -> (co_translations o < length (cs_dicts s))%nat ->
  (forall vs, ignores_of (do_cop f (OpIgnore vs) s) f = ignores_of s f ++ vs) /\
  (forall d k v, dict_get (translations_of (do_cop f (OpTranslate d) s) f) (VStr k) = Some v <->
     SpecChain.last_given d k v \/ (forall w, ~ SpecChain.last_given d k w) /\ dict_get (translations_of s f) (VStr k) = Some v) /\
  (forall ts, let l' := tags_of (do_cop f (OpTag (map VStr ts)) s) f in
     (exists more, l' = tags_of s f ++ map VStr more) /\ (forall v, In v l' <-> In v (tags_of s f) \/ In v (map VStr ts)) /\ (NoDup (tags_of s f) -> NoDup l')).
Proof.
  intros H I T D.
  assert (UL : forall r g, (r < length (cs_lists s))%nat -> nth r (cs_lists (upd_list r g s)) [] = g (nth r (cs_lists s) []) /\ cs_objs (upd_list r g s) = cs_objs s).
  { intros r g L. unfold upd_list. destruct (nth_error (cs_lists s) r) as [x|] eqn:N; [|apply nth_error_None in N; lia]. cbn [cs_lists cs_objs]. split; [apply (nth_same r g _ [] x N)|reflexivity]. }
  assert (UD : forall r g, (r < length (cs_dicts s))%nat -> nth r (cs_dicts (upd_dict r g s)) [] = g (nth r (cs_dicts s) []) /\ cs_objs (upd_dict r g s) = cs_objs s).
  { intros r g L. unfold upd_dict. destruct (nth_error (cs_dicts s) r) as [x|] eqn:N; [|apply nth_error_None in N; lia]. cbn [cs_dicts cs_objs]. split; [apply (nth_same r g _ [] x N)|reflexivity]. }
  unfold do_cop, ignores_of, translations_of, tags_of. rewrite H. split; [|split].
  - intros vs. destruct (UL (co_ignores o) (fun l => l ++ vs) I) as [A B]. rewrite B, H. exact A.
  - intros d k v. destruct (UD (co_translations o) (fun l => dict_update l d) D) as [A B]. rewrite B, H, A. apply ChainProofs.update_texts.
  - intros ts. destruct (UL (co_tags o) (fun l => fold_left (fun l t => if py_in t l then l else l ++ [t]) (map VStr ts) l) T) as [A B]. rewrite B, H, A. apply added_tags.
Qed.
