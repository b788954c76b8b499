(** * Reads: reading a path changes neither its text nor its shape. *)
From Verif Require Import PyBase PyStr Source Shape.
From Coq Require Import Lia.

Definition tkeeps {A} (E : env) (op : path -> path * A) : Prop := forall p, p_str E (fst (op p)) = p_str E p.
Definition btkeeps {A} (op : bpath -> bpath * A) : Prop :=
  forall b, bshape (fst (op b)) = bshape b /\ (forall E, bp_str E (fst (op b)) = bp_str E b).
Lemma bt_on {A} (fp : ppath -> ppath * A) (fu : upath -> upath * A) :
  ptkeeps fp -> ureads fu -> btkeeps (on_bp fp fu).
Proof.
  intros Hp Hu b. split.
  - apply breads_on; [exact Hp|exact Hu].
  - intros E. destruct b as [p|u]; unfold on_bp.
    + specialize (Hp p). destruct (fp p) as [p' a]. cbn in *. unfold pp_str. destruct Hp as [-> ->]. reflexivity.
    + specialize (Hu u). destruct (fu u) as [u' a]. cbn in *. now destruct Hu as [-> _].
Qed.
Lemma bt_value E ents : btkeeps (bp_value E ents).
Proof. apply bt_on; [apply pt_value|apply ureads_value]. Qed.
Lemma bt_exists E ents : btkeeps (bp_exists E ents).
Proof. apply bt_on; [apply pt_exists|apply ureads_exists]. Qed.
Lemma bt_is_null E ents : btkeeps (bp_is_null E ents).
Proof. apply bt_on; [apply pt_is_null|apply ureads_is_null]. Qed.
Lemma bt_mapping E ents : btkeeps (bp_mapping E ents).
Proof. apply bt_on; [apply pt_mapping|apply ureads_mapping]. Qed.
Lemma bt_sequence E ents : btkeeps (bp_sequence E ents).
Proof. apply bt_on; [apply pt_sequence|apply ureads_sequence]. Qed.
Lemma bt_primitive E ents t : btkeeps (bp_primitive E ents t).
Proof. apply bt_on; [apply pt_primitive|apply ureads_primitive]. Qed.

Lemma aupdate_text {B} (f : bpath -> bpath * B) l n l' o :
  btkeeps f -> aupdate f l n = (l', o) -> forall E m,
  match alookup l' m, alookup l m with
  | Some a, Some b => bp_str E a = bp_str E b
  | None, None => True
  | _, _ => False
  end.
Proof.
  intros Hf. revert l' o. induction l as [|[k b] l IH]; intros l' o H E m; cbn [aupdate] in H.
  - inversion H; subst. exact I.
  - destruct (String.eqb k n).
    + specialize (Hf b). destruct (f b) as [b' x]. inversion H; subst. cbn [alookup]. destruct (String.eqb k m).
      * apply Hf.
      * now destruct (alookup l m).
    + destruct (aupdate f l n) as [l2 o2]. inversion H; subst. cbn [alookup]. destruct (String.eqb k m); [reflexivity|].
      eapply IH; reflexivity.
Qed.
Lemma mount_text E k dne dne' l l' :
  pp_keys dne' = pp_keys dne -> pp_src dne' = pp_src dne ->
  pshape (PMount (Some k) dne' l') = pshape (PMount (Some k) dne l) ->
  (forall m, match alookup l' m, alookup l m with
             | Some a, Some b => bp_str E a = bp_str E b
             | None, None => True
             | _, _ => False
             end) ->
  p_str E (PMount (Some k) dne' l') = p_str E (PMount (Some k) dne l).
Proof.
  intros K S Sh T. unfold p_str.
  assert (HK : p_keys (PMount (Some k) dne' l') = p_keys (PMount (Some k) dne l)) by (rewrite !p_keys_shape; now rewrite Sh).
  rewrite HK. destruct (p_keys (PMount (Some k) dne l)) as [|a [|b r]]; auto.
  - assert (M : mount_has k l' = mount_has k l).
    { destruct k; cbn [mount_has]; auto. specialize (T s). destruct (alookup l' s), (alookup l s); tauto. }
    rewrite M. unfold pp_str. rewrite K, S. specialize (T (mount_sel k)).
    destruct (alookup l' (mount_sel k)), (alookup l (mount_sel k)); try tauto. now rewrite T.
  - assert (M : mount_has k l' = mount_has k l).
    { destruct k; cbn [mount_has]; auto. specialize (T s). destruct (alookup l' s), (alookup l s); tauto. }
    rewrite M. unfold pp_str. rewrite K, S. specialize (T (mount_sel k)).
    destruct (alookup l' (mount_sel k)), (alookup l (mount_sel k)); try tauto. now rewrite T.
Qed.
Lemma on_mount_text {A} E (fb : bpath -> bpath * A) fp k dne l :
  btkeeps fb -> ptkeeps fp ->
  p_str E (fst (on_mount fb fp k dne l)) = p_str E (PMount (Some k) dne l).
Proof.
  intros Hb Hp.
  assert (Sh : pshape (fst (on_mount fb fp k dne l)) = pshape (PMount (Some k) dne l)).
  { apply on_mount_shape; [intros b; apply Hb|exact Hp]. }
  unfold on_mount in *.
  assert (D : pshape (fst (let '(d', a) := fp dne in (PMount (Some k) d' l, a))) = pshape (PMount (Some k) dne l) ->
     p_str E (fst (let '(d', a) := fp dne in (PMount (Some k) d' l, a))) = p_str E (PMount (Some k) dne l)).
  { specialize (Hp dne). destruct (fp dne) as [d' a]. cbn [fst] in *. intros Sd. apply mount_text; try apply Hp; auto.
    intros m. now destruct (alookup l m). }
  destruct (mount_has k l); [|apply D; exact Sh].
  destruct (aupdate fb l (mount_sel k)) as [l' [a|]] eqn:Hu; [|apply D; exact Sh].
  cbn [fst] in *. apply mount_text; auto. intros m. exact (aupdate_text _ _ _ _ _ Hb Hu E m).
Qed.
Lemma base_text {A} E (op : bpath -> bpath * A) b :
  btkeeps op -> p_str E (fst (let '(b', r) := op b in (PBase b', r))) = p_str E (PBase b).
Proof. intros H. specialize (H b). destruct (op b). cbn in *. apply H. Qed.

Lemma t_value E ents : tkeeps E (p_value E ents).
Proof.
  intros [b|[k|] dne l]; cbn [p_value].
  - apply base_text, bt_value.
  - apply on_mount_text; [apply bt_value|apply pt_value].
  - reflexivity.
Qed.
Lemma t_map {A B} E (op : path -> path * A) (g : A -> B) :
  tkeeps E op -> tkeeps E (fun p => let '(p', r) := op p in (p', g r)).
Proof. intros H p. specialize (H p). now destruct (op p). Qed.
Lemma t_exists E ents : tkeeps E (p_exists E ents).
Proof.
  intros [b|[k|] dne l]; cbn [p_exists].
  - apply base_text, bt_exists.
  - exact (t_map E _ (fun r => match r with Ok v => Ok (negb (is_NONE v)) | Exn e => Exn e end)
             (t_value E ents) (PMount (Some k) dne l)).
  - reflexivity.
Qed.
Lemma t_is_null E ents : tkeeps E (p_is_null E ents).
Proof.
  intros [b|[k|] dne l]; cbn [p_is_null].
  - apply base_text, bt_is_null.
  - exact (t_map E _ (fun r => match r with Ok v => Ok (is_None v) | Exn e => Exn e end)
             (t_value E ents) (PMount (Some k) dne l)).
  - reflexivity.
Qed.
Lemma t_primitive E ents t : tkeeps E (p_primitive E ents t).
Proof.
  intros [b|[k|] dne l]; cbn [p_primitive].
  - apply base_text, bt_primitive.
  - destruct (mount_has k l); [|reflexivity]. apply on_mount_text; [apply bt_primitive|apply pt_primitive].
  - reflexivity.
Qed.
Lemma t_sequence E ents : tkeeps E (p_sequence E ents).
Proof.
  intros [b|[k|] dne l]; cbn [p_sequence].
  - apply base_text, bt_sequence.
  - destruct (mount_has k l); [|reflexivity]. apply on_mount_text; [apply bt_sequence|apply pt_sequence].
  - reflexivity.
Qed.
Lemma t_mapping E ents : tkeeps E (p_mapping E ents).
Proof.
  intros [b|[k|] dne l]; cbn [p_mapping].
  - apply base_text, bt_mapping.
  - apply on_mount_text; [apply bt_mapping|apply pt_mapping].
  - reflexivity.
Qed.

(** The text of a path is a function of its shape. *)
Lemma bshape_text E b b' : bshape b = bshape b' -> bp_str E b = bp_str E b'.
Proof.
  destruct b as [p|u], b' as [p'|u']; cbn; intros H; try discriminate; injection H as H1 H2.
  - unfold pp_str. now rewrite H1, H2.
  - now rewrite H1.
Qed.
Lemma pshape_text E p p' : pshape p = pshape p' -> p_str E p = p_str E p'.
Proof.
  destruct p as [b|sel d l], p' as [b'|sel' d' l']; cbn [pshape]; intros H; try discriminate.
  - injection H as H. cbn [p_str]. now apply bshape_text.
  - injection H as H1 H2 H3 H4. subst sel'. destruct sel as [k|]; [|reflexivity].
    apply mount_text; auto.
    + cbn [pshape]. now rewrite H2, H3, H4.
    + intros m. pose proof (named_shapes_lookup l m) as A. pose proof (named_shapes_lookup l' m) as B.
      rewrite H4, B in A. destruct (alookup l m), (alookup l' m); try discriminate; auto.
      injection A as A. symmetry. now apply bshape_text.
Qed.
