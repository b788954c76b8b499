(** * DataRegime: JSON documents and plain native data are covered by [Refine]. *)
From Verif Require Import PyBase PyStr Source Field Context Fields SpecSrc SrcPath SrcProofs Shape Balance Eval Sim.
From Coq Require Import Lia.

Lemma none_or_cases o : none_or o = VConst NONE \/ exists w, o = Some w /\ none_or o = w.
Proof. destruct o; cbn; eauto. Qed.
Lemma json_not_NONE v : json_val v = true -> is_NONE v = false.
Proof. destruct v; try reflexivity; discriminate. Qed.
Lemma json_regime E d st loc : json_val d = true -> regime E (SJson d st loc) d (fun v => json_val v = true).
Proof.
  intros J. split; auto using json_not_NONE.
  - intros ents c k [Jc|[_ ->]] K; cbn [psource_resolve].
    + destruct (json_resolve_steps E ents c k Jc K) as [-> _]. destruct (json_resolve_steps E no_ents c k Jc K) as [-> _]. reflexivity.
    + pose proof (json_absorbs E ents d st loc k K) as A. pose proof (json_absorbs E no_ents d st loc k K) as B.
      cbn [psource_resolve] in A, B. congruence.
  - intros c k w Jc K. cbn [psource_resolve]. destruct (json_resolve_steps E no_ents c k Jc K) as [-> G]. intros [= <-].
    destruct (json_steps c (key_steps k)) as [w|]; cbn [none_or]; auto.
  - intros c n i Jc Hs B. exists (none_or (json_steps c (key_steps (KInt i)))). split; [|left; apply json_absorbs].
    cbn [psource_resolve]. now destruct (json_resolve_steps E no_ents c (KInt i) Jc I) as [-> G].
  - intros ents dd c Jc. destruct c; try reflexivity. discriminate.
  - intros c dd l k Jc Hm Hk. destruct c; try discriminate. cbn in Hm. injection Hm as <-.
    apply in_map_iff in Hk. destruct Hk as ([a b] & <- & Hk). cbn in Jc. rewrite forallb_forall in Jc. specialize (Jc _ Hk) as Ja.
    cbn [fst] in *. destruct a; try discriminate. cbn [key_of_val]. split; [exact I|].
    exists (none_or (json_steps (VDict l0) (key_steps (KStr s)))). split; [|left; apply json_absorbs].
    cbn [psource_resolve]. destruct (json_resolve_steps E no_ents (VDict l0) (KStr s)) as [-> G];
      [cbn; apply forallb_forall; exact Jc|exact I|reflexivity].
Qed.

Section Native.
Variables (E : env) (P : val -> Prop) (d : val) (loc : option string).
Hypothesis PN : plain_native E P.
Let ND := pn_data _ _ PN.
Lemma item_ents ents c k : P c -> as_item E ents c k = as_item E no_ents c k.
Proof. intros Pc. destruct c; try reflexivity. exfalso. eapply (pn_form _ _ PN); eauto. Qed.
Lemma step1_ents ents c k : P c -> default_resolve1 E ents [] [] [] c k = default_resolve1 E no_ents [] [] [] c k.
Proof.
  intros Pc. unfold default_resolve1. rewrite item_ents by exact Pc. destruct k as [s|z|v]; cbn; reflexivity.
Qed.
Lemma step1_in c k w : P c -> plain_key k -> default_resolve1 E no_ents [] [] [] c k = Ok w -> w = VConst NONE \/ P w.
Proof.
  intros Pc K H. destruct k as [s|z|v]; [| |contradiction].
  - destruct (step_or E no_ents P ND [] [] [] eq_refl c s Pc) as [(v & _ & Pv & Q)|(_ & Q)]; rewrite Q in H; injection H as <-; auto.
  - unfold default_resolve1 in H. cbn [is_ignored existsb] in H.
    destruct (item_or E no_ents P ND c (KInt z) Pc) as [(v & _ & Pv & Q)|(_ & Q)]; rewrite Q in H.
    + rewrite (P_not_NONE _ _ _ ND v Pv) in H. injection H as <-. auto.
    + cbn in H. injection H as <-. auto.
Qed.
Lemma walk_ents ents l : forall c, P c ->
  walk_atoms (fun c a => default_resolve1 E ents [] [] [] c (KStr a)) c l =
  walk_atoms (fun c a => default_resolve1 E no_ents [] [] [] c (KStr a)) c l /\
  (forall w, walk_atoms (fun c a => default_resolve1 E no_ents [] [] [] c (KStr a)) c l = Ok w -> w = VConst NONE \/ P w).
Proof.
  induction l as [|a l IH]; intros c Pc; cbn [walk_atoms].
  - split; [reflexivity|]. intros w [= <-]. auto.
  - rewrite step1_ents by exact Pc. destruct (default_resolve1 E no_ents [] [] [] c (KStr a)) as [v|e] eqn:S; [|split; [reflexivity|discriminate]].
    destruct (is_NONE v) eqn:N; [split; [reflexivity|]; intros w [= <-]; left; now apply is_NONE_eq|].
    destruct (step1_in c (KStr a) v Pc I S) as [->|Pv]; [discriminate|]. apply IH, Pv.
Qed.
Lemma resolve_ents ents fuel : forall c k, P c -> plain_key k ->
  default_resolve fuel E ents [] [] [] c k = default_resolve fuel E no_ents [] [] [] c k /\
  (forall w, default_resolve fuel E no_ents [] [] [] c k = Ok w -> w = VConst NONE \/ P w).
Proof.
  assert (Base : forall c s, P c ->
    (match default_resolve1 E ents [] [] [] c (KStr s) with
     | Exn e => Exn e
     | Ok v => if is_NONE v then walk_atoms (fun c a => default_resolve1 E ents [] [] [] c (KStr a)) c (split_on dot s) else Ok v end =
     match default_resolve1 E no_ents [] [] [] c (KStr s) with
     | Exn e => Exn e
     | Ok v => if is_NONE v then walk_atoms (fun c a => default_resolve1 E no_ents [] [] [] c (KStr a)) c (split_on dot s) else Ok v end) /\
    (forall w, match default_resolve1 E no_ents [] [] [] c (KStr s) with
     | Exn e => Exn e
     | Ok v => if is_NONE v then walk_atoms (fun c a => default_resolve1 E no_ents [] [] [] c (KStr a)) c (split_on dot s) else Ok v end = Ok w ->
       w = VConst NONE \/ P w)).
  { intros c s Pc. rewrite step1_ents by exact Pc.
    destruct (default_resolve1 E no_ents [] [] [] c (KStr s)) as [v|e] eqn:S; [|split; [reflexivity|discriminate]].
    destruct (is_NONE v) eqn:N; [apply walk_ents, Pc|]. split; [reflexivity|]. intros w [= <-].
    exact (step1_in c (KStr s) v Pc I S). }
  assert (Int : forall c z, P c -> default_resolve1 E ents [] [] [] c (KInt z) = default_resolve1 E no_ents [] [] [] c (KInt z) /\
     (forall w, default_resolve1 E no_ents [] [] [] c (KInt z) = Ok w -> w = VConst NONE \/ P w)).
  { intros c z Pc. split; [now apply step1_ents|]. intros w. exact (step1_in c (KInt z) w Pc I). }
  induction fuel as [|n IH]; intros c k Pc K; cbn [default_resolve]; destruct k as [s|z|v]; try contradiction; auto.
  - destruct (strip_call s); auto.
  - destruct (strip_call s) as [s'|]; auto. destruct (IH c (KStr s') Pc I) as [-> G].
    destruct (default_resolve n E no_ents [] [] [] c (KStr s')) as [v|e]; [|split; [reflexivity|discriminate]].
    split; [reflexivity|]. intros w. destruct (is_NONE v) eqn:N; [intros [= <-]; auto|].
    intros Hc. destruct (G v eq_refl) as [->|Pv]; [discriminate|]. right. eapply (pn_call _ _ PN); eauto.
Qed.
Lemma native_not_absorbing : ~ absorbing E (SDefault d [] [] loc).
Proof.
  intros A. specialize (A (KStr "name") I). cbn [psource_resolve] in A. change (String.length "name") with 4%nat in A. cbn [default_resolve] in A.
  change (strip_call "name") with (@None string) in A. unfold default_resolve1 in A. cbn in A. discriminate.
Qed.
Lemma dict_get_in l k : In k (map fst l) -> (exists z, k = VInt z) \/ (exists s, k = VStr s /\ strip_call s = None) ->
  exists v, dict_get l k = Some v.
Proof.
  intros H K. apply in_map_iff in H. destruct H as ([a b] & <- & H). cbn [fst] in *. unfold dict_get.
  destruct (find (fun kv => py_eq (fst kv) a) l) as [[x y]|] eqn:F; [cbn; eauto|].
  pose proof (find_none _ _ F _ H) as N. cbn [fst] in N. exfalso. destruct K as [[z ->]|[s [-> _]]].
  - change (Qeq_bool (inject_Z z) (inject_Z z) = false) in N. rewrite Qeq_bool_refl in N. discriminate.
  - cbn in N. rewrite String.eqb_refl in N. discriminate.
Qed.
Lemma native_regime : P d -> regime E (SDefault d [] [] loc) d P.
Proof.
  intros Pd. split; auto.
  - intros v Pv. exact (P_not_NONE _ _ _ ND v Pv).
  - intros ents ks c k. apply default_ind.
  - intros ents c k [Pc|[A _]] K; [|exfalso; now apply native_not_absorbing]. cbn [psource_resolve]. exact (proj1 (resolve_ents ents _ c k Pc K)).
  - intros c k w Pc K. cbn [psource_resolve]. exact (proj2 (resolve_ents no_ents _ c k Pc K) w).
  - intros c n i Pc Hs B. cbn [psource_resolve default_resolve]. unfold default_resolve1. cbn [is_ignored existsb].
    assert (X : exists v, has_item E no_ents c (KInt i) v).
    { assert (NE : forall A (l : list A), i < Z.of_nat (length l) -> exists v, nth_error l (Z.to_nat i) = Some v).
      { intros A l L. destruct (nth_error l (Z.to_nat i)) eqn:N; [eauto|]. apply nth_error_None in N. lia. }
      cbn in Hs. destruct c; try discriminate; injection Hs as <-.
      - destruct (NE _ (chars s)) as (v & N). { rewrite <- (Z2Nat.id i) in B by lia. clear -B. revert B. assert (length (chars s) = String.length s) by (induction s; cbn; congruence). lia. }
        exists (VStr (String v "")). rewrite <- (Z2Nat.id i) at 1 by lia. now constructor.
      - destruct (NE _ l) as (v & N); [lia|]. exists v. rewrite <- (Z2Nat.id i) at 1 by lia. now constructor.
      - destruct (NE _ l) as (v & N); [lia|]. exists v. rewrite <- (Z2Nat.id i) at 1 by lia. now constructor. }
    destruct X as (v & X). destruct (item_or E no_ents P ND c (KInt i) Pc) as [(w & _ & Pw & ->)|(N & _)]; [|exfalso; now apply (N v)].
    pose proof (P_not_NONE _ _ _ ND w Pw) as Nw. rewrite Nw. cbn [negb]. eauto.
  - intros ents dd c Pc. destruct c; try reflexivity. exfalso. eapply (pn_form _ _ PN); eauto.
  - intros c dd l k Pc Hm Hk. pose proof (nd_ordinary _ _ _ ND _ Pc) as O. destruct c; cbn in Hm; try discriminate; try contradiction.
    2:{ exfalso. eapply (pn_form _ _ PN); eauto. }
    injection Hm as <-. pose proof (pn_keys _ _ PN l0 k Pc Hk) as K. destruct (dict_get_in l0 k Hk K) as (v & G).
    assert (Pv : P v).
    { eapply (nd_item _ _ _ ND); [exact Pc|]. apply item_dict with (k := key_of_val k).
      destruct K as [[z ->]|[s [-> _]]]; exact G. }
    pose proof (P_not_NONE _ _ _ ND v Pv) as Nv.
    split; [destruct K as [[z ->]|[s [-> _]]]; exact I|]. exists v. split; [|right; exact Nv].
    assert (S1 : default_resolve1 E no_ents [] [] [] (VDict l0) (key_of_val k) = Ok v).
    { unfold default_resolve1. cbn [is_ignored existsb]. unfold as_item. cbn [py_getitem].
      assert (val_of_key (key_of_val k) = k) as -> by (destruct K as [[z ->]|[s [-> _]]]; reflexivity).
      rewrite G. cbn [or_NONE]. now rewrite Nv. }
    cbn [psource_resolve]. destruct K as [[z ->]|[s [-> NC]]]; cbn [key_of_val] in *.
    + exact S1.
    + destruct (String.length s); cbn [default_resolve]; rewrite NC, S1, Nv; reflexivity.
Qed.
End Native.
