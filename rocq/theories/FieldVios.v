(** * FieldVios: bounds and string constraints against their specifications. *)
From Verif Require Import PyBase PyStr Source Field Context Fields SpecCtx SpecField.
From Coq Require Import Lia QArith Qpower SpecFloat.
Open Scope Z_scope.

Lemma pow2Q_spec e : (pow2Q e == Qpower 2 e)%Q.
Proof.
  unfold pow2Q. destruct (0 <=? e) eqn:H.
  - apply Z.leb_le in H. rewrite Zpower_Qpower by exact H. reflexivity.
  - apply Z.leb_gt in H. replace e with (- (- e)) at 2 by lia. rewrite Qpower_opp.
    change 2%Q with (inject_Z 2). rewrite <- Zpower_Qpower by lia.
    assert (P : 0 < 2 ^ (- e)) by (apply Z.pow_pos_nonneg; lia).
    unfold Qinv, inject_Z. cbn [Qnum Qden]. destruct (2 ^ (- e)); try lia. reflexivity.
Qed.
Lemma pow10Q_spec e : (pow10Q e == Qpower 10 e)%Q.
Proof.
  unfold pow10Q. destruct (0 <=? e) eqn:H.
  - apply Z.leb_le in H. rewrite Zpower_Qpower by exact H. reflexivity.
  - apply Z.leb_gt in H. replace e with (- (- e)) at 2 by lia. rewrite Qpower_opp.
    change 10%Q with (inject_Z 10). rewrite <- Zpower_Qpower by lia.
    assert (P : 0 < 10 ^ (- e)) by (apply Z.pow_pos_nonneg; lia).
    unfold Qinv, inject_Z. cbn [Qnum Qden]. destruct (10 ^ (- e)); try lia. reflexivity.
Qed.
Lemma number_xnum v q : number v q -> exists q', xnum_of v = Some (XFin q') /\ (q' == q)%Q /\ v <> VNone /\ ignored v = false.
Proof.
  intros H. destruct H as [b|z|sg|sg mm e|mm e]; cbn [xnum_of xnum_of_float];
    (eexists; split; [reflexivity|split; [|repeat split; discriminate]]).
  - destruct b; reflexivity.
  - reflexivity.
  - reflexivity.
  - rewrite pow2Q_spec. destruct sg; [|ring].
    change (inject_Z (Z.neg mm)) with (inject_Z (- Z.pos mm)). rewrite inject_Z_opp. ring.
  - rewrite pow10Q_spec. reflexivity.
Qed.
Lemma number_lt a b p q : number a p -> number b q -> py_lt a b = Ok (Qlt_bool p q).
Proof.
  intros A B. destruct (number_xnum _ _ A) as (p' & Xa & Ep & _). destruct (number_xnum _ _ B) as (q' & Xb & Eq & _).
  unfold py_lt. rewrite Xa, Xb. cbn [orb xnum_ltb xnum_nan]. rewrite Bool.andb_false_r. unfold Qlt_bool. do 2 f_equal.
  apply eq_true_iff_eq. rewrite !Qle_bool_iff. rewrite Ep, Eq. reflexivity.
Qed.
Lemma Qlt_bool_iff p q : Qlt_bool p q = true <-> (p < q)%Q.
Proof.
  unfold Qlt_bool. rewrite negb_true_iff. split; intros H.
  - apply Qnot_le_lt. intros L. apply Qle_bool_iff in L. congruence.
  - apply not_true_iff_false. rewrite Qle_bool_iff. now apply Qlt_not_le.
Qed.

Section Numbers.
Variables (W : world) (f : field) (lo hi : option val) (v : val) (q : Q).
Hypothesis B : bounds (f_kind f) = Some (lo, hi).
Hypothesis N : number v q.
Lemma number_violation ents : field_violation (w_env W) ents f v = vand (vio_below lo (VioMin v) v) (vio_above hi (VioMax v) v).
Proof.
  destruct (number_xnum _ _ N) as (_ & _ & _ & NV & _). unfold field_violation, vio_null.
  destruct v; try congruence; unfold vio_kind; destruct (f_kind f); try discriminate; injection B as -> ->; reflexivity.
Qed.
End Numbers.
Section Bounds.
Variables (W : world) (f : field) (lo hi : option val) (v : val) (q : Q).
Hypothesis B : bounds (f_kind f) = Some (lo, hi).
Hypothesis N : number v q.
Lemma below_min ents b r : lo = Some b -> number b r -> (q < r)%Q -> field_violation (w_env W) ents f v = Ok (Some (VioMin v b)).
Proof.
  intros -> Nb L. rewrite (number_violation _ _ _ _ _ _ B N). unfold vio_below. rewrite (number_lt _ _ _ _ N Nb).
  apply Qlt_bool_iff in L. now rewrite L.
Qed.
Lemma above_max ents b r : (forall c x, lo = Some c -> number c x -> (x <= q)%Q) -> (forall c, lo = Some c -> exists x, number c x) ->
  hi = Some b -> number b r -> (r < q)%Q -> field_violation (w_env W) ents f v = Ok (Some (VioMax v b)).
Proof.
  intros Lo Ln -> Nb L. rewrite (number_violation _ _ _ _ _ _ B N).
  assert (B0 : vio_below lo (VioMin v) v = Ok None).
  { destruct lo as [c|]; [|reflexivity]. destruct (Ln c eq_refl) as (x & Nx). unfold vio_below. rewrite (number_lt _ _ _ _ N Nx).
    specialize (Lo c x eq_refl Nx). destruct (Qlt_bool q x) eqn:Q0; [|reflexivity]. apply Qlt_bool_iff in Q0. apply Qlt_not_le in Q0. contradiction. }
  rewrite B0. cbn [vand]. unfold vio_above. rewrite (number_lt _ _ _ _ Nb N). apply Qlt_bool_iff in L. now rewrite L.
Qed.
Lemma within ents : (forall c, lo = Some c -> exists x, number c x /\ (x <= q)%Q) -> (forall c, hi = Some c -> exists x, number c x /\ (q <= x)%Q) ->
  field_violation (w_env W) ents f v = Ok None.
Proof.
  intros Lo Hi. rewrite (number_violation _ _ _ _ _ _ B N).
  assert (B0 : vio_below lo (VioMin v) v = Ok None).
  { destruct lo as [c|]; [|reflexivity]. destruct (Lo c eq_refl) as (x & Nx & L). unfold vio_below. rewrite (number_lt _ _ _ _ N Nx).
    destruct (Qlt_bool q x) eqn:Q0; [|reflexivity]. apply Qlt_bool_iff in Q0. apply Qlt_not_le in Q0. contradiction. }
  rewrite B0. cbn [vand]. destruct hi as [c|]; [|reflexivity]. destruct (Hi c eq_refl) as (x & Nx & L). unfold vio_above.
  rewrite (number_lt _ _ _ _ Nx N). destruct (Qlt_bool x q) eqn:Q0; [|reflexivity]. apply Qlt_bool_iff in Q0. apply Qlt_not_le in Q0. contradiction.
Qed.
End Bounds.

(** ** Strings *)
Lemma chars_list s : chars s = list_ascii_of_string s.
Proof. induction s; cbn; congruence. Qed.
Lemma existsb_ascii ch l : existsb (Ascii.eqb ch) l = true <-> In ch l.
Proof.
  rewrite existsb_exists. split.
  - intros (x & I & H). apply Ascii.eqb_eq in H. now subst.
  - intros I. exists ch. split; [exact I|]. apply Ascii.eqb_refl.
Qed.
Lemma bad_chars_spec al s ch : In ch (bad_chars al s) <-> In ch (list_ascii_of_string s) /\ ~ In ch al.
Proof.
  unfold bad_chars. rewrite nodup_In, filter_In, chars_list, negb_true_iff, <- not_true_iff_false, existsb_ascii. reflexivity.
Qed.
Lemma bad_chars_nodup al s : NoDup (bad_chars al s).
Proof. apply NoDup_nodup. Qed.
Section Strings.
Variables (E : env) (f : field) (c : strc) (x : string) (ents : entries_of).
Lemma alphabet_dec : (vio_alphabet c (VStr x) = Ok None /\ alphabet_ok c x) \/
  (exists bad, vio_alphabet c (VStr x) = Ok (Some (VioChars bad)) /\ ~ alphabet_ok c x /\ NoDup bad /\
     forall ch, In ch bad <-> In ch (list_ascii_of_string x) /\ ~ In ch (sc_alphabet c)).
Proof.
  unfold vio_alphabet, alphabet_ok. destruct (sc_alphabet c) as [|a al]; [left; auto|].
  destruct (bad_chars (a :: al) x) as [|b bad] eqn:Hb.
  - left. split; [reflexivity|]. right. intros ch I. destruct (in_dec ascii_dec ch (a :: al)) as [i|ni]; [exact i|].
    exfalso. assert (J : In ch (bad_chars (a :: al) x)) by (apply bad_chars_spec; auto). rewrite Hb in J. destruct J.
  - right. exists (b :: bad). split; [reflexivity|]. rewrite <- Hb. split; [|split; [apply bad_chars_nodup|apply bad_chars_spec]].
    intros [X|X]; [discriminate|]. assert (J : In b (bad_chars (a :: al) x)) by (rewrite Hb; now left).
    apply bad_chars_spec in J. destruct J as [J1 J2]. apply J2, X, J1.
Qed.
Lemma min_dec : (vio_min_len ents (sc_min c) (VioMinLen (VStr x)) (VStr x) = Ok None /\ min_ok c x) \/
  (exists n, vio_min_len ents (sc_min c) (VioMinLen (VStr x)) (VStr x) = Ok (Some (VioMinLen (VStr x) n)) /\ sc_min c = Some n /\ ~ min_ok c x).
Proof.
  unfold vio_min_len, min_ok. destruct (sc_min c) as [n|]; [|left; split; [reflexivity|discriminate]]. cbn [py_len].
  destruct (Z.of_nat (String.length x) <? n) eqn:L.
  - right. exists n. apply Z.ltb_lt in L. split; [reflexivity|]. split; [reflexivity|]. intros H. specialize (H n eq_refl). lia.
  - left. apply Z.ltb_ge in L. split; [reflexivity|]. intros k [= <-]. exact L.
Qed.
Lemma max_dec : (vio_max_len ents (sc_max c) (VioMaxLen (VStr x)) (VStr x) = Ok None /\ max_ok c x) \/
  (exists n, vio_max_len ents (sc_max c) (VioMaxLen (VStr x)) (VStr x) = Ok (Some (VioMaxLen (VStr x) n)) /\ sc_max c = Some n /\ ~ max_ok c x).
Proof.
  unfold vio_max_len, max_ok. destruct (sc_max c) as [n|]; [|left; split; [reflexivity|discriminate]]. cbn [py_len].
  destruct (n <? Z.of_nat (String.length x)) eqn:L.
  - right. exists n. apply Z.ltb_lt in L. split; [reflexivity|]. split; [reflexivity|]. intros H. specialize (H n eq_refl). lia.
  - left. apply Z.ltb_ge in L. split; [reflexivity|]. intros k [= <-]. exact L.
Qed.
Lemma pattern_dec : (vio_pattern E c (VStr x) = Ok None /\ pattern_ok E c x) \/
  (exists p, vio_pattern E c (VStr x) = Ok (Some (VioPattern (VStr x) p)) /\ sc_pattern c = Some p /\ ~ pattern_ok E c x).
Proof.
  unfold vio_pattern, pattern_ok. destruct (sc_pattern c) as [p|]; [|left; split; [reflexivity|discriminate]].
  destruct (e_re E p x) as [g|] eqn:R.
  - left. split; [reflexivity|]. intros k [= <-]. eauto.
  - right. exists p. split; [reflexivity|]. split; [reflexivity|]. intros H. destruct (H p eq_refl) as (g & Hg). congruence.
Qed.
Lemma choices_dec : (vio_choices f c (VStr x) = Ok None /\ choices_ok f c x) \/
  (vio_choices f c (VStr x) = Ok (Some (VioChoice (VStr x) (sc_choices c))) /\ ~ choices_ok f c x).
Proof.
  unfold vio_choices, choices_ok. destruct (sc_choices c) as [|a l]; [left; auto|].
  destruct (py_in (VStr x) ((a :: l) ++ map snd (o_translations (f_opts f)))) eqn:P.
  - left. split; [reflexivity|]. right. unfold py_in in P. apply existsb_exists in P. destruct P as (w & I & Q). exists w. split; [exact Q|].
    apply in_app_or in I. destruct I as [I|I]; [now left|right]. apply in_map_iff in I. destruct I as ([k w'] & <- & I). eauto.
  - right. split; [reflexivity|]. intros [X|(w & Q & I)]; [discriminate|]. apply not_true_iff_false in P. apply P.
    unfold py_in. apply existsb_exists. exists w. split; [|exact Q]. apply in_or_app. destruct I as [I|(k & I)]; [now left|right].
    apply in_map_iff. now exists (k, w).
Qed.
Lemma string_cases : f_kind f = KString c ->
  (field_violation E ents f (VStr x) = Ok None /\ string_ok E f c x) \/
  (exists v, field_violation E ents f (VStr x) = Ok (Some v) /\ first_violated E f c x v /\ ~ string_ok E f c x).
Proof.
  intros K. unfold field_violation, vio_null, vio_kind. rewrite K. unfold string_ok.
  destruct alphabet_dec as [(-> & A)|(bad & -> & A & ND & S)]; cbn [vand].
  2:{ right. exists (VioChars bad). split; [reflexivity|]. split; [now apply fv_alphabet|tauto]. }
  destruct min_dec as [(-> & B)|(n & -> & Sn & B)]; cbn [vand].
  2:{ right. eexists. split; [reflexivity|]. split; [now apply fv_min|tauto]. }
  destruct max_dec as [(-> & C)|(n & -> & Sn & C)]; cbn [vand].
  2:{ right. eexists. split; [reflexivity|]. split; [now apply fv_max|tauto]. }
  destruct pattern_dec as [(-> & D)|(p & -> & Sp & D)]; cbn [vand].
  2:{ right. eexists. split; [reflexivity|]. split; [now apply fv_pattern|tauto]. }
  destruct choices_dec as [(-> & F)|(-> & F)].
  - left. tauto.
  - right. eexists. split; [reflexivity|]. split; [now apply fv_choice|tauto].
Qed.
(** At most one constraint is the first violated one. *)
Lemma first_violated_unique v w : first_violated E f c x v -> first_violated E f c x w ->
  v = w \/ exists a b, v = VioChars a /\ w = VioChars b /\ forall ch, In ch a <-> In ch b.
Proof.
  intros A B. destruct A, B; try tauto; try (left; congruence).
  right. exists bad, bad0. repeat split; intros I.
  - apply H4. apply H1 in I. exact I.
  - apply H1. apply H4 in I. exact I.
Qed.
End Strings.
