(** * FloatProofs: [float_of_Z] is [float(int)]. *)
From Coq Require Import ZArith QArith Qabs Qpower Lia Lqa SpecFloat.
From Verif Require Import PyBase Source Field Fields SpecField SpecRound RoundProofs SrcProofs.
Open Scope Z_scope.

Lemma pow2_Q k : 0 <= k -> (Qpower 2 k == inject_Z (2 ^ k))%Q.
Proof. intros K. now rewrite Zpower_Qpower. Qed.
Lemma pow2_split a b : (Qpower 2 (a + b) == Qpower 2 a * Qpower 2 b)%Q.
Proof. apply Qpower_plus. intro. discriminate. Qed.
Lemma pow2_pos k : (0 < Qpower 2 k)%Q.
Proof. apply Qpower_0_lt. reflexivity. Qed.
Lemma inj_abs z : (Qabs (inject_Z z) == inject_Z (Z.abs z))%Q.
Proof. destruct z; reflexivity. Qed.
Lemma inj_minus a b : (inject_Z a - inject_Z b == inject_Z (a - b))%Q.
Proof. unfold Z.sub. rewrite inject_Z_plus, inject_Z_opp. reflexivity. Qed.

Lemma rounds_exact z q : binary53 q -> (q == inject_Z z)%Q -> rounds z q.
Proof.
  intros B E. split; [exact B|]. intros p _. assert (Z0 : (q - inject_Z z == 0)%Q) by (rewrite E; ring).
  split.
  - rewrite Z0. change (Qabs 0) with 0%Q. apply Qabs_nonneg.
  - intros T. left. rewrite Z0 in T. change (Qabs 0) with 0%Q in T. symmetry in T.
    destruct (Qlt_le_dec (p - inject_Z z) 0) as [L|L].
    + rewrite Qabs_neg in T by lra. lra.
    + rewrite Qabs_pos in T by lra. lra.
Qed.
Lemma rounds_near z r k q : 0 < k -> 2 ^ (52 + k) <= z -> 2 ^ 52 <= r <= 2 ^ 53 -> nearest z k r -> (q == inject_Z r * Qpower 2 k)%Q -> rounds z q.
Proof.
  intros K Z1 R [N1 N2] Q. assert (P0 : 0 < 2 ^ k) by (apply Z.pow_pos_nonneg; lia).
  assert (QZ : (q == inject_Z (r * 2 ^ k))%Q) by now rewrite Q, pow2_Q, inject_Z_mult by lia.
  assert (EZ : Z.even r = true -> ends_in_zero q).
  { intros EV. destruct (Z.eq_dec r (2 ^ 53)) as [->|NE].
    - exists (2 ^ 52), (k + 1). split; [split; reflexivity|]. split; [reflexivity|]. rewrite Q, pow2_split.
      change (inject_Z (2 ^ 53)) with (inject_Z (2 ^ 52) * 2)%Q. change (Qpower 2 1) with 2%Q. ring.
    - exists r, k. split; [lia|]. auto. }
  assert (B : binary53 q).
  { destruct (Z.eq_dec r (2 ^ 53)) as [E|NE].
    - destruct EZ as (m & e & M & _ & X); [now subst r|]. exists m, e. split; [lia|exact X].
    - exists r, k. split; [lia|exact Q]. }
  assert (D : (Qabs (q - inject_Z z) == inject_Z (Z.abs (r * 2 ^ k - z)))%Q) by now rewrite QZ, inj_minus, inj_abs.
  split; [exact B|]. intros p (m & e & M & P). rewrite D.
  destruct (Z_lt_le_dec e k) as [L|L].
  - (* below 2^(52+k) *)
    assert (PL : (p < inject_Z (2 ^ (52 + k)))%Q).
    { rewrite <- pow2_Q by lia. replace (52 + k) with (53 + (k - 1 - e) + e) by lia. rewrite pow2_split. rewrite P.
      apply Qmult_lt_compat_r; [apply pow2_pos|]. rewrite pow2_Q by lia. rewrite <- Zlt_Qlt.
      assert (2 ^ 53 <= 2 ^ (53 + (k - 1 - e))) by (apply Z.pow_le_mono_r; lia). lia. }
    assert (ZL : (inject_Z (2 ^ (52 + k)) <= inject_Z z)%Q) by now rewrite <- Zle_Qle.
    assert (X : (inject_Z (Z.abs (r * 2 ^ k - z)) < Qabs (p - inject_Z z))%Q).
    { rewrite Qabs_neg by lra. assert (Y : (inject_Z (Z.abs (r * 2 ^ k - z)) <= inject_Z (z - 2 ^ (52 + k)))%Q).
      { rewrite <- Zle_Qle. rewrite Z.pow_add_r in * by lia. destruct (Z.eq_dec r (2 ^ 52)) as [->|NE]; [lia|].
        assert (2 ^ 52 + 1 <= r) by lia. nia. }
      rewrite <- inj_minus in Y. lra. }
    split; [lra|]. intros T. lra.
  - (* a multiple of 2^k *)
    assert (PZ : (p == inject_Z (m * 2 ^ (e - k) * 2 ^ k))%Q).
    { rewrite P. replace e with ((e - k) + k) at 1 by lia. rewrite pow2_split, !pow2_Q, !inject_Z_mult by lia. ring. }
    set (a := m * 2 ^ (e - k)) in *. rewrite PZ, inj_minus, inj_abs.
    destruct (Z.eq_dec a r) as [->|NE].
    + split; [apply Qle_refl|]. intros _. left. now rewrite QZ.
    + assert (2 ^ k <= Z.abs (a * 2 ^ k - z) + Z.abs (r * 2 ^ k - z)).
      { assert (AR : 2 ^ k <= Z.abs ((a - r) * 2 ^ k)). { rewrite Z.abs_mul, (Z.abs_eq (2 ^ k)) by lia. assert (1 <= Z.abs (a - r)) by lia. nia. }
        rewrite Z.mul_sub_distr_r in AR. lia. }
      split; [rewrite <- Zle_Qle; lia|]. intros T. right. apply EZ, N2. rewrite inject_Z_injective in T. lia.
Qed.
Lemma binary53_opp q : binary53 q -> binary53 (- q).
Proof. intros (m & e & M & E). exists (- m), e. split; [lia|]. rewrite E, inject_Z_opp. ring. Qed.
Lemma rounds_opp z q : rounds z q -> rounds (- z) (- q).
Proof.
  intros [B R]. assert (AB : forall p, (Qabs (p - inject_Z (- z)) == Qabs (- p - inject_Z z))%Q).
  { intros p. rewrite <- (Qabs_opp (- p - inject_Z z)). apply Qabs_wd. rewrite inject_Z_opp. ring. }
  split; [now apply binary53_opp|]. intros p P. rewrite !AB. rewrite Qopp_involutive. destruct (R (- p)%Q (binary53_opp _ P)) as [R1 R2].
  split; [exact R1|]. intros T. destruct (R2 T) as [T'|(m & e & M & EV & E)]; [left; rewrite <- T'; ring|].
  right. exists (- m), e. split; [lia|]. split; [now rewrite Z.even_opp|]. rewrite E, inject_Z_opp. ring.
Qed.

Lemma round_rounds m sx f : binary_round 53 1024 sx m 0 = f -> (forall s, f <> S754_infinity s) ->
  exists r e, f = S754_finite sx r e /\ rounds (Zpos m) (inject_Z (Zpos r) * Qpower 2 e)%Q.
Proof.
  intros Q NI. pose proof (digits_range m) as DR. destruct (binary_round_is sx m) as (r & R & SM & BG & X).
  set (n := Zpos (digits2_pos m)) in *. assert (1 <= n) by (subst n; lia). rewrite X in Q. clear X.
  destruct (Z.ltb_spec r (2 ^ 53)) as [L|G].
  - destruct (n <=? 1024); [|destruct (NI _ (eq_sym Q))]. subst f. exists (Z.to_pos r), (n - 53). split; [reflexivity|]. rewrite Z2Pos.id by lia.
    destruct (Z_le_gt_dec n 53) as [S|S].
    + destruct (SM S) as [-> _]. apply rounds_exact; [exists (Zpos m * 2 ^ (53 - n)), (n - 53); split; [lia|reflexivity]|].
      rewrite inject_Z_mult, <- pow2_Q, <- Qmult_assoc, <- pow2_split by lia. replace (53 - n + (n - 53)) with 0 by lia. change (Qpower 2 0) with 1%Q. ring.
    + apply (rounds_near _ r (n - 53)); [lia|replace (52 + (n - 53)) with (n - 1) by lia; lia|lia|apply BG; lia|reflexivity].
  - assert (r = 2 ^ 53) as -> by lia. destruct (n <=? 1023); [|destruct (NI _ (eq_sym Q))]. subst f. exists (2 ^ 52)%positive, (n - 52). split; [reflexivity|].
    destruct (Z_le_gt_dec n 53) as [S|S]; [destruct (SM S); lia|].
    apply (rounds_near _ (2 ^ 53) (n - 53)); [lia|replace (52 + (n - 53)) with (n - 1) by lia; lia|lia|apply BG; lia|].
    replace (n - 52) with (1 + (n - 53)) by lia. rewrite pow2_split. change (Qpower 2 1) with 2%Q.
    change (inject_Z (2 ^ 53)) with (inject_Z (Zpos (2 ^ 52)) * 2)%Q. ring.
Qed.
Lemma rounds_eq z q q' : (q == q')%Q -> rounds z q -> rounds z q'.
Proof.
  intros E [(m & e & M & B) R]. split; [exists m, e; split; [exact M|now rewrite <- E]|]. intros p P. destruct (R p P) as [R1 R2].
  assert (A : (Qabs (q' - inject_Z z) == Qabs (q - inject_Z z))%Q) by (apply Qabs_wd; now rewrite E).
  split; [now rewrite A|].
  intros T. rewrite A in T. destruct (R2 T) as [T'|(m' & e' & M' & EV & X)]; [left; now rewrite T'|]. right. exists m', e'. split; [exact M'|]. split; [exact EV|]. now rewrite <- E.
Qed.
Lemma float_rounds z f : float_of_Z z = Ok f -> float_of z (VFloat f).
Proof.
  unfold float_of_Z. destruct z as [|m|m]; cbn [binary_normalize].
  - intros [= <-]. split; [|discriminate]. exists 0%Q. split; [constructor|]. apply rounds_exact; [|reflexivity]. exists 0, 0. split; [lia|reflexivity].
  - destruct (binary_round 53 1024 false m 0) as [s|s| |s r e] eqn:Q; intros H; try discriminate;
      destruct (round_rounds _ _ _ Q ltac:(discriminate)) as (r' & e' & E & R); try discriminate. injection H as <-. injection E as -> -> ->.
    split; [|discriminate]. eexists. split; [constructor|]. refine (rounds_eq _ _ _ _ R). ring.
  - destruct (binary_round 53 1024 true m 0) as [s|s| |s r e] eqn:Q; intros H; try discriminate;
      destruct (round_rounds _ _ _ Q ltac:(discriminate)) as (r' & e' & E & R); try discriminate. injection H as <-. injection E as -> -> ->.
    split; [|discriminate]. eexists. split; [constructor|]. refine (rounds_eq _ _ _ _ (rounds_opp _ _ R)). ring.
Qed.
(** It overflows from half a digit above the greatest double. *)
Lemma round_overflows m sx : (exists s, binary_round 53 1024 sx m 0 = S754_infinity s) <-> 2 ^ 1024 - 2 ^ 970 <= Zpos m.
Proof.
  pose proof (digits_range m) as DR. destruct (binary_round_is sx m) as (r & R & SM & BG & X).
  set (n := Zpos (digits2_pos m)) in *. assert (N1 : 1 <= n) by (subst n; lia). rewrite X. clear X.
  assert (P52 : 2 ^ 1024 - 2 ^ 970 > 2 ^ 1023) by reflexivity.
  destruct (Z_lt_le_dec 1024 n) as [N|N].
  - assert (2 ^ 1024 <= 2 ^ (n - 1)) by (apply Z.pow_le_mono_r; lia).
    assert (0 < 2 ^ 970) by reflexivity. split; [lia|]. intros _.
    destruct (r <? 2 ^ 53), (Z.leb_spec n 1024), (Z.leb_spec n 1023); try lia; eauto.
  - destruct (Z.eq_dec n 1024) as [E|NE].
    + assert (G : 53 < n) by lia. destruct (BG G) as [B1 B2]. rewrite E in *. change (1024 - 53) with 971 in *. change (1024 <=? 1024) with true. change (1024 <=? 1023) with false. cbv iota.
      replace (2 ^ 1024) with (2 ^ 53 * 2 ^ 971) in * by reflexivity. replace (2 ^ 971) with (2 * 2 ^ 970) in * by reflexivity.
      set (h := 2 ^ 970) in *. assert (0 < h) by reflexivity. clearbody h. set (b := 2 ^ 53) in *. assert (EB : Z.even (b - 1) = false) by reflexivity. clearbody b.
      destruct (Z.ltb_spec r b) as [L|L].
      * split; [intros [s Hs]; discriminate|]. intros H9. exfalso.
        assert (r <= b - 1) by lia. assert (Zpos m - r * (2 * h) >= h) by nia.
        assert (r = b - 1) as -> by nia. rewrite B2 in EB; [discriminate|]. nia.
      * split; [intros _|eauto]. assert (r = b) as -> by lia. nia.
    + assert (2 ^ n <= 2 ^ 1023) by (apply Z.pow_le_mono_r; lia). split; [|lia]. intros [s Hs].
      destruct (r <? 2 ^ 53), (Z.leb_spec n 1024), (Z.leb_spec n 1023); try lia; discriminate.
Qed.
Lemma float_overflows z : float_of_Z z = Exn EOverflow <-> 2 ^ 1024 - 2 ^ 970 <= Z.abs z.
Proof.
  unfold float_of_Z. destruct z as [|m|m]; cbn [binary_normalize Z.abs].
  - split; [discriminate|]. intros H. exfalso. revert H. now apply Z.lt_nge.
  - rewrite <- (round_overflows m false). destruct (binary_round 53 1024 false m 0); split; try discriminate; try (intros [? ?]; discriminate); eauto.
  - rewrite <- (round_overflows m true). destruct (binary_round 53 1024 true m 0); split; try discriminate; try (intros [? ?]; discriminate); eauto.
Qed.

(** C15 *)
Lemma C15_value_lem E d loc t v w : psource_parse E (SJson d true loc) t v = Ok w ->
  w = v \/ (t = TyFloat /\ exists z, (v = VInt z \/ exists b, v = VBool b /\ z = Z.b2z b) /\ float_of z w).
Proof.
  intros H. destruct (C15_same_lem E t v w H) as [->|(-> & z & f & V & F & ->)]; [now left|]. right. split; [reflexivity|]. exists z. split; [exact V|]. now apply float_rounds.
Qed.
Lemma C15_float_lem E d loc strict z :
  (Z.abs z < 2 ^ 1024 - 2 ^ 970 -> exists w, psource_parse E (SJson d strict loc) TyFloat (VInt z) = Ok w /\ float_of z w) /\
  (2 ^ 1024 - 2 ^ 970 <= Z.abs z -> psource_parse E (SJson d strict loc) TyFloat (VInt z) = Exn EOverflow).
Proof.
  change (psource_parse E (SJson d strict loc) TyFloat (VInt z)) with (match float_of_Z z with Ok f => Ok (VFloat f) | Exn e => Exn e end).
  pose proof (float_overflows z) as O1. split; intros H.
  - destruct (float_of_Z z) as [f|e] eqn:F; [eexists; split; [reflexivity|now apply float_rounds]|].
    exfalso. assert (e = EOverflow) as ->. { unfold float_of_Z in F. destruct (binary_normalize 53 1024 z 0 false); congruence. }
    destruct O1 as [O1 _]. specialize (O1 eq_refl). revert O1. now apply Z.lt_nge.
  - destruct O1 as [_ O1]. now rewrite (O1 H).
Qed.
