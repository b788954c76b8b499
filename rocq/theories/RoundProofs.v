(** * RoundProofs: [float(int)] rounds to nearest, ties to even. *)
From Coq Require Import ZArith Lia SpecFloat.
From Verif Require Import PyBase.
Open Scope Z_scope.

Lemma digits_range m : 2 ^ (Zpos (digits2_pos m) - 1) <= Zpos m < 2 ^ Zpos (digits2_pos m).
Proof.
  induction m as [m IH|m IH|]; cbn [digits2_pos]; [| |cbn; lia];
    rewrite Pos2Z.inj_succ; replace (Z.succ (Zpos (digits2_pos m)) - 1) with (Z.succ (Zpos (digits2_pos m) - 1)) by lia;
    rewrite !Z.pow_succ_r by lia; lia.
Qed.
Lemma digits_are m d : 0 < d -> 2 ^ (d - 1) <= Zpos m < 2 ^ d -> Zpos (digits2_pos m) = d.
Proof.
  intros D R. pose proof (digits_range m) as R'. set (d' := Zpos (digits2_pos m)) in *. assert (0 < d') by (subst d'; lia).
  destruct (Z.lt_total d d') as [L|[L|L]]; [|auto|].
  - assert (2 ^ d <= 2 ^ (d' - 1)) by (apply Z.pow_le_mono_r; lia). lia.
  - assert (2 ^ d' <= 2 ^ (d - 1)) by (apply Z.pow_le_mono_r; lia). lia.
Qed.

(** What is left below the last digit, in halves of it. *)
Definition rests (M k : Z) (x : shr_record) : Prop :=
  0 <= shr_m x /\ exists rest, M = shr_m x * 2 ^ k + rest /\
    match shr_r x, shr_s x with
    | false, false => rest = 0
    | false, true => 0 < rest /\ 2 * rest < 2 ^ k
    | true, false => 2 * rest = 2 ^ k
    | true, true => 2 ^ k < 2 * rest /\ rest < 2 ^ k
    end.
Lemma rests_step M k x : 0 <= k -> rests M k x -> rests M (k + 1) (shr_1 x).
Proof.
  intros K (P & rest & E & R). assert (2 ^ (k + 1) = 2 * 2 ^ k) as PK by (rewrite Z.pow_add_r by lia; lia).
  assert (0 < 2 ^ k) by (apply Z.pow_pos_nonneg; lia).
  destruct x as [m r s]. cbn [shr_m shr_r shr_s] in *. unfold shr_1.
  destruct m as [|[p|p|]|p]; [| | | |lia]; (split; [cbn; lia|]); cbn [shr_m shr_r shr_s].
  - exists rest. rewrite PK. split; [lia|]. destruct r, s; cbn [orb]; lia.
  - exists (2 ^ k + rest). rewrite PK. split; [lia|]. destruct r, s; cbn [orb]; lia.
  - exists rest. rewrite PK. split; [lia|]. destruct r, s; cbn [orb]; lia.
  - exists (2 ^ k + rest). rewrite PK. split; [lia|]. destruct r, s; cbn [orb]; lia.
Qed.
Lemma iter_is {A} (f : A -> A) : forall p x, iter_pos f p x = Pos.iter f x p.
Proof. induction p; intros x; cbn [iter_pos Pos.iter]; rewrite ?IHp, ?Pos.iter_swap; auto. Qed.
Lemma rests_iter M x : rests M 0 x -> forall p, rests M (Zpos p) (iter_pos shr_1 p x).
Proof.
  intros R p. rewrite iter_is. induction p as [|p IH] using Pos.peano_ind; [exact (rests_step M 0 x ltac:(lia) R)|].
  rewrite Pos.iter_succ, Pos2Z.inj_succ. apply rests_step; [lia|exact IH].
Qed.
Lemma rests_shr M e k : 0 <= M -> 0 <= k -> exists x, shr (shr_record_of_loc M loc_Exact) e k = (x, e + k) /\ rests M k x.
Proof.
  intros P K. assert (R : rests M 0 (shr_record_of_loc M loc_Exact)).
  { split; [exact P|]. exists 0. cbn. lia. }
  destruct k as [|k|k]; [|exists (iter_pos shr_1 k (shr_record_of_loc M loc_Exact)); split; [reflexivity|now apply rests_iter]|lia].
  eexists. split; [cbn [shr]; now rewrite Z.add_0_r|exact R].
Qed.
(** Rounded to the nearest, the even one of two. *)
Definition nearest (M k r : Z) : Prop :=
  2 * Z.abs (r * 2 ^ k - M) <= 2 ^ k /\ (2 * Z.abs (r * 2 ^ k - M) = 2 ^ k -> Z.even r = true).
Lemma rests_round M k x : 0 <= k -> rests M k x -> nearest M k (round_nearest_even (shr_m x) (loc_of_shr_record x)) /\
  shr_m x <= round_nearest_even (shr_m x) (loc_of_shr_record x) <= shr_m x + 1.
Proof.
  intros K (P & rest & E & R). assert (0 < 2 ^ k) by (apply Z.pow_pos_nonneg; lia).
  destruct x as [m r s]. cbn [shr_m shr_r shr_s] in *. unfold nearest. destruct r, s; cbn [loc_of_shr_record round_nearest_even].
  - replace ((m + 1) * 2 ^ k - M) with (2 ^ k - rest) by (rewrite E; ring). split; [split; [lia|lia]|lia].
  - destruct (Z.even m) eqn:EV.
    + replace (m * 2 ^ k - M) with (- rest) by (rewrite E; ring). (split; [split; [lia|first [reflexivity|exact (fun _ => EV)|lia|intros _; exact EV]]|lia]).
    + replace ((m + 1) * 2 ^ k - M) with (2 ^ k - rest) by (rewrite E; ring). split; [split; [lia|intros _; now rewrite Z.even_add, EV]|lia].
  - replace (m * 2 ^ k - M) with (- rest) by (rewrite E; ring). (split; [split; [lia|first [reflexivity|exact (fun _ => EV)|lia|intros _; exact EV]]|lia]).
  - replace (m * 2 ^ k - M) with (- rest) by (rewrite E; ring). (split; [split; [lia|first [reflexivity|exact (fun _ => EV)|lia|intros _; exact EV]]|lia]).
Qed.

Lemma rests_range M k x d : 0 <= k -> 1 <= d -> rests M k x -> 2 ^ (d + k - 1) <= M < 2 ^ (d + k) -> 2 ^ (d - 1) <= shr_m x < 2 ^ d.
Proof.
  intros K D (P & rest & E & R) B. assert (0 < 2 ^ k) by (apply Z.pow_pos_nonneg; lia).
  assert (0 <= rest < 2 ^ k) by (destruct (shr_r x), (shr_s x); lia).
  replace (d + k - 1) with (d - 1 + k) in B by lia. rewrite !Z.pow_add_r in B by lia. split; nia.
Qed.

(** The number rounded to 53 digits: those digits, and how far the last is above the units. *)
Lemma binary_round_is sx m : let n := Zpos (digits2_pos m) in
  exists r, 2 ^ 52 <= r <= 2 ^ 53 /\
    (n <= 53 -> r = Zpos m * 2 ^ (53 - n) /\ r < 2 ^ 53) /\ (53 < n -> nearest (Zpos m) (n - 53) r) /\
    binary_round 53 1024 sx m 0 =
      if r <? 2 ^ 53 then (if n <=? 1024 then S754_finite sx (Z.to_pos r) (n - 53) else S754_infinity sx)
      else (if n <=? 1023 then S754_finite sx (2 ^ 52) (n - 52) else S754_infinity sx).
Proof.
  cbv zeta. pose proof (digits_range m) as DR. set (n := Zpos (digits2_pos m)) in *. assert (N : 1 <= n) by (subst n; lia).
  assert (FE : forall d, 1 <= d -> fexp 53 1024 d = d - 53) by (intros d Hd; unfold fexp, emin; lia).
  unfold binary_round. rewrite Z.add_0_r. fold n. rewrite FE by lia.
  assert (AL : exists mz ez k, shl_align m 0 (n - 53) = (mz, ez) /\ 0 <= k /\ ez + k = n - 53 /\ 2 ^ (53 + k - 1) <= Zpos mz < 2 ^ (53 + k) /\
      ((n <= 53 /\ k = 0 /\ Zpos mz = Zpos m * 2 ^ (53 - n)) \/ (53 < n /\ k = n - 53 /\ mz = m))).
  { destruct (Z_le_gt_dec n 53) as [L|G].
    - assert (SH : exists mz, shl_align m 0 (n - 53) = (mz, n - 53) /\ Zpos mz = Zpos m * 2 ^ (53 - n)).
      { unfold shl_align. rewrite Z.sub_0_r. destruct (n - 53) as [|d|d] eqn:Q; [|lia|].
        - exists m. split; [reflexivity|]. replace (53 - n) with 0 by lia. cbn. lia.
        - eexists. split; [reflexivity|]. rewrite shift_pos_correct. replace (53 - n) with (Zpos d) by lia. change (Z.pow_pos 2 d) with (2 ^ Zpos d). ring. }
      destruct SH as (mz & S1 & S2). exists mz, (n - 53), 0. split; [exact S1|]. split; [lia|]. split; [lia|]. split; [|left; lia].
      rewrite S2. replace (2 ^ (53 + 0 - 1)) with (2 ^ (n - 1) * 2 ^ (53 - n)) by (rewrite <- Z.pow_add_r by lia; f_equal; lia).
      replace (2 ^ (53 + 0)) with (2 ^ n * 2 ^ (53 - n)) by (rewrite <- Z.pow_add_r by lia; f_equal; lia).
      assert (0 < 2 ^ (53 - n)) by (apply Z.pow_pos_nonneg; lia). split; nia.
    - exists m, 0, (n - 53). split; [unfold shl_align; rewrite Z.sub_0_r; destruct (n - 53) eqn:Q; try reflexivity; lia|].
      split; [lia|]. split; [lia|]. replace (53 + (n - 53) - 1) with (n - 1) by lia. replace (53 + (n - 53)) with n by lia. split; [exact DR|]. right. lia. }
  destruct AL as (mz & ez & k & -> & K & EK & MR & C).
  assert (DZ : Zpos (digits2_pos mz) = 53 + k) by (apply digits_are; [lia|exact MR]).
  unfold binary_round_aux. unfold shr_fexp at 1. cbn [Zdigits2]. rewrite DZ, FE by lia.
  replace (53 + k + ez - 53 - ez) with k by lia.
  destruct (rests_shr (Zpos mz) ez k ltac:(lia) K) as (x & -> & RX). destruct (rests_round _ _ _ K RX) as [NR BR].
  pose proof (rests_range _ _ _ 53 K ltac:(lia) RX MR) as XR. set (r := round_nearest_even (shr_m x) (loc_of_shr_record x)) in *.
  assert (EX : n <= 53 -> r = Zpos m * 2 ^ (53 - n) /\ r < 2 ^ 53).
  { intros L. destruct C as [(_ & -> & C)|(C & _)]; [|lia]. destruct NR as [NR _]. rewrite <- C. change (2 ^ 0) with 1 in NR. change (2 ^ (53 + 0)) with (2 ^ 53) in MR. lia. }
  assert (RR : 2 ^ 52 <= r <= 2 ^ 53) by (change (53 - 1) with 52 in XR; lia).
  exists r. split; [exact RR|]. split; [exact EX|]. split.
  { intros G. destruct C as [(C & _)|(_ & -> & ->)]; [lia|exact NR]. }
  replace (ez + k) with (n - 53) by lia. clear NR BR C EX.
  clearbody r. clear XR RX MR DR. change (2 ^ 52) with 4503599627370496 in RR. destruct r as [|rp|rp]; [lia| |lia].
  unfold shr_fexp. cbn [Zdigits2].
  destruct (Z.ltb_spec (Zpos rp) (2 ^ 53)) as [L|G].
  - assert (D : Zpos (digits2_pos rp) = 53) by (apply digits_are; [lia|change (2 ^ (53 - 1)) with 4503599627370496; lia]).
    rewrite D, FE by lia. replace (53 + (n - 53) - 53 - (n - 53)) with 0 by lia. cbn [shr shr_record_of_loc shr_m Z.to_pos].
    destruct (Z.leb_spec n 1024), (Zle_bool (n - 53) (1024 - 53)) eqn:Q; try reflexivity; apply Zle_bool_imp_le in Q || (rewrite Zle_is_le_bool in *; try congruence); try lia.
    all: unfold Zle_bool in Q; destruct (Z.compare_spec (n - 53) (1024 - 53)); try discriminate; lia.
  - assert (rp = (2 ^ 53)%positive) as -> by (change (2 ^ 53) with (Zpos (2 ^ 53)) in G, RR; lia).
    change (Zpos (digits2_pos (2 ^ 53))) with 54. rewrite FE by lia. replace (54 + (n - 53) - 53 - (n - 53)) with 1 by lia.
    change (shr (shr_record_of_loc (Zpos (2 ^ 53)) loc_Exact) (n - 53) 1) with ({| shr_m := 2 ^ 52; shr_r := false; shr_s := false |}, n - 53 + 1).
    cbv beta iota. replace (n - 53 + 1) with (n - 52) by lia. change (2 ^ 52)%Z with (Zpos (2 ^ 52)). cbn [shr_m].
    destruct (Z.leb_spec n 1023), (Z.leb_spec (n - 52) (1024 - 53)); try reflexivity; lia.
Qed.
