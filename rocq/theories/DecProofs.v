(** * DecProofs: what a Decimal field makes of numbers and texts (C94). *)
From Verif Require Import PyBase PyStr Source Field Context Fields SpecCtx SpecField Shape Reads Balance CtxProofs Run FieldProofs FieldVios FieldLemmas.
From Coq Require Import Lia QArith Qpower.
Open Scope Z_scope.

(** ** The decimal of a number *)
Lemma dec_exact v q : number v q -> (forall d, v <> VDec d) ->
  exists d q', dec_of_number v = Some d /\ number (VDec d) q' /\ (q' == q)%Q.
Proof.
  intros N ND. destruct N as [b|z|sg|sg m e|m e]; [| | | |exfalso; now apply (ND (DFin m e))].
  - eexists. eexists. split; [reflexivity|]. split; [apply n_dec|]. destruct b; reflexivity.
  - eexists. eexists. split; [reflexivity|]. split; [apply n_dec|]. cbn. apply Qmult_1_r.
  - eexists. eexists. split; [reflexivity|]. split; [apply n_dec|]. reflexivity.
  - cbn [dec_of_number]. set (z := if sg then Z.neg m else Z.pos m).
    assert (Z1 : ((if sg then -1 else 1) * inject_Z (Z.pos m) == inject_Z z)%Q) by (subst z; destruct sg; reflexivity).
    destruct (0 <=? e) eqn:E.
    + apply Z.leb_le in E. do 2 eexists. split; [reflexivity|]. split; [apply n_dec|].
      rewrite Z1. cbn [Qpower]. rewrite Qmult_1_r. rewrite inject_Z_mult.
      assert (P : (inject_Z (2 ^ e) == 2 ^ e)%Q) by (rewrite Zpower_Qpower by exact E; reflexivity). now rewrite P.
    + apply Z.leb_gt in E. do 2 eexists. split; [reflexivity|]. split; [apply n_dec|].
      rewrite Z1, inject_Z_mult. rewrite <- Qmult_assoc. apply Qmult_comp; [reflexivity|].
      rewrite (Zpower_Qpower 5 (- e)) by lia. change (inject_Z 5) with (5 # 1)%Q.
      setoid_replace (10 # 1)%Q with ((2 # 1) * (5 # 1))%Q by reflexivity. rewrite Qmult_power.
      rewrite (Qmult_comm ((2 # 1) ^ e) ((5 # 1) ^ e)), Qmult_assoc, <- Qpower_plus by discriminate.
      replace (- e + e) with 0 by lia. cbn [Qpower]. apply Qmult_1_l.
Qed.

Section Thms.
Variables (W : world) (n : nat) (f : field) (s : st) (eid : nat) (m : mode) (es : list err) (pid : nat) (p : path) (igd igm : bool).
Hypothesis MP : mapping W s eid m es pid p igd igm.

Lemma decimal_checked q1 q2 q4 d t o : hook_free f ->
  p_exists (w_env W) (entries s) (place f p) = (q1, Ok true) ->
  p_is_null (w_env W) (entries s) q1 = (q2, Ok false) -> p_str (w_env W) q4 = Ok t ->
  parse_kind W (field_map W n) (f_kind f) pid (after_read f NONEv s pid p q2) = (Ok (VDec d), after_read f NONEv s pid p q4) ->
  untouched f (VDec d) -> field_violation (w_env W) (entries s) f (VDec d) = Ok o ->
  match o with
  | None => yields W (S n) f NONEv s eid m es (VDec d) []
  | Some x => yields W (S n) f NONEv s eid m es ERRORv [invalid_at f pid x t]
  end.
Proof.
  intros HF X1 X2 Tq PK (L & DG & I) V.
  pose proof (body_parsed W n f NONEv s eid m es pid p igd igm MP (hf_read _ HF) HF q1 q2 q4 (Ok (VDec d))) as B.
  specialize (B eq_refl X1 X2 PK eq_refl). cbv beta iota in B.
  rewrite (after_run W n f NONEv s eid m es pid p igd igm MP HF (VDec d) (VDec d) q4 t Tq L (translated_is f _ _ (tr_miss f _ DG)) eq_refl), I in B.
  unfold violated in B. rewrite V in B.
  destruct o as [x|]; apply (yields_of W n f NONEv s eid m es pid p igd igm MP (hf_read _ HF)) with (q := q4); rewrite B; [reflexivity|].
  rewrite (reported_nil W f NONEv s eid m es pid p igd igm MP). destruct m; reflexivity.
Qed.

Lemma decimal_held q1 q2 q4 lo hi d q q' t : hook_free f -> f_kind f = KDecimal lo hi ->
  p_exists (w_env W) (entries s) (place f p) = (q1, Ok true) ->
  p_is_null (w_env W) (entries s) q1 = (q2, Ok false) -> p_str (w_env W) q4 = Ok t ->
  parse_kind W (field_map W n) (f_kind f) pid (after_read f NONEv s pid p q2) = (Ok (VDec d), after_read f NONEv s pid p q4) ->
  untouched f (VDec d) -> number (VDec d) q' -> (q' == q)%Q -> held_to W (S n) f s eid m es pid t lo hi d q.
Proof.
  intros HF K X1 X2 Tq PK U N Q.
  assert (B : bounds (f_kind f) = Some (lo, hi)) by (rewrite K; reflexivity).
  pose proof (fun o => decimal_checked q1 q2 q4 d t o HF X1 X2 Tq PK U) as C. split.
  - intros Lo Hi. apply (C None). apply (within W f lo hi (VDec d) q' B N).
    + intros c H. destruct (Lo c H) as (x & A & L). exists x. split; [exact A|]. now rewrite Q.
    + intros c H. destruct (Hi c H) as (x & A & L). exists x. split; [exact A|]. now rewrite Q.
  - intros b r H Nb L. apply (C (Some (VioMin (VDec d) b))). apply (below_min W f lo hi (VDec d) q' B N (entries s) b r H Nb). now rewrite Q.
  - intros b r Lo H Nb L. apply (C (Some (VioMax (VDec d) b))).
    apply (above_max W f lo hi (VDec d) q' B N (entries s) b r); [| |exact H|exact Nb|now rewrite Q].
    + intros c x Hc Nx. destruct (Lo c Hc) as (y & Ny & L'). rewrite (number_unique _ _ _ Nx Ny). now rewrite Q.
    + intros c Hc. destruct (Lo c Hc) as (y & Ny & _). eauto.
Qed.

Lemma C94_number_lem lo hi v q t : hook_free f -> f_kind f = KDecimal lo hi -> finds_value W s f p v -> number v q ->
  p_str (w_env W) (place f p) = Ok t ->
  exists d q', number (VDec d) q' /\ (q' == q)%Q /\ (forall d0, v = VDec d0 -> d = d0) /\
    (untouched f (VDec d) -> held_to W (S n) f s eid m es pid t lo hi d q).
Proof.
  intros HF K (q1 & q2 & q3 & X1 & X2 & X3) N T.
  assert (T3 : p_str (w_env W) q3 = Ok t).
  { assert (p_str (w_env W) q3 = p_str (w_env W) q2) as -> by (apply (str_after W s p_value _ _ _ (t_value (w_env W)) X3)).
    rewrite (str_after W s p_is_null _ _ _ (t_is_null (w_env W)) X2), (str_after W s p_exists _ _ _ (t_exists (w_env W)) X1). exact T. }
  assert (C : (exists d, v = VDec d) \/ (forall d, v <> VDec d)) by (destruct v; try (right; discriminate); left; eauto).
  destruct C as [(d & ->)|ND].
  - exists d, q. split; [exact N|]. split; [reflexivity|]. split; [congruence|]. intros U.
    apply (decimal_held q1 q2 q3 lo hi d q q t HF K X1 X2 T3); [|exact U|exact N|reflexivity].
    rewrite K. cbn [parse_kind]. unfold parse_decimal. rewrite bind_run, (value_run W f s eid m es pid p igd igm MP _ _ _ X3). reflexivity.
  - destruct (dec_exact v q N ND) as (d & q' & D & Nd & Q). exists d, q'. split; [exact Nd|]. split; [exact Q|].
    split; [intros d0 ->; exfalso; now apply (ND d0)|]. intros U.
    apply (decimal_held q1 q2 q3 lo hi d q q' t HF K X1 X2 T3); [|exact U|exact Nd|exact Q].
    rewrite K. cbn [parse_kind]. unfold parse_decimal. rewrite bind_run, (value_run W f s eid m es pid p igd igm MP _ _ _ X3). rewrite D.
    destruct v; try reflexivity. exfalso. eapply ND; reflexivity.
Qed.
Lemma C94_text_lem lo hi x d q t : hook_free f -> f_kind f = KDecimal lo hi -> reads_text W s f p x -> e_dec (w_env W) x = Some d ->
  number (VDec d) q -> p_str (w_env W) (place f p) = Ok t -> untouched f (VDec d) ->
  held_to W (S n) f s eid m es pid t lo hi d q.
Proof.
  intros HF K (q1 & q2 & q3 & q4 & y & X1 & X2 & X3 & X4) D N T U.
  assert (T4 : p_str (w_env W) q4 = Ok t).
  { rewrite (str_prim W s _ _ _ _ X4). assert (p_str (w_env W) q3 = p_str (w_env W) q2) as -> by (apply (str_after W s p_value _ _ _ (t_value (w_env W)) X3)).
    rewrite (str_after W s p_is_null _ _ _ (t_is_null (w_env W)) X2), (str_after W s p_exists _ _ _ (t_exists (w_env W)) X1). exact T. }
  apply (decimal_held q1 q2 q4 lo hi d q q t HF K X1 X2 T4); [|exact U|exact N|reflexivity].
  rewrite K. cbn [parse_kind]. unfold parse_decimal. rewrite bind_run, (value_run W f s eid m es pid p igd igm MP _ _ _ X3). cbn [dec_of_number]. rewrite bind_run.
  rewrite (prim_run W f NONEv s eid m es pid p igd igm MP TyStr _ _ _ X4). rewrite D. reflexivity.
Qed.
(** Infinities and NaN *)
Lemma C94_special_lem x d t : hook_free f -> f_kind f = KDecimal None None -> finds_value W s f p (VFloat x) -> special x d ->
  p_str (w_env W) (place f p) = Ok t -> untouched f (VDec d) -> yields W (S n) f NONEv s eid m es (VDec d) [].
Proof.
  intros HF K (q1 & q2 & q3 & X1 & X2 & X3) SP T U.
  assert (T3 : p_str (w_env W) q3 = Ok t).
  { assert (p_str (w_env W) q3 = p_str (w_env W) q2) as -> by (apply (str_after W s p_value _ _ _ (t_value (w_env W)) X3)).
    rewrite (str_after W s p_is_null _ _ _ (t_is_null (w_env W)) X2), (str_after W s p_exists _ _ _ (t_exists (w_env W)) X1). exact T. }
  apply (decimal_checked q1 q2 q3 d t None HF X1 X2 T3); [|exact U|unfold field_violation, vio_kind; rewrite K; destruct SP; reflexivity].
  rewrite K. cbn [parse_kind]. unfold parse_decimal. rewrite bind_run, (value_run W f s eid m es pid p igd igm MP _ _ _ X3). destruct SP; reflexivity.
Qed.
End Thms.
