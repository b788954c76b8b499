(** * ParseProofs: the parsers read what [SpecParse] says. *)
From Coq Require Import ZArith Lia SpecFloat.
From Verif Require Import PyBase Source SpecSrc SpecRound SrcProofs FloatProofs SpecParse.
Open Scope Z_scope.

Lemma whole_read E texts v z : whole v z ->
  float_read E texts v (match float_of_Z z with Ok f => Ok (VFloat f) | Exn e => Exn e end).
Proof.
  intros W. pose proof (float_overflows z) as O1. destruct (float_of_Z z) as [f|e] eqn:F.
  - refine (fr_whole E texts v z _ W _ (float_rounds _ _ F)). intros T. apply O1 in T. discriminate.
  - assert (e = EOverflow) as ->. { unfold float_of_Z in F. destruct (binary_normalize 53 1024 z 0 false); congruence. }
    refine (fr_overflow E texts v z W _). now apply O1.
Qed.
Ltac no_text := intros [? ?]; discriminate.
Ltac no_whole := let X := fresh in intros ? X; inversion X.
Lemma float_reads E (texts : bool) v :
  float_read E texts v
    match v with
    | VFloat f => Ok v
    | VInt z => match float_of_Z z with Ok f => Ok (VFloat f) | Exn e => Exn e end
    | VBool b => match float_of_Z (Z.b2z b) with Ok f => Ok (VFloat f) | Exn e => Exn e end
    | VStr s => if texts then match e_float E s with Some f => Ok (VFloat f) | None => Exn (ESource (NotFloat v)) end
                else Exn (ESource (NotFloat v))
    | _ => Exn (ESource (NotFloat v))
    end.
Proof.
  destruct v; try (apply fr_other; [discriminate|no_whole|no_text]).
  - apply whole_read. destruct b; constructor.
  - apply whole_read. constructor.
  - constructor.
  - destruct texts; [|apply fr_no_text; now left]. destruct (e_float E s) eqn:F; [now apply fr_text|apply fr_no_text; now right].
Qed.
Lemma int_reads v : (exists z, as_int v = Ok (VInt z) /\ denotes v z) \/ (as_int v = Exn (ESource (NotInteger v)) /\ forall z, ~ denotes v z).
Proof.
  destruct (as_int v) as [w|e] eqn:A.
  - destruct (C12_only_lem v w A) as (n & -> & D). left. eauto.
  - right. assert (N : forall z, ~ denotes v z). { intros z D. apply C12_accept_lem in D. congruence. }
    split; [|exact N]. pose proof (C12_reject_lem v N). congruence.
Qed.
Lemma lax_int v : json_as_int false v = as_int v.
Proof. destruct v; reflexivity. Qed.
Lemma json_reads E d strict loc t v : json_read E strict t v (psource_parse E (SJson d strict loc) t v).
Proof.
  cbn [psource_parse]. destruct t; cbn [json_parse].
  - unfold json_as_string. destruct v; try (destruct strict; constructor; no_text).
  - destruct strict.
    + destruct v; try (apply jr_not_int; discriminate). apply jr_int.
    + rewrite lax_int. destruct (int_reads v) as [(z & -> & D)|(-> & N)]; now constructor.
  - apply jr_float. unfold json_as_float. pose proof (float_reads E (negb strict) v) as R.
    destruct v; try exact R. destruct strict; exact R.
  - unfold json_as_bool. destruct v; try (apply jr_no_bool; no_whole); try apply jr_bool.
    destruct strict; [now apply (jr_not_bool E (VInt z) z)|]. destruct (Z.eqb_spec z 0) as [->|N]; cbn [negb]; now constructor.
  - constructor.
Qed.
Lemma native_reads E t v : native_read E t v (mixin_parse E t v).
Proof.
  destruct t; cbn [mixin_parse].
  - unfold as_string. destruct v; try (apply nr_no_text; no_text). constructor.
  - destruct (int_reads v) as [(z & -> & D)|(-> & N)]; now constructor.
  - apply nr_float. exact (float_reads E true v).
  - destruct (as_bool v) as [w|e] eqn:A.
    + assert (exists b, w = VBool b) as (b & ->).
      { destruct v; cbn [as_bool] in A; try discriminate; try (injection A as <-; eauto).
        destruct (existsb _ _); [injection A as <-; eauto|]. destruct (existsb _ _); [injection A as <-; eauto|discriminate]. }
      apply nr_bool. now apply C14_accept_lem.
    + assert (N : forall b, ~ means v b). { intros b D. apply C14_accept_lem in D. congruence. }
      pose proof (C14_reject_lem v N) as R. assert (Exn e = Exn (ESource (NotBoolean v))) as -> by (rewrite <- A; exact R). now apply nr_no_bool.
  - constructor.
Qed.
