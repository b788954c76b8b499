(** * SrcProofs: parsers, path text and native lookup (C09-C15). *)
From Verif Require Import PyBase PyStr Source Field SpecSrc.
From Coq Require Import Lia.

(** ** Characters *)
Lemma chars_of l : chars (of_chars l) = l.
Proof. induction l; cbn; congruence. Qed.
Lemma of_chars_chars s : of_chars (chars s) = s.
Proof. induction s; cbn; congruence. Qed.
Lemma chars_app a b : chars (a ++ b)%string = chars a ++ chars b.
Proof. induction a; cbn; congruence. Qed.
Lemma chars_inj a b : chars a = chars b -> a = b.
Proof. intros H. rewrite <- (of_chars_chars a), <- (of_chars_chars b). now rewrite H. Qed.

(** ** Digits *)
Lemma parse_digits_app a : forall acc b,
  parse_digits acc (a ++ b) = match parse_digits acc a with Some n => parse_digits n b | None => None end.
Proof. induction a as [|c a IH]; intros acc b; cbn; [reflexivity|]. destruct (digit_of c); auto. Qed.
Lemma digits_parse l n : digits l n -> l <> [] /\ parse_digits 0 l = Some n.
Proof.
  induction 1 as [c d H|l c n d _ [_ IH] H].
  - split; [discriminate|]. cbn. rewrite H. reflexivity.
  - split; [now destruct l|]. rewrite parse_digits_app, IH. cbn [parse_digits]. rewrite H. reflexivity.
Qed.
Lemma parse_digits_spec l : forall n, l <> [] -> parse_digits 0 l = Some n -> digits l n.
Proof.
  induction l as [|c l IH] using rev_ind; intros n NE H; [congruence|].
  rewrite parse_digits_app in H. destruct (parse_digits 0 l) as [m|] eqn:Hm; [|discriminate].
  cbn [parse_digits] in H. destruct (digit_of c) as [d|] eqn:Hd; [|discriminate]. injection H as <-.
  destruct l as [|x l].
  - cbn in Hm. injection Hm as <-. cbn [app]. replace (10 * 0 + d) with d by lia. now constructor.
  - apply digits_more; [|exact Hd]. apply IH; [discriminate|reflexivity].
Qed.
Lemma parse_nat_iff l n : parse_nat l = Some n <-> digits l n.
Proof.
  unfold parse_nat. split.
  - destruct l as [|c l]; [discriminate|]. intros H. apply parse_digits_spec; [discriminate|exact H].
  - intros H. destruct (digits_parse _ _ H) as [NE P]. destruct l; [congruence|exact P].
Qed.

(** ** White space *)
Lemma blank_drop a : blank a -> forall l, drop_space (a ++ l) = drop_space l.
Proof. induction 1 as [|c a H _ IH]; intros l; cbn; [reflexivity|]. now rewrite H. Qed.
Definition starts_dark (l : list ascii) : Prop := match l with [] => True | c :: _ => is_space c = false end.
Lemma drop_dark l : starts_dark l -> drop_space l = l.
Proof. destruct l; cbn; [reflexivity|]. now intros ->. Qed.
Lemma drop_split l : exists a, blank a /\ l = a ++ drop_space l.
Proof.
  induction l as [|c l (a & B & E)]; [exists []; split; [constructor|reflexivity]|]. cbn.
  destruct (is_space c) eqn:H.
  - exists (c :: a). split; [constructor; auto|]. cbn. congruence.
  - exists []. split; [constructor|reflexivity].
Qed.
Lemma blank_rev a : blank a -> blank (rev a).
Proof. apply Forall_rev. Qed.
Lemma strip_spec a m b : blank a -> blank b -> starts_dark m -> starts_dark (rev m) ->
  strip_chars (a ++ m ++ b) = m.
Proof.
  intros A B M M'. unfold strip_chars. rewrite (blank_drop a A).
  destruct m as [|c m].
  - cbn [app]. destruct (drop_split b) as (x & Bx & Ex).
    assert (D : drop_space b = []).
    { clear -B. induction B as [|c b H _ IH]; cbn; [reflexivity|]. now rewrite H. }
    now rewrite D.
  - rewrite (drop_dark ((c :: m) ++ b)) by exact M. rewrite rev_app_distr, (blank_drop _ (blank_rev _ B)).
    rewrite (drop_dark _ M'). apply rev_involutive.
Qed.
Lemma strip_decomp l : exists a b, blank a /\ blank b /\ l = a ++ strip_chars l ++ b.
Proof.
  unfold strip_chars. destruct (drop_split l) as (a & A & E).
  destruct (drop_split (rev (drop_space l))) as (b & B & E').
  exists a, (rev b). split; [exact A|]. split; [now apply blank_rev|].
  rewrite E at 1. f_equal. apply (f_equal (@rev ascii)) in E'. rewrite rev_involutive, rev_app_distr in E'. exact E'.
Qed.
Lemma digit_dark c d : digit_of c = Some d -> is_space c = false.
Proof.
  unfold digit_of, is_space. destruct (Nat.leb_spec 48 (nat_of_ascii c)); cbn; [|discriminate]. intros _.
  apply Bool.orb_false_iff; split; [apply Bool.andb_false_iff; right; apply Nat.leb_gt; lia|apply Nat.eqb_neq; lia].
Qed.
Lemma digits_last l n : digits l n -> exists l' c d, l = l' ++ [c] /\ digit_of c = Some d.
Proof. intros [c d H|l' c m d _ H]; [exists [], c, d|exists l', c, d]; auto. Qed.
Lemma digits_first l n : digits l n -> exists c d l', l = c :: l' /\ digit_of c = Some d.
Proof.
  induction 1 as [c d H|l c m d _ (x & y & l' & E & H') H]; [exists c, d, []; auto|]. subst l. exists x, y, (l' ++ [c]). auto.
Qed.
Lemma signed_dark m n : signed m n -> starts_dark m /\ starts_dark (rev m).
Proof.
  intros [l k H|l k H|l k H]; destruct (digits_last _ _ H) as (l' & c & d & E & D); 
    destruct (digits_first _ _ H) as (x & y & l2 & E2 & D2); (split;
    [|subst l; rewrite ?app_comm_cons, rev_app_distr; cbn; eapply digit_dark; eauto]); try reflexivity.
  rewrite E2. cbn. eapply digit_dark; eauto.
Qed.
Lemma digit_not_sign c d : digit_of c = Some d -> Ascii.eqb c "-" = false /\ Ascii.eqb c "+" = false.
Proof.
  intros H. split; apply Ascii.eqb_neq; intros ->; vm_compute in H; discriminate.
Qed.
Lemma parse_int_iff s n : parse_int s = Some n <-> int_text s n.
Proof.
  unfold parse_int, int_text. split.
  - intros H. destruct (strip_decomp (chars s)) as (a & b & A & B & E). exists a, (strip_chars (chars s)), b.
    split; [exact E|]. split; [exact A|]. split; [exact B|]. clear E.
    destruct (strip_chars (chars s)) as [|c l]; [discriminate|].
    destruct (Ascii.eqb_spec c "-") as [->|N1].
    + destruct (parse_nat l) as [m|] eqn:Hm; [|discriminate]. cbn in H. injection H as <-.
      apply sign_minus. now apply parse_nat_iff.
    + destruct (Ascii.eqb_spec c "+") as [->|N2]; [apply sign_plus|apply sign_none]; now apply parse_nat_iff.
  - intros (a & m & b & E & A & B & Sg). destruct (signed_dark _ _ Sg) as [D1 D2].
    rewrite E, (strip_spec a m b A B D1 D2). destruct Sg as [l k H|l k H|l k H].
    + destruct (digits_first _ _ H) as (c & d & l' & -> & Hd). destruct (digit_not_sign _ _ Hd) as [-> ->].
      now apply parse_nat_iff.
    + cbn. now apply parse_nat_iff.
    + cbn. apply parse_nat_iff in H. now rewrite H.
Qed.

(** ** Printing *)
Lemma digit_char z : 0 <= z < 10 -> digit_of (ascii_of_nat (Z.to_nat (48 + z))) = Some z.
Proof.
  intros H. assert (C : z = 0 \/ z = 1 \/ z = 2 \/ z = 3 \/ z = 4 \/ z = 5 \/ z = 6 \/ z = 7 \/ z = 8 \/ z = 9) by lia.
  repeat destruct C as [->|C]; try reflexivity. subst; reflexivity.
Qed.
Lemma digits_cons d c : forall l n, digit_of c = Some d -> digits l n -> 
  digits (c :: l) (d * 10 ^ Z.of_nat (length l) + n).
Proof.
  intros l n Hc. induction 1 as [x y H|l x n y _ IH H].
  - change [c; x] with ([c] ++ [x]). replace (d * 10 ^ Z.of_nat (length [x]) + y) with (10 * d + y) by (cbn [length]; change (10 ^ Z.of_nat 1) with 10; lia).
    apply digits_more; [now constructor|exact H].
  - rewrite app_comm_cons. rewrite app_length. cbn [length].
    replace (d * 10 ^ Z.of_nat (length l + 1) + (10 * n + y)) with (10 * (d * 10 ^ Z.of_nat (length l) + n) + y).
    + apply digits_more; auto.
    + rewrite Nat2Z.inj_add, Z.pow_add_r by lia. change (10 ^ Z.of_nat 1) with 10. lia.
Qed.
Lemma print_fuel f : forall z acc, 0 <= z -> (Z.to_nat (Z.log2 z) < f)%nat ->
  exists ds, print_pos_fuel f z acc = ds ++ acc /\ digits ds z.
Proof.
  induction f as [|f IH]; intros z acc Hz Hf; [lia|]. cbn [print_pos_fuel].
  assert (Dg : digit_of (ascii_of_nat (Z.to_nat (48 + z mod 10))) = Some (z mod 10)) by (apply digit_char, Z.mod_pos_bound; lia).
  assert (Q : 0 <= z / 10) by (apply Z.div_pos; lia).
  destruct (Z.eqb_spec (z / 10) 0) as [E|NE].
  - exists [ascii_of_nat (Z.to_nat (48 + z mod 10))]. split; [reflexivity|].
    assert (Em : z mod 10 = z) by (rewrite (Z.div_mod z 10) at 2 by lia; lia). rewrite Em in *. now constructor.
  - assert (L : Z.log2 (z / 10) < Z.log2 z).
    { assert (P : 0 < z / 10) by lia. pose proof (Z.log2_double _ P).
      assert (2 * (z / 10) <= z) by (pose proof (Z.mul_div_le z 10); lia).
      pose proof (Z.log2_le_mono _ _ H0). lia. }
    pose proof (Z.log2_nonneg (z / 10)).
    destruct (IH (z / 10) (ascii_of_nat (Z.to_nat (48 + z mod 10)) :: acc)) as (ds & E & D); [exact Q|lia|].
    exists (ds ++ [ascii_of_nat (Z.to_nat (48 + z mod 10))]). split; [rewrite E, <- app_assoc; reflexivity|].
    rewrite (Z.div_mod z 10) at 2 by lia. now apply digits_more.
Qed.
Lemma print_nat_digits z : 0 <= z -> digits (print_nat z) z.
Proof.
  intros H. unfold print_nat. destruct (print_fuel (S (Z.to_nat (Z.log2 z))) z []) as (ds & -> & D); [exact H|lia|].
  now rewrite app_nil_r.
Qed.
Lemma print_signed z : signed (chars (print_int z)) z.
Proof.
  unfold print_int. destruct (Z.ltb_spec z 0) as [L|G]; rewrite chars_of.
  - replace z with (- - z) at 2 by lia. apply sign_minus, print_nat_digits. lia.
  - apply sign_none, print_nat_digits. lia.
Qed.
Lemma int_text_pad a b z s : blank a -> blank b -> chars s = a ++ chars (print_int z) ++ b -> int_text s z.
Proof. intros A B E. exists a, (chars (print_int z)), b. repeat split; auto. apply print_signed. Qed.
Lemma C13_plain_lem z : parse_int (print_int z) = Some z.
Proof.
  apply parse_int_iff, (int_text_pad [] []); try constructor. cbn [app]. now rewrite app_nil_r.
Qed.
Lemma print_int_inj a b : print_int a = print_int b -> a = b.
Proof. intros H. pose proof (C13_plain_lem a) as A. rewrite H, C13_plain_lem in A. congruence. Qed.
Lemma C13_spaced_lem a b z : blank a -> blank b ->
  as_int (VStr (of_chars a ++ print_int z ++ of_chars b)) = Ok (VInt z).
Proof.
  intros A B. cbn [as_int]. assert (P : parse_int (of_chars a ++ print_int z ++ of_chars b) = Some z).
  { apply parse_int_iff, (int_text_pad a b); auto. now rewrite !chars_app, !chars_of. }
  now rewrite P.
Qed.
Lemma C13_plus_lem a b z : blank a -> blank b -> 0 <= z ->
  as_int (VStr (of_chars a ++ "+" ++ print_int z ++ of_chars b)) = Ok (VInt z).
Proof.
  intros A B Z. cbn [as_int]. assert (P : parse_int (of_chars a ++ "+" ++ print_int z ++ of_chars b) = Some z).
  { apply parse_int_iff. exists a, ("+"%char :: chars (print_int z)), b.
    split; [rewrite !chars_app, !chars_of; reflexivity|]. split; [exact A|]. split; [exact B|].
    apply sign_plus. unfold print_int. destruct (Z.ltb_spec z 0); [lia|]. rewrite chars_of. now apply print_nat_digits. }
  now rewrite P.
Qed.

(** ** C12 *)
Lemma float_int_iff f n : (float_is_integer f = true /\ float_to_Z f = n) <->
  exists q, xnum_of_float f = XFin q /\ q == inject_Z n.
Proof.
  destruct f as [s|s| |s m e]; cbn [float_is_integer float_to_Z xnum_of_float].
  - split; [intros [_ <-]; exists 0%Q; split; reflexivity|]. intros (q & [= <-] & H). split; [reflexivity|].
    unfold Qeq in H. cbn in H. lia.
  - split; [intros [? _]; discriminate|intros (q & ? & _); discriminate].
  - split; [intros [? _]; discriminate|intros (q & ? & _); discriminate].
  - unfold pow2Q. set (k := if s then Z.neg m else Z.pos m).
    destruct (Z.leb_spec 0 e) as [L|L].
    + split.
      * intros [_ <-]. eexists; split; [reflexivity|]. rewrite <- inject_Z_mult. apply (proj2 (inject_Z_injective _ _)). unfold k. destruct s; [change (Z.neg m) with (- Z.pos m); ring|reflexivity].
      * intros (q & [= <-] & H). split; [reflexivity|]. rewrite <- inject_Z_mult in H. apply (proj1 (inject_Z_injective _ _)) in H.
        unfold k in H. destruct s; [change (Z.neg m) with (- Z.pos m) in H; rewrite <- H; ring|exact H].
    + assert (P : 0 < 2 ^ (- e)) by (apply Z.pow_pos_nonneg; lia).
      assert (EQ : forall n, (inject_Z k * (1 # Z.to_pos (2 ^ (- e))) == inject_Z n)%Q <-> k = n * 2 ^ (- e)).
      { intros n0. unfold Qeq, Qmult, inject_Z. cbn [Qnum Qden]. rewrite Pos.mul_1_l, Z2Pos.id by exact P. rewrite !Z.mul_1_r. reflexivity. }
      split.
      * intros [D <-]. apply Z.eqb_eq in D. eexists; split; [reflexivity|]. apply EQ.
        pose proof (Z.div_mod (Z.pos m) (2 ^ (- e)) ltac:(lia)) as DM. rewrite D in DM.
        unfold k. destruct s; [change (Z.neg m) with (- Z.pos m)|]; rewrite DM at 1; ring.
      * intros (q & [= <-] & H). apply EQ in H.
        assert (M : Z.pos m = (if s then - n else n) * 2 ^ (- e)) by (unfold k in H; destruct s; [change (Z.neg m) with (- Z.pos m) in H; rewrite Z.mul_opp_l, <- H; ring|exact H]).
        rewrite M. split; [apply Z.eqb_eq, Z.mod_mul; lia|]. rewrite Z.div_mul by lia. destruct s; lia.
Qed.
Lemma C12_accept_lem v n : as_int v = Ok (VInt n) <-> denotes v n.
Proof.
  split.
  - destruct v; cbn; try discriminate.
    + intros [= ->]. constructor.
    + destruct (float_is_integer f) eqn:F; [|discriminate]. intros [= H].
      destruct (proj1 (float_int_iff f n) (conj F H)) as (q & A & B). econstructor; eauto.
    + destruct (parse_int s) eqn:P; [|discriminate]. intros [= ->]. constructor. now apply parse_int_iff.
  - intros [z|f z q H H2|s z H]; cbn; [reflexivity| |].
    + destruct (proj2 (float_int_iff f z) (ex_intro _ q (conj H H2))) as [-> ->]. reflexivity.
    + apply parse_int_iff in H. now rewrite H.
Qed.
Lemma C12_reject_lem v : (forall n, ~ denotes v n) -> as_int v = Exn (ESource (NotInteger v)).
Proof.
  intros H. destruct v; try reflexivity; cbn.
  - exfalso. apply (H z). constructor.
  - destruct (float_is_integer f) eqn:F; [|reflexivity]. exfalso. apply (H (float_to_Z f)).
    apply C12_accept_lem. cbn. now rewrite F.
  - destruct (parse_int s) eqn:P; [|reflexivity]. exfalso. apply (H z). constructor. now apply parse_int_iff.
Qed.
Lemma C12_only_lem v w : as_int v = Ok w -> exists n, w = VInt n /\ denotes v n.
Proof.
  intros H. assert (exists n, w = VInt n) as (n & ->).
  { destruct v; cbn in H; try discriminate; [injection H as <-; eauto| |].
    - destruct (float_is_integer f); [injection H as <-; eauto|discriminate].
    - destruct (parse_int s); [injection H as <-; eauto|discriminate]. }
  exists n. split; [reflexivity|]. now apply C12_accept_lem.
Qed.

(** ** C14 *)
Lemma existsb_In s l : existsb (String.eqb s) l = true <-> In s l.
Proof.
  rewrite existsb_exists. split; [intros (x & I & E); apply String.eqb_eq in E; now subst|].
  intros I. exists s. split; [exact I|apply String.eqb_refl].
Qed.
Lemma C14_accept_lem v b : as_bool v = Ok (VBool b) <-> means v b.
Proof.
  split.
  - destruct v; cbn [as_bool]; try discriminate.
    + intros [= ->]. constructor.
    + intros [= <-]. destruct (Z.eqb_spec z 0) as [->|N]; cbn [negb]; constructor; exact N.
    + destruct (existsb (String.eqb (lower s)) ["0"; "f"; "false"]) eqn:A.
      * intros [= <-]. constructor. now apply existsb_In.
      * destruct (existsb (String.eqb (lower s)) ["1"; "t"; "true"]) eqn:B; [|discriminate].
        intros [= <-]. constructor. now apply existsb_In.
  - intros [c| |z N|s I|s I]; cbn [as_bool]; try reflexivity.
    + apply Z.eqb_neq in N. now rewrite N.
    + apply existsb_In in I. now rewrite I.
    + destruct (existsb (String.eqb (lower s)) ["0"; "f"; "false"]) eqn:A.
      * exfalso. apply existsb_In in A. destruct I as [I|[I|[I|[]]]]; rewrite <- I in A;
          destruct A as [A|[A|[A|[]]]]; discriminate.
      * apply existsb_In in I. now rewrite I.
Qed.
Lemma C14_reject_lem v : (forall b, ~ means v b) -> as_bool v = Exn (ESource (NotBoolean v)).
Proof.
  intros H. destruct (as_bool v) as [w|e] eqn:A.
  - exfalso. assert (exists b, w = VBool b) as (b & ->).
    { destruct v; cbn [as_bool] in A; try discriminate; [injection A as <-; eauto|injection A as <-; eauto|].
      repeat match type of A with context[if ?c then _ else _] => destruct c end; try discriminate; injection A as <-; eauto. }
    apply (H b). now apply C14_accept_lem.
  - destruct v; cbn [as_bool] in A; try discriminate; try now rewrite <- A.
    repeat match type of A with context[if ?c then _ else _] => destruct c end; try discriminate; now rewrite <- A.
Qed.

(** ** C15 *)
Lemma C15_same_lem E t v w : json_parse E true t v = Ok w ->
  w = v \/ (t = TyFloat /\ exists z f, (v = VInt z \/ exists b, v = VBool b /\ z = Z.b2z b) /\ float_of_Z z = Ok f /\ w = VFloat f).
Proof.
  destruct t; destruct v; cbn; try discriminate; try (intros [= <-]; now left);
    (destruct (float_of_Z _) as [f|] eqn:F; [|discriminate]); intros [= <-]; right; (split; [reflexivity|]); do 2 eexists;
    (split; [|split; [exact F|reflexivity]]); eauto.
Qed.
Lemma C15_mono_lem E t v w : json_parse E true t v = Ok w -> json_parse E false t v = Ok w.
Proof. destruct t; destruct v; cbn; try discriminate; auto. Qed.
Lemma C15_type_lem E t v w : json_parse E true t v = Ok w -> has_type t w.
Proof.
  destruct t; destruct v; cbn; try discriminate; try (intros [= <-]; exact I);
    destruct (float_of_Z _); try discriminate; intros [= <-]; exact I.
Qed.

(** ** C09 *)
Definition calm (l : list ascii) : Prop := ~ In "."%char l /\ ~ In "["%char l.
Definition stops (l : list ascii) : Prop := match l with [] => True | c :: _ => c = "."%char \/ c = "["%char end.
Lemma calm_split a : forall a' r r', calm a -> calm a' -> stops r -> stops r' ->
  a ++ r = a' ++ r' -> a = a' /\ r = r'.
Proof.
  induction a as [|c a IH]; intros [|c' a'] r r' C C' S S' E; cbn in E.
  - auto.
  - exfalso. subst r. cbn in S. destruct C' as [A B]. destruct S as [->| ->]; [apply A|apply B]; now left.
  - exfalso. subst r'. cbn in S'. destruct C as [A B]. destruct S' as [->| ->]; [apply A|apply B]; now left.
  - injection E as -> E. destruct (IH a' r r') as [-> ->]; auto.
    + destruct C as [A B]. split; intros I; [apply A|apply B]; now right.
    + destruct C' as [A B]. split; intros I; [apply A|apply B]; now right.
Qed.
Lemma digits_all l n : digits l n -> Forall (fun c => exists d, digit_of c = Some d) l.
Proof. induction 1 as [c d H|l c n d _ IH H]; [repeat constructor; eauto|]. apply Forall_app; split; auto. repeat constructor; eauto. Qed.
Lemma print_chars z c : In c (chars (print_int z)) -> c = "-"%char \/ exists d, digit_of c = Some d.
Proof.
  intros I. pose proof (print_signed z) as S.
  assert (G : forall l n, digits l n -> In c l -> exists d, digit_of c = Some d).
  { intros l n D J. apply digits_all in D. rewrite Forall_forall in D. auto. }
  unfold print_int in I. destruct (Z.ltb_spec z 0); rewrite chars_of in I.
  - destruct I as [I|I]; [left; congruence|]. right. eapply G; [|exact I]. apply print_nat_digits. lia.
  - right. eapply G; [|exact I]. apply print_nat_digits. lia.
Qed.
Lemma print_calm z : calm (chars (print_int z)).
Proof.
  split; intros I; apply print_chars in I; destruct I as [I|[d I]]; try discriminate; vm_compute in I; discriminate.
Qed.
Lemma print_calm_end z : calm (chars (print_int z) ++ ["]"%char]).
Proof.
  destruct (print_calm z) as [A B]. split; intros I; apply in_app_or in I; destruct I as [I|[I|[]]]; try discriminate; auto.
Qed.
Lemma print_nonempty z : chars (print_int z) <> [].
Proof. unfold print_int. destruct (z <? 0); rewrite chars_of; [discriminate|]. destruct (digits_first _ _ (print_nat_digits (Z.abs z) ltac:(lia))) as (c & d & l & E & _).
  pose proof (C13_plain_lem z) as P. intros F. 
  assert (print_int z = "") as G. { unfold print_int. destruct (Z.ltb_spec z 0); apply chars_inj; rewrite chars_of; [|exact F].
    exfalso. revert F. unfold print_nat. destruct (print_fuel (S (Z.to_nat (Z.log2 z))) 0 []) as (ds & _ & _); [lia|cbn; lia|].
    rewrite Z.log2_nonpos by lia. cbn. destruct (z / 10 =? 0); discriminate. }
  rewrite G in P. discriminate.
Qed.
Lemma rest_stops ks r : rest_str ks = Ok r -> stops (chars r).
Proof.
  destruct ks as [|k ks]; cbn [rest_str]; [intros [= <-]; exact I|].
  destruct k as [s|z|v]; try discriminate; destruct (rest_str ks); try discriminate; intros [= <-]; cbn; auto.
Qed.
Lemma clear_calm s : clear_key (KStr s) -> calm (chars s).
Proof. intros (_ & A & B & _). split; assumption. Qed.
Lemma rest_inj ks : forall ks' r, Forall clear_key ks -> Forall clear_key ks' ->
  rest_str ks = Ok r -> rest_str ks' = Ok r -> ks = ks'.
Proof.
  induction ks as [|k ks IH]; intros [|k' ks'] r F F' H H'; cbn [rest_str] in *; [reflexivity| | |].
  - injection H as <-. destruct k'; try discriminate; destruct (rest_str ks'); discriminate.
  - injection H' as <-. destruct k; try discriminate; destruct (rest_str ks); discriminate.
  - inversion F as [|? ? Ck F1]; subst. inversion F' as [|? ? Ck' F1']; subst.
    destruct (rest_str ks) as [t|] eqn:Ht; [|destruct k; discriminate].
    destruct (rest_str ks') as [t'|] eqn:Ht'; [|destruct k'; discriminate].
    pose proof (rest_stops _ _ Ht) as S. pose proof (rest_stops _ _ Ht') as S'.
    destruct k as [s|z|v]; try discriminate; destruct k' as [s'|z'|v']; try discriminate;
      injection H as <-; injection H' as H'; try discriminate H'.
    + apply (f_equal chars) in H'. rewrite !chars_app in H'.
      destruct (calm_split _ _ _ _ (clear_calm _ Ck') (clear_calm _ Ck) S' S H') as [A B].
      apply chars_inj in A, B. subst. f_equal. eapply IH; eauto.
    + apply (f_equal chars) in H'. rewrite !chars_app in H'. cbn [chars] in H'. rewrite <- !app_assoc in H'.
      change ("]"%char :: chars t') with (["]"%char] ++ chars t') in H'.
      assert (H2 : (chars (print_int z') ++ ["]"%char]) ++ chars t' = (chars (print_int z) ++ ["]"%char]) ++ chars t).
      { rewrite <- !app_assoc. exact H'. }
      destruct (calm_split _ _ _ _ (print_calm_end z') (print_calm_end z) S' S H2) as [A B].
      apply app_inj_tail in A. destruct A as [A _]. apply chars_inj in A, B. apply print_int_inj in A. subst. f_equal. eapply IH; eauto.
Qed.
Lemma C09_keys_lem E ks ks' s : Forall clear_key ks -> Forall clear_key ks' ->
  keys_str E ks = Ok s -> keys_str E ks' = Ok s -> ks = ks'.
Proof.
  assert (FC : forall k, clear_key k -> calm (chars (first_str E k)) /\ first_str E k <> "").
  { intros [t|z|v] C; cbn [first_str]; [split; [now apply clear_calm|apply C]| |contradiction].
    split; [apply print_calm|]. intros H. apply (print_nonempty z). now rewrite H. }
  destruct ks as [|k ks], ks' as [|k' ks']; cbn [keys_str]; intros F F' H H'; [reflexivity| | |].
  - injection H as <-. inversion F' as [|? ? Ck _]; subst. destruct (FC _ Ck) as [_ N].
    destruct (rest_str ks'); [|discriminate]. injection H' as H'. destruct (first_str E k'); [congruence|discriminate].
  - injection H' as <-. inversion F as [|? ? Ck _]; subst. destruct (FC _ Ck) as [_ N].
    destruct (rest_str ks); [|discriminate]. injection H as H. destruct (first_str E k); [congruence|discriminate].
  - inversion F as [|? ? Ck F1]; subst. inversion F' as [|? ? Ck' F1']; subst.
    destruct (rest_str ks) as [t|] eqn:Ht; [|discriminate]. destruct (rest_str ks') as [t'|] eqn:Ht'; [|discriminate].
    injection H as <-. injection H' as H'. apply (f_equal chars) in H'. rewrite !chars_app in H'.
    destruct (calm_split _ _ _ _ (proj1 (FC _ Ck')) (proj1 (FC _ Ck)) (rest_stops _ _ Ht') (rest_stops _ _ Ht) H') as [A B].
    apply chars_inj in A, B. subst t'. rewrite (rest_inj ks ks' t); auto. f_equal.
    destruct k as [a|z|v], k' as [a'|z'|v']; cbn [first_str clear_key] in *; try contradiction.
    + congruence.
    + exfalso. destruct Ck as (_ & _ & _ & N). now apply (N z').
    + exfalso. destruct Ck' as (_ & _ & _ & N). now apply (N z).
    + f_equal. now apply print_int_inj.
Qed.
Lemma concat_inj l : forall a b, String.concat ":" (l ++ [a]) = String.concat ":" (l ++ [b]) -> a = b.
Proof.
  induction l as [|x l IH]; intros a b H; cbn [app String.concat] in H; [exact H|].
  apply IH. apply (f_equal chars) in H.
  assert (N : forall y, l ++ [y] <> []) by (intros y; now destruct l).
  destruct (l ++ [a]) eqn:Ea; [now destruct (N a)|]. destruct (l ++ [b]) eqn:Eb; [now destruct (N b)|].
  rewrite !chars_app in H. apply app_inv_head in H. apply app_inv_head in H. now apply chars_inj.
Qed.
Lemma C09_source_lem E src ks ks' s : Forall clear_key ks -> Forall clear_key ks' ->
  pkeys_str E src ks = Ok s -> pkeys_str E src ks' = Ok s -> ks = ks'.
Proof.
  unfold pkeys_str. intros F F'. destruct (keys_str E ks) as [a|] eqn:A; [|discriminate].
  destruct (keys_str E ks') as [b|] eqn:B; [|discriminate]. intros [= <-] [= H]. apply concat_inj in H. subst b.
  eapply C09_keys_lem; eauto.
Qed.
(** clear keys always render *)
Lemma rest_total ks : Forall clear_key ks -> exists r, rest_str ks = Ok r.
Proof.
  induction 1 as [|k ks C _ (r & IH)]; cbn [rest_str]; [eauto|]. rewrite IH. destruct k; [eauto|eauto|contradiction].
Qed.
Lemma C09_total_lem E src ks : Forall clear_key ks -> exists s, pkeys_str E src ks = Ok s.
Proof.
  intros F. unfold pkeys_str. destruct ks as [|k ks]; cbn [keys_str]; [eauto|]. inversion F; subst.
  destruct (rest_total ks) as (r & ->); eauto.
Qed.

(** ** C10 *)
Lemma index_iff {A} (l : list A) i v : py_index l i = Some v <->
  (exists n, i = Z.of_nat n /\ nth_error l n = Some v) \/
  (exists n, i = - Z.of_nat n - 1 /\ nth_error (rev l) n = Some v).
Proof.
  unfold py_index. split.
  - destruct (Z.ltb_spec i 0) as [L|L].
    + destruct ((Z.of_nat (length l) + i <? 0) || _)%bool eqn:B; [discriminate|]. intros H. right.
      apply Bool.orb_false_iff in B. destruct B as [B1 B2]. apply Z.ltb_ge in B1. apply Z.leb_gt in B2.
      exists (Z.to_nat (- i - 1)). split; [lia|].
      assert (R : forall (m : list A) n w, nth_error m n = Some w -> nth_error (rev m) (length m - S n) = Some w).
      { intros m n w Hn. assert (n < length m)%nat by (apply nth_error_Some; congruence).
        destruct (nth_error_split _ _ Hn) as (m1 & m2 & -> & <-). rewrite rev_app_distr. cbn [rev]. rewrite app_length. cbn [length].
        replace (length m1 + S (length m2) - S (length m1))%nat with (length (rev m2)) by (rewrite rev_length; lia).
        rewrite <- app_assoc, nth_error_app2 by lia. rewrite Nat.sub_diag. reflexivity. }
      apply R in H. rewrite <- H. f_equal. lia.
    + destruct ((i <? 0) || _)%bool eqn:B; [discriminate|]. intros H. left. exists (Z.to_nat i). split; [lia|exact H].
  - intros [(n & -> & H)|(n & -> & H)].
    + assert (n < length l)%nat by (apply nth_error_Some; congruence).
      destruct (Z.ltb_spec (Z.of_nat n) 0); [lia|]. cbn [orb].
      destruct (Z.leb_spec (Z.of_nat (length l)) (Z.of_nat n)); [lia|]. destruct (Z.ltb_spec (Z.of_nat n) 0); [lia|]. cbn [orb]. now rewrite Nat2Z.id.
    + assert (n < length (rev l))%nat by (apply nth_error_Some; congruence). rewrite rev_length in *.
      destruct (Z.ltb_spec (- Z.of_nat n - 1) 0); [|lia].
      destruct (Z.ltb_spec (Z.of_nat (length l) + (- Z.of_nat n - 1)) 0); [lia|]. cbn [orb].
      destruct (Z.leb_spec (Z.of_nat (length l)) (Z.of_nat (length l) + (- Z.of_nat n - 1))); [lia|].
      destruct (nth_error_split _ _ H) as (m1 & m2 & E & L). apply (f_equal (@rev A)) in E. rewrite rev_involutive, rev_app_distr in E.
      cbn [rev] in E. rewrite E, app_length in *. cbn [length] in *. rewrite app_length, !rev_length in *. cbn [length] in *.
      rewrite <- app_assoc, nth_error_app2 by (rewrite rev_length; lia). rewrite rev_length.
      replace (Z.to_nat (Z.of_nat (length m2 + 1 + length m1) + (- Z.of_nat n - 1)) - length m2)%nat with 0%nat by lia. reflexivity.
Qed.
Lemma getitem_iff E ents c k v : ordinary c -> py_getitem E ents c k = Ok v <-> has_item E ents c k v.
Proof.
  intros O. split.
  - destruct c; try contradiction; cbn [py_getitem]; try discriminate.
    + destruct k as [t|i|x]; try discriminate. destruct (py_index (chars s) i) as [a|] eqn:P; [|discriminate].
      intros [= <-]. apply index_iff in P. destruct P as [(n & -> & H)|(n & -> & H)]; now constructor.
    + destruct k as [t|i|x]; try discriminate. destruct (py_index l i) as [a|] eqn:P; [|discriminate].
      intros [= <-]. apply index_iff in P. destruct P as [(n & -> & H)|(n & -> & H)]; now constructor.
    + destruct k as [t|i|x]; try discriminate. destruct (py_index l i) as [a|] eqn:P; [|discriminate].
      intros [= <-]. apply index_iff in P. destruct P as [(n & -> & H)|(n & -> & H)]; now constructor.
    + destruct (dict_get l (val_of_key k)) eqn:G; [|discriminate]. intros [= <-]. now constructor.
    + destruct (dict_get (ents _) (val_of_key k)) eqn:G; [|discriminate]. intros [= <-]. now constructor.
    + intros H. now constructor.
  - intros [l x w H|i x w H|l i w H|l i w H|l i w H|l i w H|s i a H|s i a H|cls i x w H]; cbn [py_getitem]; try (now rewrite H); try exact H.
    + rewrite (proj2 (index_iff l _ w)); [reflexivity|left; eauto].
    + rewrite (proj2 (index_iff l _ w)); [reflexivity|right; eauto].
    + rewrite (proj2 (index_iff l _ w)); [reflexivity|left; eauto].
    + rewrite (proj2 (index_iff l _ w)); [reflexivity|right; eauto].
    + rewrite (proj2 (index_iff (chars s) _ a)); [reflexivity|left; eauto].
    + rewrite (proj2 (index_iff (chars s) _ a)); [reflexivity|right; eauto].
Qed.
Lemma item_det E ents c k v w : ordinary c -> has_item E ents c k v -> has_item E ents c k w -> v = w.
Proof. intros O A B. apply (getitem_iff E ents c k _ O) in A. apply (getitem_iff E ents c k _ O) in B. congruence. Qed.

Lemma step_det E ents aliases depth c s v w : ordinary c ->
  one_step E ents aliases depth c s v -> one_step E ents aliases depth c s w -> v = w.
Proof.
  intros O [x I|x al Nx D L I|x Nx Ny A] [x' I'|x' al' Nx' D' L' I'|x' Nx' Ny' A'].
  - eapply item_det; eauto.
  - exfalso. eapply Nx'; eauto.
  - exfalso. eapply Nx'; eauto.
  - exfalso. eapply Nx; eauto.
  - assert (al' = al) as -> by congruence. eapply item_det; eauto.
  - exfalso. eapply Ny'; eauto.
  - exfalso. eapply Nx; eauto.
  - exfalso. eapply Ny; eauto.
  - congruence.
Qed.

Section Native.
Variables (E : env) (ents : entries_of) (P : val -> Prop).
Hypothesis ND : native_data E ents P.
Variables (aliases : list (string * key)) (ignores : list (list string)) (ks : list key).
Hypothesis NI : is_ignored ignores ks = false.
Let depth := length ks.

Lemma P_not_NONE v : P v -> is_NONE v = false.
Proof. intros H. apply (nd_ordinary _ _ _ ND) in H. destruct v; try reflexivity. contradiction. Qed.
Lemma item_or c k : P c ->
  (exists v, has_item E ents c k v /\ P v /\ as_item E ents c k = Ok v) \/
  ((forall v, ~ has_item E ents c k v) /\ as_item E ents c k = Ok (VConst NONE)).
Proof.
  intros Pc. pose proof (nd_ordinary _ _ _ ND _ Pc) as O. unfold as_item.
  destruct (py_getitem E ents c k) as [v|e] eqn:G.
  - left. exists v. apply getitem_iff in G; [|exact O]. split; [exact G|]. split; [eapply (nd_item _ _ _ ND); eauto|reflexivity].
  - right. split.
    + intros v H. apply getitem_iff in H; [congruence|exact O].
    + cbn. assert (is_lookup_or_type e = true) as ->; [|reflexivity].
      destruct c; try contradiction; cbn [py_getitem] in G; try (injection G as <-; reflexivity).
      * destruct k as [?|i|?]; try (injection G as <-; reflexivity). destruct (py_index (chars s) i); [discriminate|]. injection G as <-; reflexivity.
      * destruct k as [?|i|?]; try (injection G as <-; reflexivity). destruct (py_index l i); [discriminate|]. injection G as <-; reflexivity.
      * destruct k as [?|i|?]; try (injection G as <-; reflexivity). destruct (py_index l i); [discriminate|]. injection G as <-; reflexivity.
      * destruct (dict_get l (val_of_key k)); [discriminate|]. injection G as <-; reflexivity.
      * destruct (dict_get (ents _) (val_of_key k)); [discriminate|]. injection G as <-; reflexivity.
      * eapply (nd_fail _ _ _ ND); eauto.
Qed.
Lemma step_or c s : P c ->
  (exists v, one_step E ents aliases depth c s v /\ P v /\ default_resolve1 E ents aliases ignores ks c (KStr s) = Ok v) \/
  ((forall v, ~ one_step E ents aliases depth c s v) /\ default_resolve1 E ents aliases ignores ks c (KStr s) = Ok (VConst NONE)).
Proof.
  intros Pc. unfold default_resolve1. rewrite NI. fold depth.
  destruct (item_or c (KStr s) Pc) as [(v & H & Pv & ->)|(H & ->)].
  - left. exists v. rewrite (P_not_NONE v Pv). cbn [negb]. split; [now constructor|auto].
  - cbn [is_NONE negb].
    assert (AL : (exists a v, depth = 1%nat /\ alookup aliases s = Some a /\ has_item E ents c a v /\ P v /\ as_alias E ents aliases depth c (KStr s) = Ok v) \/
                 ((forall a w, depth = 1%nat -> alookup aliases s = Some a -> ~ has_item E ents c a w) /\ as_alias E ents aliases depth c (KStr s) = Ok (VConst NONE))).
    { cbn [as_alias]. destruct (alookup aliases s) as [a|].
      - destruct (Nat.eqb_spec depth 1) as [D|D].
        + destruct (item_or c a Pc) as [(v & I & Pv & ->)|(I & ->)].
          * left. exists a, v. auto.
          * right. split; [|reflexivity]. intros a' w _ [= <-]. apply I.
        + right. split; [|reflexivity]. intros a' w D'. congruence.
      - right. split; [|reflexivity]. intros a' w _ ?. discriminate. }
    destruct AL as [(a & v & D & L & I & Pv & ->)|(NA & ->)].
    + left. exists v. rewrite (P_not_NONE v Pv). cbn [negb]. split; [eapply by_alias; eauto|auto].
    + cbn [is_NONE negb as_attr].
      assert (py_getattr E c s = e_attr E c s) as -> by (pose proof (nd_ordinary _ _ _ ND _ Pc); destruct c; try reflexivity; contradiction).
      destruct (e_attr E c s) as [v|] eqn:A.
      * left. exists v. split; [now apply by_attr|]. split; [eapply (nd_attr _ _ _ ND); eauto|reflexivity].
      * right. split; [|reflexivity]. intros v [w I|w a N D L I|w N N' A']; [eapply H; eauto|eapply NA; eauto|congruence].
Qed.
Lemma walk_or l : forall c, P c ->
  (exists v, many_steps E ents aliases depth c l v /\ P v /\
     walk_atoms (fun c a => default_resolve1 E ents aliases ignores ks c (KStr a)) c l = Ok v) \/
  ((forall v, ~ many_steps E ents aliases depth c l v) /\
     walk_atoms (fun c a => default_resolve1 E ents aliases ignores ks c (KStr a)) c l = Ok (VConst NONE)).
Proof.
  induction l as [|a l IH]; intros c Pc; cbn [walk_atoms].
  - left. exists c. split; [constructor|auto].
  - destruct (step_or c a Pc) as [(v & S & Pv & Ev)|(N & ->)].
    + rewrite Ev, (P_not_NONE v Pv). destruct (IH v Pv) as [(w & M & Pw & ->)|(N & ->)].
      * left. exists w. split; [econstructor; eauto|auto].
      * right. split; [|reflexivity]. intros w M. inversion M as [|? ? v' ? ? S' M']; subst.
        assert (v' = v) as ->.
        { eapply step_det; eauto. eapply (nd_ordinary _ _ _ ND); eauto. }
        eapply N; eauto.
    + right. cbn [is_NONE]. split; [|reflexivity]. intros w M. inversion M as [|? ? v' ? ? S' M']; subst. eapply N; eauto.
Qed.
Lemma resolve_or c s fuel : P c -> strip_call s = None ->
  (exists v, found E ents aliases depth c s v /\ P v /\ default_resolve fuel E ents aliases ignores ks c (KStr s) = Ok v) \/
  ((forall v, ~ found E ents aliases depth c s v) /\ default_resolve fuel E ents aliases ignores ks c (KStr s) = Ok (VConst NONE)).
Proof.
  intros Pc NC. destruct fuel; cbn [default_resolve]; rewrite NC.
  all: destruct (step_or c s Pc) as [(v & S & Pv & ->)|(N & ->)];
    [left; exists v; rewrite (P_not_NONE v Pv); split; [now constructor|auto]|];
    cbn [is_NONE]; destruct (walk_or (split_on dot s) c Pc) as [(v & M & Pv & ->)|(N' & ->)];
    [left; exists v; split; [now apply found_pieces|auto]|];
    right; split; [|reflexivity]; intros v [S|_ M]; [eapply N; eauto|eapply N'; eauto].
Qed.
End Native.

Lemma ignored_false ignores ks : (forall i, In i ignores -> ks <> map KStr i) -> is_ignored ignores ks = false.
Proof.
  intros H. unfold is_ignored. destruct (existsb (keys_are ks) ignores) eqn:X; [|reflexivity]. exfalso.
  apply existsb_exists in X. destruct X as (i & I & K). apply (H i I). clear -K. revert i K.
  induction ks as [|k ks IH]; intros [|s i] K; cbn in *; try discriminate; [reflexivity|].
  apply andb_prop in K. destruct K as [A B]. rewrite (IH i B). f_equal. destruct k; try discriminate.
  cbn in A. apply String.eqb_eq in A. now subst.
Qed.
Lemma C10_present_lem E ents P d aliases ignores loc ks c s v :
  native_data E ents P -> P c -> (forall i, In i ignores -> ks <> map KStr i) -> strip_call s = None -> is_NONE v = false ->
  (psource_resolve E ents (SDefault d aliases ignores loc) ks c (KStr s) = Ok v <-> found E ents aliases (length ks) c s v).
Proof.
  intros ND Pc NI NC NN. apply ignored_false in NI. cbn [psource_resolve].
  destruct (resolve_or E ents P ND aliases ignores ks NI c s (String.length s) Pc NC) as [(w & F & Pw & ->)|(N & ->)].
  - split; [intros [= <-]; exact F|]. intros F'. f_equal.
    destruct (resolve_or E ents P ND aliases ignores ks NI c s 0 Pc NC) as [(w' & _)|(N & _)]; [|exfalso; exact (N _ F')].
    clear w'. pose proof (nd_ordinary _ _ _ ND _ Pc) as O.
    assert (SD : forall c s x y, P c -> one_step E ents aliases (length ks) c s x -> one_step E ents aliases (length ks) c s y -> x = y).
    { clear -ND. intros c s x y Pc S S'. eapply step_det; eauto. eapply (nd_ordinary _ _ _ ND); eauto. }
    assert (SP : forall c s x, P c -> one_step E ents aliases (length ks) c s x -> P x).
    { clear -ND. intros c s x Pc [y I|y a _ _ _ I|y _ _ A]; [eapply (nd_item _ _ _ ND); eauto|eapply (nd_item _ _ _ ND); eauto|eapply (nd_attr _ _ _ ND); eauto]. }
    assert (MD : forall l c x y, P c -> many_steps E ents aliases (length ks) c l x -> many_steps E ents aliases (length ks) c l y -> x = y).
    { induction l as [|a l IH]; intros c0 x y Pc0 M M'; inversion M; inversion M'; subst; [reflexivity|].
      assert (w0 = w1) as -> by (eapply SD; eauto). eapply IH; [|eauto|eauto]. eapply SP; eauto. }
    destruct F as [S|N M], F' as [S'|N' M']; [exact (SD _ _ _ _ Pc S S')|exfalso; exact (N' _ S)|exfalso; exact (N _ S')|exact (MD _ _ _ _ Pc M M')].
  - split; [intros [= <-]; discriminate|]. intros F. exfalso. eapply N; eauto.
Qed.
Lemma C10_absent_lem E ents P d aliases ignores loc ks c s :
  native_data E ents P -> P c -> (forall i, In i ignores -> ks <> map KStr i) -> strip_call s = None ->
  (psource_resolve E ents (SDefault d aliases ignores loc) ks c (KStr s) = Ok (VConst NONE) <->
   forall v, ~ found E ents aliases (length ks) c s v).
Proof.
  intros ND Pc NI NC. apply ignored_false in NI. cbn [psource_resolve].
  destruct (resolve_or E ents P ND aliases ignores ks NI c s (String.length s) Pc NC) as [(w & F & Pw & ->)|(N & ->)].
  - split; [intros [= ->]; exfalso; apply (P_not_NONE _ _ _ ND) in Pw; discriminate|]. intros N. exfalso. eapply N; eauto.
  - split; auto.
Qed.

(** ** C11 *)
Lemma C11_lem E ents d0 aliases ignores loc ks l s :
  dict_get l (VStr s) = None -> has_char dot s = false -> strip_call s = None ->
  e_attr E (VDict l) s = None -> (forall a, alookup aliases s = Some a -> length ks <> 1%nat) ->
  psource_resolve E ents (SDefault d0 aliases ignores loc) ks (VDict l) (KStr s) = Ok (VConst NONE).
Proof.
  intros D ND NC A AL. cbn [psource_resolve].
  assert (S : default_resolve1 E ents aliases ignores ks (VDict l) (KStr s) = Ok (VConst NONE)).
  { unfold default_resolve1. destruct (is_ignored ignores ks); [reflexivity|]. unfold as_item. cbn [py_getitem val_of_key]. rewrite D. cbn.
    destruct (alookup aliases s) as [a|]; cbn.
    - destruct (Nat.eqb_spec (length ks) 1) as [L|L]; [exfalso; now apply (AL a)|]. cbn. now rewrite A.
    - now rewrite A. }
  assert (SP : split_on dot s = [s]).
  { clear -ND. induction s as [|c s IH]; [reflexivity|]. unfold has_char in *. cbn [chars existsb split_on] in *.
    rewrite (Ascii.eqb_sym dot c) in ND. destruct (Ascii.eqb c dot); cbn [orb] in ND; [discriminate|]. now rewrite IH. }
  destruct (String.length s); cbn [default_resolve]; rewrite NC, S; cbn [is_NONE]; rewrite SP; cbn [walk_atoms]; rewrite S; reflexivity.
Qed.

(** ** C11: what an absent key gives, and C08: what is read below a missing key *)
Lemma split_none s : has_char dot s = false -> split_on dot s = [s].
Proof.
  intros ND. induction s as [|c s IH]; [reflexivity|]. unfold has_char in *. cbn [chars existsb split_on] in *.
  rewrite (Ascii.eqb_sym dot c) in ND. destruct (Ascii.eqb c dot); cbn [orb] in ND; [discriminate|]. now rewrite IH.
Qed.
Lemma C11_exact_lem E ents d0 aliases ignores loc ks l s :
  dict_get l (VStr s) = None -> has_char dot s = false -> strip_call s = None ->
  is_ignored ignores ks = false -> (forall a, alookup aliases s = Some a -> length ks <> 1%nat) ->
  psource_resolve E ents (SDefault d0 aliases ignores loc) ks (VDict l) (KStr s) =
  Ok (match e_attr E (VDict l) s with Some v => v | None => VConst NONE end).
Proof.
  intros D ND NC IG AL. cbn [psource_resolve].
  set (x := match e_attr E (VDict l) s with Some v => v | None => VConst NONE end).
  assert (S : default_resolve1 E ents aliases ignores ks (VDict l) (KStr s) = Ok x).
  { unfold default_resolve1. rewrite IG. unfold as_item. cbn [py_getitem val_of_key]. rewrite D. cbn.
    destruct (alookup aliases s) as [a|]; cbn; [|reflexivity].
    destruct (Nat.eqb_spec (length ks) 1) as [L|L]; [exfalso; now apply (AL a)|]. reflexivity. }
  destruct (String.length s); cbn [default_resolve]; rewrite NC, S; destruct (is_NONE x) eqn:N; try reflexivity;
    rewrite (split_none s ND); cbn [walk_atoms]; rewrite S, N; reflexivity.
Qed.
Lemma C08_name_lem E ents d loc k : (forall v, k <> KRaw v) ->
  psource_resolve E ents (SDefault d [] [] loc) [k; KStr "name"] d k = Ok (VConst NONE) ->
  forall n, drive E ents ([SpecSrc.Down k; SpecSrc.Down (KStr "name"); Read OpExists] ++ repeat (Read OpExists) n) (untouched (SDefault d [] [] loc) d []) =
    [ObsUnit (Ok tt); ObsUnit (Ok tt); ObsBool (Ok false)] ++ repeat (ObsBool (Ok true)) n.
Proof.
  intros NR MISS n.
  set (src := SDefault d [] [] loc) in *.
  assert (NAME : psource_resolve E ents src [k; KStr "name"] (VConst NONE) (KStr "name") = Ok (VStr "NONE")) by reflexivity.
  assert (KP : match k with KRaw _ => False | _ => True end) by (destruct k; try exact I; now apply (NR v)).
  assert (R1 : forall c, pp_exists E ents (Source.PPath src d [Part k c; Part (KStr "name") (Some (VStr "NONE"))]) =
                    (Source.PPath src d [Part k c; Part (KStr "name") (Some (VStr "NONE"))], Ok true)) by reflexivity.
  assert (R2 : pp_exists E ents (Source.PPath src d [Part k (Some (VConst NONE)); Part (KStr "name") None]) =
               (Source.PPath src d [Part k (Some (VConst NONE)); Part (KStr "name") (Some (VStr "NONE"))], Ok true)).
  { unfold pp_exists, pp_value. cbn [pp_parts rev app last_cached pk pc]. destruct k; try contradiction; reflexivity. }
  assert (R3 : pp_exists E ents (Source.PPath src d [Part k None; Part (KStr "name") None]) =
               (Source.PPath src d [Part k (Some (VConst NONE)); Part (KStr "name") None], Ok false)).
  { unfold pp_exists, pp_value. cbn [pp_parts rev app last_cached pk pc].
    assert (Q : last_cached [Part k None] = Ok None) by (destruct k; try contradiction; reflexivity). cbn [last_cached pk pc] in Q.
    rewrite Q. cbn [length Nat.sub skipn firstn walk_parts app pp_src pp_root pk]. change (pp_keys _) with [k; KStr "name"]. rewrite MISS. reflexivity. }
  assert (RD : forall q, do_cmd E ents (Read OpExists) (PBase (BP q)) = (PBase (BP (fst (pp_exists E ents q))), ObsBool (snd (pp_exists E ents q)))).
  { intros q. unfold do_cmd, do_read, p_exists, bp_exists, on_bp. destruct (pp_exists E ents q) as [q' r]. reflexivity. }
  assert (MORE : forall m c, drive E ents (repeat (Read OpExists) m) (PBase (BP (Source.PPath src d [Part k c; Part (KStr "name") (Some (VStr "NONE"))]))) = repeat (ObsBool (Ok true)) m).
  { induction m as [|m IH]; intros c; [reflexivity|]. cbn [repeat drive]. rewrite RD, R1. cbn [fst snd]. now rewrite IH. }
  cbn [app drive]. change (do_cmd E ents (SpecSrc.Down k) (untouched src d [])) with (PBase (BP (Source.PPath src d [Part k None])), ObsUnit (Ok tt)).
  cbn beta iota. change (do_cmd E ents (SpecSrc.Down (KStr "name")) _) with (PBase (BP (Source.PPath src d [Part k None; Part (KStr "name") None])), ObsUnit (Ok tt)).
  cbn beta iota. rewrite RD, R3. cbn [fst snd]. destruct n as [|n]; [reflexivity|]. cbn [repeat drive]. rewrite RD, R2. cbn [fst snd]. now rewrite MORE.
Qed.
