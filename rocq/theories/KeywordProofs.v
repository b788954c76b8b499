(** * Lemmas for C95: keywords that a constructor does not know. *)
From Verif Require Import PyBase PyStr Source Field Context Fields Build SpecCtx SpecField SpecBuild SpecClock SpecChain MakeProofs.
Open Scope Z_scope.

(** [kw'] says the same, and [n] as well *)
Definition extra (n : string) (kw kw' : kwargs) : Prop :=
  (forall m, m <> n -> alookup kw' m = alookup kw m) /\ exists a, In (n, a) kw'.
Lemma also_extra n a kw kw' : and_also n a kw kw' -> extra n kw kw'.
Proof.
  intros (kw1 & kw2 & -> & ->). split.
  - intros m NE. rewrite !alookup_app. cbn [alookup]. destruct (String.eqb n m) eqn:Q; [apply String.eqb_eq in Q; congruence|reflexivity].
  - exists a. apply in_or_app. right. now left.
Qed.
Lemma extra_rest n m kw kw' : m <> n -> extra n kw kw' -> extra n (kw_rest m kw) (kw_rest m kw').
Proof.
  intros NE [L (a & I)]. split.
  - intros j NJ. destruct (String.string_dec j m) as [->|NM]; [now rewrite !alookup_rest_same|]. rewrite !alookup_rest by assumption. now apply L.
  - exists a. apply filter_In. split; [exact I|]. cbn [fst]. destruct (String.eqb n m) eqn:Q; [apply String.eqb_eq in Q; congruence|reflexivity].
Qed.
Lemma extra_pop n m kw kw' v r : m <> n -> extra n kw kw' -> pop_value m kw = Ok (v, r) ->
  exists r', pop_value m kw' = Ok (v, r') /\ extra n r r'.
Proof.
  intros NE X. unfold pop_value, kw_pop. destruct X as [L I]. rewrite (L m NE). intros H. apply bindr_ok in H. destruct H as (w & H & [= <- <-]).
  rewrite H. exists (kw_rest m kw'). split; [reflexivity|]. apply extra_rest; [exact NE|split; assumption].
Qed.
Lemma known_in n : known_option n = true -> In n option_names.
Proof. unfold known_option. intros H. apply existsb_exists in H. destruct H as (x & I & Q). apply String.eqb_eq in Q. now subst. Qed.
Lemma options_refuse n kw kw' o : ~ In n field_keywords -> extra n kw kw' -> exists t, field_options kw' o = Exn (EType t).
Proof.
  intros NI [_ (a & I)]. unfold field_options. destruct (forallb _ kw') eqn:F; [|eauto].
  exfalso. rewrite forallb_forall in F. specialize (F _ I). cbn [fst] in F. apply known_in in F. apply NI. cbn in F |- *. tauto.
Qed.
Lemma init_refuse n args kw kw' k b : ~ In n field_keywords -> extra n kw kw' -> field_init args kw k = Ok b ->
  exists t, field_init args kw' k = Exn (EType t).
Proof.
  intros NI X. assert (NS : "src" <> n) by (intros <-; apply NI; now left).
  destruct X as [L I]. pose proof (L _ NS) as LS. unfold field_init. rewrite LS.
  assert (R : forall o, exists t, field_options (kw_rest "src" kw') o = Exn (EType t)).
  { intros o. apply (options_refuse n (kw_rest "src" kw)); [exact NI|]. apply extra_rest; [exact NS|split; assumption]. }
  intros H. destruct args as [|a args].
  - destruct (alookup kw "src") as [[v| | | | | |]|]; try discriminate.
    + destruct (R (set_src (src_key v) no_opts)) as (t & ->). eexists. reflexivity.
    + destruct (R no_opts) as (t & ->). eexists. reflexivity.
  - destruct a as [v| | | | | |], args as [|a2 args]; destruct (alookup kw "src"); try discriminate.
    destruct (R (set_src (src_key v) no_opts)) as (t & ->). eexists. reflexivity.
Qed.

(** one keyword of the class, and the extra one is another *)
Ltac other := let E := fresh in intros E; subst; cbn [own_keywords field_keywords In app] in *; solve [congruence | tauto].
Ltac popped H X n :=
  apply bindr_ok in H; let v := fresh "v" in let r := fresh "r" in let P := fresh "P" in
  destruct H as ((v & r) & P & H); let r' := fresh "r'" in let P' := fresh "P'" in let X' := fresh "X" in
  let Q := fresh "Q" in pose proof (fun NE => extra_pop n _ _ _ _ _ NE X P) as Q;
  destruct (Q ltac:(other)) as (r' & P' & X'); clear Q; rewrite P'; cbn [bindr]; clear P P' X; rename X' into X.

Lemma min_max_extra n kw kw' p r : n <> "min_length" -> n <> "max_length" -> extra n kw kw' -> pop_min_max kw = Ok (p, r) ->
  exists r', pop_min_max kw' = Ok (p, r') /\ extra n r r'.
Proof.
  intros N1 N2 X H. unfold pop_min_max in *. popped H X n. popped H X n. apply bindr_ok in H. destruct H as (q & H & [= <- <-]). rewrite H. cbn [bindr]. eauto.
Qed.
Lemma pattern_extra n r r' q r2 : "pattern" <> n -> extra n r r' -> string_pattern r = Ok (q, r2) -> exists r2', string_pattern r' = Ok (q, r2') /\ extra n r2 r2'.
Proof.
  intros NE X1 H1. unfold string_pattern, kw_pop in *. destruct X1 as [L I]. rewrite L by exact NE. exists (kw_rest "pattern" r').
  assert (XR : extra n (kw_rest "pattern" r) (kw_rest "pattern" r')) by (apply extra_rest; [exact NE|split; assumption]).
  destruct (match alookup r "pattern" with Some a0 => a0 | None => AV VNone end) as [v| | | | | |]; try discriminate.
  - destruct v; try (destruct (truthy _); [discriminate|]); injection H1 as <- <-; split; try reflexivity; exact XR.
  - injection H1 as <- <-. split; [reflexivity|exact XR].
Qed.
Lemma alphabet_extra n r r' q r2 : "alphabet" <> n -> extra n r r' -> string_alphabet r = Ok (q, r2) -> exists r2', string_alphabet r' = Ok (q, r2') /\ extra n r2 r2'.
Proof. intros NE X H. unfold string_alphabet in *. popped H X n. destruct v; try discriminate; injection H as <- <-; eauto. Qed.
Lemma choices_extra n r r' q r2 : "choices" <> n -> extra n r r' -> string_choices r = Ok (q, r2) -> exists r2', string_choices r' = Ok (q, r2') /\ extra n r2 r2'.
Proof. intros NE X H. unfold string_choices in *. popped H X n. destruct v; try discriminate; injection H as <- <-; eauto. Qed.
Lemma string_refuse n args kw kw' b : ~ In n (own_keywords (AnyMaker MkStr) ++ field_keywords) -> extra n kw kw' -> String_init args kw = Ok b ->
  exists t, String_init args kw' = Exn (EType t).
Proof.
  intros NI X H. unfold String_init in *. apply bindr_ok in H. destruct H as ((p & r) & H1 & H).
  assert (S1 : exists r', string_lengths kw' = Ok (p, r') /\ extra n r r').
  { unfold string_lengths in *. popped H1 X n. destruct (truthy v).
    - apply bindr_ok in H1. destruct H1 as (q & H1 & H2). rewrite H1. cbn [bindr]. apply bindr_ok in H2. destruct H2 as (u & H2 & [= <- <-]). rewrite H2. cbn [bindr]. eauto.
    - apply (min_max_extra n r0); try assumption; other. }
  destruct S1 as (r' & -> & X1). cbn [bindr]. clear H1.
  apply bindr_ok in H. destruct H as ((q & r2) & H1 & H).
  destruct (pattern_extra n _ _ _ _ ltac:(other) X1 H1) as (r2' & -> & X2). cbn [bindr].
  apply bindr_ok in H. destruct H as ((al & r3) & H2 & H).
  destruct (alphabet_extra n _ _ _ _ ltac:(other) X2 H2) as (r3' & -> & X3). cbn [bindr].
  apply bindr_ok in H. destruct H as ((ch & r4) & H3 & H).
  destruct (choices_extra n _ _ _ _ ltac:(other) X3 H3) as (r4' & -> & X4). cbn [bindr].
  apply init_refuse with (n := n) (kw := r4) (b := b); try assumption. cbn [own_keywords app In] in NI |- *. cbn in NI. tauto.
Qed.

Lemma number_refuse n c args kw kw' b : ~ In n (own_keywords (AnyMaker (MkNum c)) ++ field_keywords) -> extra n kw kw' -> Number_init c args kw = Ok b ->
  exists t, Number_init c args kw' = Exn (EType t).
Proof.
  intros NI X H. unfold Number_init in *. apply bindr_ok in H. destruct H as ((p & r) & H1 & H).
  assert (S1 : exists r', number_bounds kw' = Ok (p, r') /\ extra n r r').
  { unfold number_bounds in *. popped H1 X n. destruct (is_None v).
    - popped H1 X n. popped H1 X n. injection H1 as <- <-. eauto.
    - apply bindr_ok in H1. destruct H1 as (q & H1 & [= <- <-]). rewrite H1. cbn [bindr]. eauto. }
  destruct S1 as (r' & -> & X1). cbn [bindr]. apply init_refuse with (n := n) (kw := r) (b := b); try assumption. cbn in NI |- *. tauto.
Qed.
Lemma clock_refuse n c args kw kw' b : ~ In n (own_keywords (AnyMaker (MkClock c)) ++ field_keywords) -> extra n kw kw' -> clock_init c args kw = Ok b ->
  exists t, clock_init c args kw' = Exn (EType t).
Proof.
  intros NI X H.
  assert (S1 : forall p r, pop_between kw = Ok (p, r) -> exists r', pop_between kw' = Ok (p, r') /\ extra n r r').
  { intros p r H1. unfold pop_between in *. popped H1 X n. popped H1 X n. injection H1 as <- <-. eauto. }
  assert (NF : ~ In n field_keywords) by (cbn in NI |- *; tauto).
  destruct c; cbn [clock_init] in *; unfold Date_init, Time_init, Datetime_init in *;
    (apply bindr_ok in H; destruct H as ((p & r) & H1 & H); destruct (S1 _ _ H1) as (r' & -> & X1); cbn [bindr];
     popped H X1 n; apply bindr_ok in H; destruct H as (l & H2 & H); rewrite H2; cbn [bindr];
     eapply init_refuse; [exact NF|exact X1|exact H]).
Qed.
Lemma item_extra n x kw kw' f r : "field" <> n -> extra n kw kw' ->
  (match x, alookup kw "field" with
   | Some a, _ => bindr (item_field a) (fun f => Ok (f, kw))
   | None, Some (AF f) => Ok (f, kw_rest "field" kw)
   | None, Some (AV _) => Exn (EAttr "attach")
   | None, Some _ => Exn unmodelled
   | None, None => Exn (EOther "Exception")
   end) = Ok (f, r) ->
  exists r', (match x, alookup kw' "field" with
   | Some a, _ => bindr (item_field a) (fun f => Ok (f, kw'))
   | None, Some (AF f) => Ok (f, kw_rest "field" kw')
   | None, Some (AV _) => Exn (EAttr "attach")
   | None, Some _ => Exn unmodelled
   | None, None => Exn (EOther "Exception")
   end) = Ok (f, r') /\ extra n r r'.
Proof.
  intros NE X H1. destruct x as [i|].
  - apply bindr_ok in H1. destruct H1 as (g & H1 & [= <- <-]). rewrite H1. cbn [bindr]. eauto.
  - pose proof X as [L _]. rewrite L by exact NE. destruct (alookup kw "field") as [[| | |g| | |]|]; try discriminate.
    injection H1 as <- <-. eexists. split; [reflexivity|]. apply extra_rest; [exact NE|exact X].
Qed.
Lemma list_refuse n args kw kw' b : ~ In n (own_keywords MkList ++ field_keywords) -> extra n kw kw' -> List_init args kw = Ok b ->
  exists t, List_init args kw' = Exn (EType t).
Proof.
  intros NI X H. unfold List_init in *. destruct (pluck is_item args) as [rest x]. apply bindr_ok in H. destruct H as ((f & r) & H1 & H).
  destruct (item_extra n x kw kw' f r ltac:(other) X H1) as (r' & E & X1). rewrite E. cbn [bindr]. clear E H1 X. apply bindr_ok in H. destruct H as ((p & r2) & H1 & H).
  assert (S2 : exists r2', list_lengths r' = Ok (p, r2') /\ extra n r2 r2').
  { unfold list_lengths in *. popped H1 X1 n. destruct (truthy v).
    - apply bindr_ok in H1. destruct H1 as (q & H1 & H2). rewrite H1. cbn [bindr]. apply bindr_ok in H2. destruct H2 as (u & H2 & [= <- <-]). rewrite H2. cbn [bindr]. eauto.
    - apply (min_max_extra n r0); try assumption; other. }
  destruct S2 as (r2' & -> & X2). cbn [bindr]. unfold kw_pop in *. pose proof X2 as [L _]. rewrite L by other.
  eapply init_refuse; [|apply extra_rest; [|exact X2]|exact H]; [cbn in NI |- *; tauto|other].
Qed.
Lemma tuple_refuse n args kw kw' b : ~ In n (own_keywords MkTuple ++ field_keywords) -> extra n kw kw' -> Tuple_init args kw = Ok b ->
  exists t, Tuple_init args kw' = Exn (EType t).
Proof.
  intros NI X H. unfold Tuple_init in *. destruct args as [|a rest]; [discriminate|].
  destruct (match a with AV (VStr _) => ([a], rest) | _ => ([], a :: rest) end) as [src fields].
  apply bindr_ok in H. destruct H as (l & H1 & H). rewrite H1. cbn [bindr]. apply bindr_ok in H. destruct H as (fs & H2 & H). rewrite H2. cbn [bindr].
  eapply init_refuse; [|apply extra_rest; [|exact X]|exact H]; [cbn in NI |- *; tauto|other].
Qed.
Lemma dict_refuse n kf vf args kw kw' b : ~ In n (own_keywords (MkDict kf vf) ++ field_keywords) -> extra n kw kw' -> Dict_init kf vf args kw = Ok b ->
  exists t, Dict_init kf vf args kw' = Exn (EType t).
Proof.
  intros NI X H. unfold Dict_init in *. popped H X n. popped H X n.
  apply bindr_ok in H. destruct H as (mx & H1 & H). rewrite H1. cbn [bindr]. apply bindr_ok in H. destruct H as (rq & H2 & H). rewrite H2. cbn [bindr].
  eapply init_refuse; [|exact X|exact H]. cbn in NI |- *; tauto.
Qed.
Lemma sub_refuse n args kw kw' b : ~ In n (own_keywords MkSub ++ field_keywords) -> extra n kw kw' -> SubForm_init args kw = Ok b ->
  exists t, SubForm_init args kw' = Exn (EType t).
Proof.
  intros NI X H. unfold SubForm_init in *. destruct (pluck is_form_class args) as [rest x]. destruct x as [[| | | |ft| |]|]; try discriminate.
  pose proof X as [L _]. rewrite L by other. clear L.
  apply bindr_ok in H. destruct H as (b1 & H1 & H). rewrite H1. cbn [bindr].
  destruct (init_ok _ _ _ _ H1) as (K & _). unfold subform_options in *. rewrite K in *.
  assert (XR : extra n (kw_rest "src" kw) (kw_rest "src" kw')) by (apply extra_rest; [other|exact X]).
  assert (G : forall m, m <> n -> given m (kw_rest "src" kw') = given m (kw_rest "src" kw)).
  { intros m NE. unfold given. destruct XR as [L _]. now rewrite (L m NE). }
  rewrite (G "unmapped") by other. apply bindr_ok in H. destruct H as (u & H2 & H). rewrite H2. cbn [bindr].
  match goal with |- exists t, bindr (field_options ?k ?o) _ = _ =>
    destruct (options_refuse n (kw_rest "reset" (kw_rest "unmapped" (kw_rest "flat" (kw_rest "src" kw)))) k o) as (t & E) end.
  - cbn in NI |- *; tauto.
  - repeat (apply extra_rest; [other|]). exact X.
  - rewrite E. eexists. reflexivity.
Qed.
Lemma poly_refuse n pr tf tb args kw kw' b : ~ In n (own_keywords (MkPoly pr tf tb) ++ field_keywords) -> extra n kw kw' -> Poly_init pr tf tb args kw = Ok b ->
  exists t, Poly_init pr tf tb args kw' = Exn (EType t).
Proof.
  intros NI X H. unfold Poly_init in *. pose proof X as [L _]. rewrite (L "unmapped") by other. rewrite (L "reset") by other.
  apply bindr_ok in H. destruct H as (u & H1 & H). rewrite H1. cbn [bindr].
  apply (init_refuse n args (kw_rest "unmapped" (kw_rest "reset" kw))) with (b := b); [cbn in NI |- *; tauto| |exact H].
  repeat (apply extra_rest; [other|]). exact X.
Qed.
Lemma group_refuse n args kw kw' b : ~ In n (own_keywords MkGroup ++ field_keywords) -> extra n kw kw' -> Group_init args kw = Ok b ->
  exists t, Group_init args kw' = Exn (EType t).
Proof.
  intros NI X H. unfold Group_init in *. apply bindr_ok in H. destruct H as (l & H1 & H). rewrite H1. cbn [bindr].
  pose proof X as [L (a & I)]. rewrite (L "default") by other.
  eapply (init_refuse n); [exact NI| |exact H]. destruct (alookup kw "default"); [exact X|]. split.
  - intros m NE. rewrite !alookup_app. now rewrite (L m NE).
  - exists a. apply in_or_app. now left.
Qed.
Lemma C95_unknown_lem m n a args kw kw' b : construct m args kw = Ok b -> ~ In n (own_keywords m ++ field_keywords) -> and_also n a kw kw' ->
  exists t, construct m args kw' = Exn (EType t).
Proof.
  intros H NI A. apply also_extra in A. destruct m as [[k| |c|c]| | |kf vf| |pr tf tb|]; cbn [construct make] in *.
  - eapply init_refuse; eassumption.
  - eapply string_refuse; eassumption.
  - eapply number_refuse; eassumption.
  - eapply clock_refuse; eassumption.
  - eapply list_refuse; eassumption.
  - eapply tuple_refuse; eassumption.
  - eapply dict_refuse; eassumption.
  - eapply sub_refuse; eassumption.
  - eapply poly_refuse; eassumption.
  - eapply group_refuse; eassumption.
Qed.

(** ** Keywords that exclude each other *)
Lemma found_pop m kw x v r : alookup kw m = Some (AV x) -> pop_value m kw = Ok (v, r) -> v = x.
Proof. unfold pop_value, kw_pop. intros -> H. cbn in H. congruence. Qed.
Lemma pluck_some args : (exists x, In x args /\ an_item x) -> exists rest i, pluck is_item args = (rest, Some i).
Proof.
  induction args as [|y args IH]; intros (x & I & K); [destruct I|]. cbn [pluck]. destruct (is_item y) eqn:Q; [eauto|].
  destruct I as [->|I]; [destruct x; try destruct K; discriminate|]. destruct IH as (rest & i & ->); [eauto|]. eauto.
Qed.
Lemma C95_exclude_lem m n a args kw kw' b : construct m args kw = Ok b -> excludes m args kw n -> and_also n a kw kw' ->
  exists t, construct m args kw' = Exn (EType t).
Proof.
  intros H E A. apply also_extra in A. rename A into X. destruct E as [c args kw n x L NN NI|args kw n x L T NI|args kw n x L T NI|args kw I]; cbn [construct make] in *.
  - assert (NF : ~ In n field_keywords) by (destruct NI as [->| ->]; cbn; intuition discriminate).
    assert (NR : "range" <> n) by (destruct NI; subst; discriminate).
    unfold Number_init in *. apply bindr_ok in H. destruct H as ((p & r) & H1 & H).
    assert (S1 : exists r', number_bounds kw' = Ok (p, r') /\ extra n r r').
    { unfold number_bounds in *. apply bindr_ok in H1. destruct H1 as ((v & r0) & P & H1). pose proof (found_pop _ _ _ _ _ L P) as ->.
      destruct (extra_pop n _ _ _ _ _ NR X P) as (r' & -> & X'). cbn [bindr]. destruct (is_None x) eqn:Q; [destruct x; discriminate || congruence|].
      apply bindr_ok in H1. destruct H1 as (q & H1 & [= <- <-]). rewrite H1. cbn [bindr]. eauto. }
    destruct S1 as (r' & -> & X1). cbn [bindr]. eapply init_refuse; [exact NF|exact X1|exact H].
  - assert (NF : ~ In n field_keywords) by (destruct NI as [->| ->]; cbn; intuition discriminate).
    assert (NR : "length" <> n /\ "pattern" <> n /\ "alphabet" <> n /\ "choices" <> n) by (destruct NI; subst; repeat split; discriminate).
    destruct NR as (NR & N2 & N3 & N4). apply counts_truthy in T. cbn [arg_truthy] in T.
    unfold String_init in *. apply bindr_ok in H. destruct H as ((p & r) & H1 & H).
    assert (S1 : exists r', string_lengths kw' = Ok (p, r') /\ extra n r r').
    { unfold string_lengths in *. apply bindr_ok in H1. destruct H1 as ((v & r0) & P & H1). pose proof (found_pop _ _ _ _ _ L P) as ->.
      destruct (extra_pop n _ _ _ _ _ NR X P) as (r' & -> & X'). cbn [bindr]. rewrite T in *.
      apply bindr_ok in H1. destruct H1 as (q & H1 & H2). rewrite H1. cbn [bindr]. apply bindr_ok in H2. destruct H2 as (u & H2 & [= <- <-]). rewrite H2. cbn [bindr]. eauto. }
    destruct S1 as (r' & -> & X1). cbn [bindr]. clear H1.
    apply bindr_ok in H. destruct H as ((q & r2) & H1 & H).
    destruct (pattern_extra n _ _ _ _ N2 X1 H1) as (r2' & -> & X2). cbn [bindr].
    apply bindr_ok in H. destruct H as ((al & r3) & H2 & H).
    destruct (alphabet_extra n _ _ _ _ N3 X2 H2) as (r3' & -> & X3). cbn [bindr].
    apply bindr_ok in H. destruct H as ((ch & r4) & H3 & H).
    destruct (choices_extra n _ _ _ _ N4 X3 H3) as (r4' & -> & X4). cbn [bindr].
    eapply init_refuse; [exact NF|exact X4|exact H].
  - assert (NF : ~ In n field_keywords) by (destruct NI as [->| ->]; cbn; intuition discriminate).
    assert (NR : "length" <> n /\ "field" <> n /\ "allow_field" <> n) by (destruct NI; subst; repeat split; discriminate).
    destruct NR as (NR & N2 & N3). apply counts_truthy in T. cbn [arg_truthy] in T.
    unfold List_init in *. destruct (pluck is_item args) as [rest i]. apply bindr_ok in H. destruct H as ((f & r) & H1 & H).
    destruct (item_extra n i kw kw' f r N2 X H1) as (r' & E & X1). rewrite E. cbn [bindr].
    assert (LR : alookup r "length" = Some (AV x)).
    { destruct i as [i|].
      - apply bindr_ok in H1. destruct H1 as (g & _ & [= _ <-]). exact L.
      - destruct (alookup kw "field") as [[| | |g| | |]|]; try discriminate. injection H1 as <- <-. now rewrite alookup_rest by discriminate. }
    apply bindr_ok in H. destruct H as ((p & r2) & H2 & H).
    assert (S2 : exists r2', list_lengths r' = Ok (p, r2') /\ extra n r2 r2').
    { unfold list_lengths in *. apply bindr_ok in H2. destruct H2 as ((v & r0) & P & H2). pose proof (found_pop _ _ _ _ _ LR P) as ->.
      destruct (extra_pop n _ _ _ _ _ NR X1 P) as (r0' & -> & X'). cbn [bindr]. rewrite T in *.
      apply bindr_ok in H2. destruct H2 as (q & H2 & H3). rewrite H2. cbn [bindr]. apply bindr_ok in H3. destruct H3 as (u & H3 & [= <- <-]). rewrite H3. cbn [bindr]. eauto. }
    destruct S2 as (r2' & -> & X2). cbn [bindr]. unfold kw_pop in *. pose proof X2 as [LL _]. rewrite LL by assumption.
    eapply init_refuse; [exact NF|apply extra_rest; [exact N3|exact X2]|exact H].
  - unfold List_init in *. destruct (pluck_some args I) as (rest & i & E). rewrite E in *. apply bindr_ok in H. destruct H as ((f & r) & H1 & H).
    apply bindr_ok in H1. destruct H1 as (g & H1 & [= <- <-]). rewrite H1. cbn [bindr].
    apply bindr_ok in H. destruct H as ((p & r2) & H2 & H).
    assert (S2 : exists r2', list_lengths kw' = Ok (p, r2') /\ extra "field" r2 r2').
    { unfold list_lengths in *. apply bindr_ok in H2. destruct H2 as ((v & r0) & P & H2).
      destruct (extra_pop "field" "length" kw kw' _ _ ltac:(discriminate) X P) as (r0' & -> & X'). cbn [bindr]. destruct (truthy v).
      - apply bindr_ok in H2. destruct H2 as (q & H2 & H3). rewrite H2. cbn [bindr]. apply bindr_ok in H3. destruct H3 as (u & H3 & [= <- <-]). rewrite H3. cbn [bindr]. eauto.
      - apply (min_max_extra "field" r0); try assumption; discriminate. }
    destruct S2 as (r2' & -> & X2). cbn [bindr]. unfold kw_pop in *. pose proof X2 as [LL _]. rewrite LL by discriminate.
    apply (init_refuse "field" rest (kw_rest "allow_field" r2)) with (b := b); [cbn; intuition discriminate|apply extra_rest; [discriminate|exact X2]|exact H].
Qed.
Lemma C95_options_lem n a kw kw' b : ~ In n field_keywords \/ n = "src" -> and_also n a kw kw' ->
  exists t, with_options kw' b = Exn (EType t).
Proof.
  intros NI X. apply also_extra in X. destruct X as [_ (x & I)]. unfold with_options, field_options. destruct (forallb _ kw') eqn:F; [|eexists; reflexivity].
  exfalso. rewrite forallb_forall in F. specialize (F _ I). cbn [fst] in F. apply known_in in F.
  destruct NI as [NI| ->]; [apply NI; cbn in F |- *; tauto|cbn in F; intuition discriminate].
Qed.
