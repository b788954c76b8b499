(** * ChainProofs: methods called one after the other (C91). *)
From Verif Require Import PyBase PyStr Source Field Context Fields Build SpecCtx SpecField FieldVios SpecBox SpecBuild SpecClock SpecChain Run FieldProofs FieldLemmas MakeProofs BoxProofs BoxLemmas Make73 Make82.
From Coq Require Import Lia.
Open Scope Z_scope.

Lemma opted_alike kw1 kw2 o : (forall n, In n option_names -> alookup kw1 n = alookup kw2 n) -> opted kw1 o = opted kw2 o.
Proof.
  intros A. assert (G : forall n, In n option_names -> given n kw1 = given n kw2) by (intros n I; unfold given; now rewrite A).
  unfold opted, nul, dfl, ign, tra, tgs, att. rewrite !G by (cbn [option_names In]; tauto). reflexivity.
Qed.
Lemma init_alike args kw1 kw2 k1 k2 b1 b2 : (forall n, In n ("src" :: option_names) -> alookup kw1 n = alookup kw2 n) ->
  field_init args kw1 k1 = Ok b1 -> field_init args kw2 k2 = Ok b2 -> b2 = BF (b_src b1) (b_opts b1) k2.
Proof.
  intros A H1 H2.
  assert (O : forall o, opted (kw_rest "src" kw1) o = opted (kw_rest "src" kw2) o).
  { intros o. apply opted_alike. intros n I. rewrite !alookup_rest by (intros ->; cbn [option_names In] in I; intuition discriminate). apply A. now right. }
  unfold field_init in *. rewrite <- (A "src") in H2 by now left.
  destruct args as [|[] [|]]; destruct (alookup kw1 "src") as [[]|]; try discriminate;
    apply bindr_ok in H1; destruct H1 as (o1 & F1 & [= <-]); apply bindr_ok in H2; destruct H2 as (o2 & F2 & [= <-]);
    apply options_iff in F1, F2; destruct F1 as [_ ->], F2 as [_ ->]; cbn [b_src b_opts]; now rewrite O.
Qed.
Lemma calls_run {C} step (cs : list C) b b1 b2 : calls step cs b b1 -> calls step cs b b2 -> b1 = b2.
Proof. intros H. revert b2. induction H as [b|c cs b b' b1 S _ IH]; intros b2 H2; inversion H2; subst; [reflexivity|]. apply IH. congruence. Qed.

(** ** Numbers *)
Lemma number_min cl lo hi v lo1 b : b_kind b = number_kind cl lo hi -> bound_said (Some (AV v)) lo1 ->
  set_min v b = Ok (BF (b_src b) (b_opts b) (number_kind cl lo1 hi)).
Proof. intros K S. apply bound_as in S. unfold set_min. rewrite K, <- S. destruct cl; reflexivity. Qed.
Lemma number_max cl lo hi v hi1 b : b_kind b = number_kind cl lo hi -> bound_said (Some (AV v)) hi1 ->
  set_max v b = Ok (BF (b_src b) (b_opts b) (number_kind cl lo hi1)).
Proof. intros K S. apply bound_as in S. unfold set_max. rewrite K, <- S. destruct cl; reflexivity. Qed.
Lemma number_calls cl cs x y : bounds_told cs x y -> forall b, b_kind b = number_kind cl (fst x) (snd x) ->
  calls size_step cs b (BF (b_src b) (b_opts b) (number_kind cl (fst y) (snd y))).
Proof.
  induction 1 as [x|v lo1 lo hi cs x S _ IH|v hi1 lo hi cs x S _ IH|v w lo1 hi1 lo hi cs x S S2 _ IH]; intros b K; cbn [fst snd] in K.
  - rewrite <- K. destruct b. constructor.
  - econstructor; [exact (number_min _ _ _ _ _ _ K S)|]. apply (IH (BF (b_src b) (b_opts b) _)). reflexivity.
  - econstructor; [exact (number_max _ _ _ _ _ _ K S)|]. apply (IH (BF (b_src b) (b_opts b) _)). reflexivity.
  - econstructor; [cbn [size_step]; unfold set_range; rewrite (number_min _ _ _ _ _ _ K S); cbn [bindr]; apply (number_max cl lo1 hi w hi1); [reflexivity|exact S2]|].
    apply (IH (BF (b_src b) (b_opts b) _)). reflexivity.
Qed.
Lemma C91_number_lem cl args kw b lo hi cs lo' hi' : Number_init cl args kw = Ok b -> range_said kw lo hi -> bounds_told cs (lo, hi) (lo', hi') ->
  exists b', calls size_step cs b b' /\
    forall kw2 b2, alike ["range"; "min_value"; "max_value"] kw kw2 -> range_said kw2 lo' hi' -> Number_init cl args kw2 = Ok b2 -> b2 = b'.
Proof.
  intros H R B. unfold Number_init in H. destruct (number_bounds_said _ _ _ R) as (kw1 & X & SL). rewrite X in H. cbn [bindr fst snd] in H.
  destruct (init_ok _ _ _ _ H) as [K _]. eexists. split; [exact (number_calls _ _ _ _ B b K)|]. intros kw2 b2 A R2 H2.
  unfold Number_init in H2. destruct (number_bounds_said _ _ _ R2) as (kw3 & X2 & SL2). rewrite X2 in H2. cbn [bindr fst snd] in H2.
  refine (init_alike args kw1 kw3 _ _ b b2 _ H H2). intros n I.
  assert (NI : ~ In n ["range"; "min_value"; "max_value"]) by (cbn [option_names In] in *; intuition congruence).
  rewrite SL, SL2 by exact NI. apply A, NI.
Qed.

(** ** Lists *)
Lemma list_min f lo hi al v lo1 b : b_kind b = KList f lo hi al -> end_said (Some (AV v)) lo1 ->
  set_min v b = Ok (BF (b_src b) (b_opts b) (KList f lo1 hi al)).
Proof. intros K S. apply end_length in S. unfold set_min. rewrite K, S. reflexivity. Qed.
Lemma list_max f lo hi al v hi1 b : b_kind b = KList f lo hi al -> end_said (Some (AV v)) hi1 ->
  set_max v b = Ok (BF (b_src b) (b_opts b) (KList f lo hi1 al)).
Proof. intros K S. apply end_length in S. unfold set_max. rewrite K, S. reflexivity. Qed.
Lemma list_calls f al cs x y : lengths_told cs x y -> forall b, b_kind b = KList f (fst x) (snd x) al ->
  calls size_step cs b (BF (b_src b) (b_opts b) (KList f (fst y) (snd y) al)).
Proof.
  induction 1 as [x|v lo1 lo hi cs x S _ IH|v hi1 lo hi cs x S _ IH|v w lo1 hi1 lo hi cs x S S2 _ IH]; intros b K; cbn [fst snd] in K.
  - rewrite <- K. destruct b. constructor.
  - econstructor; [exact (list_min _ _ _ _ _ _ _ K S)|]. apply (IH (BF (b_src b) (b_opts b) _)). reflexivity.
  - econstructor; [exact (list_max _ _ _ _ _ _ _ K S)|]. apply (IH (BF (b_src b) (b_opts b) _)). reflexivity.
  - econstructor; [cbn [size_step]; unfold set_range; rewrite (list_min _ _ _ _ _ _ _ K S); cbn [bindr]; apply (list_max f lo1 hi al w hi1); [reflexivity|exact S2]|].
    apply (IH (BF (b_src b) (b_opts b) _)). reflexivity.
Qed.
Definition lengths := ["length"; "min_length"; "max_length"].
Lemma C91_list_lem args kw b lo hi cs lo' hi' : List_init args kw = Ok b -> pair_said kw lo hi -> lengths_told cs (lo, hi) (lo', hi') ->
  exists b', calls size_step cs b b' /\
    forall kw2 b2, alike ["length"; "min_length"; "max_length"] kw kw2 -> pair_said kw2 lo' hi' -> List_init args kw2 = Ok b2 -> b2 = b'.
Proof.
  intros H R B. unfold List_init in H. destruct (pluck is_item args) as [args1 x] eqn:PL. cbv beta iota in H.
  apply bindr_ok in H. destruct H as ([f kw1] & F & H). cbv beta iota in H.
  assert (L1 : forall n, n <> "field" -> alookup kw1 n = alookup kw n).
  { intros n NF. destruct x as [a|].
    - apply bindr_ok in F. destruct F as (g & _ & [= _ <-]). reflexivity.
    - destruct (alookup kw "field") as [[]|]; try discriminate. injection F as <- <-. now apply alookup_rest. }
  assert (PS : forall k1 k2 a c, (forall n, n <> "field" -> alookup k1 n = alookup k2 n) -> pair_said k2 a c -> pair_said k1 a c).
  { intros k1 k2 a c E P. unfold pair_said, unsaid in *. rewrite !E by discriminate. exact P. }
  destruct (list_lengths_said _ _ _ (PS _ _ _ _ L1 R)) as (kw2 & X & SL). rewrite X in H. cbn [bindr fst snd] in H. unfold kw_pop in H. cbv beta iota in H.
  destruct (init_ok _ _ _ _ H) as [K _]. eexists. split; [exact (list_calls _ _ _ _ _ B b K)|]. intros kx b2 A R2 H2.
  unfold List_init in H2. rewrite PL in H2. cbv beta iota in H2.
  apply bindr_ok in H2. destruct H2 as ([f2 ky1] & F2 & H2). cbv beta iota in H2. 
  assert (AF : alookup kw "field" = alookup kx "field") by (apply A; cbn [In]; intuition discriminate).
  assert (L2 : f2 = f /\ forall n, n <> "field" -> alookup ky1 n = alookup kx n).
  { rewrite <- AF in F2. destruct x as [a|].
    - apply bindr_ok in F. destruct F as (g & I1 & [= <- <-]). apply bindr_ok in F2. destruct F2 as (g2 & I2 & [= <- <-]). split; [congruence|reflexivity].
    - destruct (alookup kw "field") as [[]|]; try discriminate. injection F as <- <-. injection F2 as <- <-. split; [reflexivity|]. intros n NF. now apply alookup_rest. }
  destruct L2 as [-> L2].
  destruct (list_lengths_said _ _ _ (PS _ _ _ _ L2 R2)) as (ky2 & X2 & SL2). rewrite X2 in H2. cbn [bindr fst snd] in H2. unfold kw_pop in H2. cbv beta iota in H2.
  assert (EQ : forall n, n <> "field" -> ~ In n ["length"; "min_length"; "max_length"] -> alookup kw2 n = alookup ky2 n).
  { intros n NF NI. rewrite SL, SL2, L1, L2 by assumption. apply A, NI. }
  assert (AL : alookup kw2 "allow_field" = alookup ky2 "allow_field") by (apply EQ; [discriminate|cbn [In]; intuition discriminate]).
  rewrite <- AL in H2.
  refine (init_alike args1 _ _ _ _ b b2 _ H H2). intros n I.
  rewrite !alookup_rest by (intros ->; cbn [option_names In] in I; intuition discriminate).
  apply EQ; cbn [option_names In] in *; intuition congruence.
Qed.

(** ** Dates and times *)
Definition clock_of (c : clock) (fmts : list string) (lo hi : option val) : kind :=
  match c with CDate => KDate fmts lo hi | CTime => KTime (hd_error fmts) lo hi | CDatetime => KDatetime (hd_error fmts) lo hi end.
Lemma clock_after c l lo hi v lo1 b : b_kind b = clock_of c l lo hi -> bound_said (Some (AV v)) lo1 ->
  set_after v b = Ok (BF (b_src b) (b_opts b) (clock_of c l lo1 hi)).
Proof. intros K S. apply bound_as in S. unfold set_after. rewrite K, <- S. destruct c; reflexivity. Qed.
Lemma clock_before c l lo hi v hi1 b : b_kind b = clock_of c l lo hi -> bound_said (Some (AV v)) hi1 ->
  set_before v b = Ok (BF (b_src b) (b_opts b) (clock_of c l lo hi1)).
Proof. intros K S. apply bound_as in S. unfold set_before. rewrite K, <- S. destruct c; reflexivity. Qed.
Lemma format_dates v l : formats_said (Some (AV v)) l -> date_formats v = Ok l.
Proof.
  intros H. inversion H as [X|X|x NE X|m X|m X]; subst; cbn [date_formats]; [reflexivity| |apply formats_list..].
  destruct (String.eqb x "") eqn:Q; [apply String.eqb_eq in Q; contradiction|reflexivity].
Qed.
Lemma format_one c v l : format_told c v l -> c <> CDate -> one_format v = Ok (hd_error l).
Proof.
  intros [F O] NC. destruct (O NC) as [->|[x ->]]; inversion F; subst; reflexivity.
Qed.
Lemma clock_format c l lo hi v l1 b : b_kind b = clock_of c l lo hi -> format_told c v l1 ->
  set_format v b = Ok (BF (b_src b) (b_opts b) (clock_of c l1 lo hi)).
Proof.
  intros K S. unfold set_format. rewrite K. destruct c; cbn [clock_of].
  - rewrite (format_dates v l1 (proj1 S)). reflexivity.
  - rewrite (format_one _ _ _ S) by discriminate. reflexivity.
  - rewrite (format_one _ _ _ S) by discriminate. reflexivity.
Qed.
Lemma clock_calls c cs x y : clock_told c cs x y -> forall b, b_kind b = clock_of c (snd x) (fst (fst x)) (snd (fst x)) ->
  calls clock_step cs b (BF (b_src b) (b_opts b) (clock_of c (snd y) (fst (fst y)) (snd (fst y)))).
Proof.
  induction 1 as [x|v lo1 lo hi l cs x S _ IH|v hi1 lo hi l cs x S _ IH|v w lo1 hi1 lo hi l cs x S S2 _ IH|v l1 lo hi l cs x S _ IH]; intros b K; cbn [fst snd] in K.
  - rewrite <- K. destruct b. constructor.
  - econstructor; [exact (clock_after _ _ _ _ _ _ _ K S)|]. apply (IH (BF (b_src b) (b_opts b) _)). reflexivity.
  - econstructor; [exact (clock_before _ _ _ _ _ _ _ K S)|]. apply (IH (BF (b_src b) (b_opts b) _)). reflexivity.
  - econstructor; [cbn [clock_step]; unfold set_between; rewrite (clock_after _ _ _ _ _ _ _ K S); cbn [bindr]; apply (clock_before c l lo1 hi w hi1); [reflexivity|exact S2]|].
    apply (IH (BF (b_src b) (b_opts b) _)). reflexivity.
  - econstructor; [exact (clock_format _ _ _ _ _ _ _ K S)|]. apply (IH (BF (b_src b) (b_opts b) _)). reflexivity.
Qed.
(** a constructed one *)
Lemma clock_built c args kw b fmts lo hi : clock_init c args kw = Ok b -> formats_said (alookup kw "format") fmts ->
  bound_said (alookup kw "after") lo -> bound_said (alookup kw "before") hi ->
  exists kw', field_init args kw' (clock_of c fmts lo hi) = Ok b /\ some_left kw kw' ["after"; "before"; "format"].
Proof.
  intros H F Lo Hi. destruct (between_said kw lo hi Lo Hi) as (kw1 & P & SL). rewrite <- (SL "format") in F by (apply no_in; reflexivity).
  destruct (formats_are kw1 fmts F) as (v & PV & DF & OF). exists (kw_rest "format" kw1).
  split; [|exact (some_trans _ _ _ _ ["format"] SL (some_rest _ _))].
  destruct c; cbn [clock_init clock_of] in *; [unfold Date_init in H|unfold Time_init in H|unfold Datetime_init in H]; rewrite P in H; cbn [bindr] in H; rewrite PV in H; cbn [bindr] in H.
  - rewrite DF in H. exact H.
  - apply bindr_ok in H. destruct H as (o & O & H). rewrite <- (OF o O). exact H.
  - apply bindr_ok in H. destruct H as (o & O & H). rewrite <- (OF o O). exact H.
Qed.
Lemma C91_clock_lem c args kw b fmts lo hi cs fmts' lo' hi' : clock_init c args kw = Ok b -> formats_said (alookup kw "format") fmts ->
  bound_said (alookup kw "after") lo -> bound_said (alookup kw "before") hi -> clock_told c cs (lo, hi, fmts) (lo', hi', fmts') ->
  exists b', calls clock_step cs b b' /\
    forall kw2 b2, alike ["after"; "before"; "format"] kw kw2 -> formats_said (alookup kw2 "format") fmts' ->
      bound_said (alookup kw2 "after") lo' -> bound_said (alookup kw2 "before") hi' -> clock_init c args kw2 = Ok b2 -> b2 = b'.
Proof.
  intros H F Lo Hi B. destruct (clock_built _ _ _ _ _ _ _ H F Lo Hi) as (kw1 & X & SL). destruct (init_ok _ _ _ _ X) as [K _].
  eexists. split; [exact (clock_calls _ _ _ _ B b K)|]. intros kw2 b2 A F2 Lo2 Hi2 H2.
  destruct (clock_built _ _ _ _ _ _ _ H2 F2 Lo2 Hi2) as (kw3 & X2 & SL2).
  refine (init_alike args kw1 kw3 _ _ b b2 _ X X2). intros n I.
  assert (NI : ~ In n ["after"; "before"; "format"]) by (cbn [option_names In] in *; intuition congruence).
  rewrite SL, SL2 by exact NI. apply A, NI.
Qed.

(** ** Options *)
Section More.
Variable kw2 : kwargs.
Hypothesis KN : forallb (fun kv => known_option (fst kv)) kw2 = true.
Definition merges (kw : kwargs) : Prop :=
  apart kw kw2 /\ (alookup kw "default" = Some (AV VNone) -> unsaid kw2 "nullable") /\ (says kw2 "optional" -> unsaid kw "default").
Lemma not_there n : known_option n = false -> alookup kw2 n = None /\ kw_rest n kw2 = kw2.
Proof.
  intros NK. revert KN. generalize kw2 as l. induction l as [|[m a] l IH]; [split; reflexivity|]. cbn [forallb fst]. intros H. apply andb_prop in H. destruct H as [H1 H2].
  destruct (IH H2) as [A B]. assert (Q : String.eqb m n = false). { destruct (String.eqb m n) eqn:Q; [|reflexivity]. apply String.eqb_eq in Q. subst. congruence. }
  cbn [alookup kw_rest filter fst]. rewrite Q. cbn [negb]. split; [exact A|]. f_equal. exact B.
Qed.
Lemma merges_rest n kw : merges kw -> merges (kw_rest n kw).
Proof.
  intros (A & B & C).
  assert (L : forall m, alookup (kw_rest n kw) m = None \/ alookup (kw_rest n kw) m = alookup kw m).
  { intros m. destruct (string_dec m n) as [->|NE]; [left; apply alookup_rest_same|right; now apply alookup_rest]. }
  split; [|split].
  - intros m. destruct (A m) as [X|X]; [|now right]. left. destruct (L m) as [->| ->]; auto.
  - destruct (L "default") as [->| ->]; [discriminate|exact B].
  - intros S. unfold unsaid. destruct (L "default") as [->| ->]; [reflexivity|exact (C S)].
Qed.
Lemma rest_app n kw : known_option n = false -> kw_rest n (kw ++ kw2) = kw_rest n kw ++ kw2.
Proof. intros NK. unfold kw_rest at 1. rewrite filter_app. f_equal. apply (not_there n NK). Qed.
Lemma lookup_app n kw : known_option n = false -> alookup (kw ++ kw2) n = alookup kw n.
Proof. intros NK. rewrite alookup_app. destruct (not_there n NK) as [-> _]. now destruct (alookup kw n). Qed.
Lemma pop_app n kw v kw' : known_option n = false -> pop_value n kw = Ok (v, kw') -> merges kw -> pop_value n (kw ++ kw2) = Ok (v, kw' ++ kw2) /\ merges kw'.
Proof.
  intros NK P M. unfold pop_value, kw_pop in *. rewrite lookup_app, rest_app by exact NK. apply bindr_ok in P. destruct P as (w & A & [= <- <-]). rewrite A. cbn [bindr].
  split; [reflexivity|now apply merges_rest].
Qed.
Lemma init_app args kw k b b' : merges kw -> field_init args kw k = Ok b -> with_options kw2 b = Ok b' -> field_init args (kw ++ kw2) k = Ok b'.
Proof.
  intros M H O. pose proof (merges_rest "src" kw M) as (A & B & C).
  unfold field_init in *. rewrite lookup_app, rest_app by reflexivity. unfold with_options in O.
  destruct args as [|[] [|]]; destruct (alookup kw "src") as [[]|]; try discriminate;
    apply bindr_ok in H; destruct H as (o1 & F1 & [= <-]); cbn [b_opts b_src b_kind] in O; apply bindr_ok in O; destruct O as (o2 & F2 & [= <-]);
    rewrite (C72_calls_lem _ _ _ _ _ F1 F2 A B C); reflexivity.
Qed.
Ltac pop H M := match type of H with bindr (pop_value ?n ?kw) _ = Ok _ =>
  let v := fresh "v" in let kw' := fresh "kw" in let P := fresh "P" in
  apply bindr_ok in H; destruct H as ([v kw'] & P & H); cbv beta iota in H; destruct (pop_app n kw v kw' eq_refl P M) as [-> M']; clear M; rename M' into M; cbn [bindr] end.
Lemma string_app args kw b b' : merges kw -> String_init args kw = Ok b -> with_options kw2 b = Ok b' -> String_init args (kw ++ kw2) = Ok b'.
Proof.
  intros M H O. unfold String_init in *.
  apply bindr_ok in H. destruct H as ([bd k1] & L & H). cbv beta iota in H.
  assert (string_lengths (kw ++ kw2) = Ok (bd, k1 ++ kw2) /\ merges k1) as [-> M1].
  { unfold string_lengths in *. pop L M. destruct (truthy v).
    - apply bindr_ok in L. destruct L as (p & -> & L). apply bindr_ok in L. destruct L as (q & Q & [= <- <-]). cbn [bindr]. rewrite Q. auto.
    - unfold pop_min_max in *. pop L M. pop L M. apply bindr_ok in L. destruct L as (q & -> & [= <- <-]). cbn [bindr]. auto. }
  cbn [bindr]. clear L. apply bindr_ok in H. destruct H as ([pt k2] & L & H). cbv beta iota in H.
  assert (string_pattern (k1 ++ kw2) = Ok (pt, k2 ++ kw2) /\ merges k2) as [-> M2].
  { unfold string_pattern, kw_pop in *. rewrite lookup_app, rest_app by reflexivity. pose proof (merges_rest "pattern" _ M1).
    destruct (alookup k1 "pattern") as [[v| | | | | |]|]; try discriminate; [destruct v; try discriminate|..]; 
      repeat match type of L with context [if ?c then _ else _] => destruct c; try discriminate end; injection L as <- <-; auto. }
  cbn [bindr]. clear L. apply bindr_ok in H. destruct H as ([al k3] & L & H). cbv beta iota in H.
  assert (string_alphabet (k2 ++ kw2) = Ok (al, k3 ++ kw2) /\ merges k3) as [-> M3].
  { unfold string_alphabet in *. pop L M2. destruct v; try discriminate; injection L as <- <-; auto. }
  cbn [bindr]. clear L. apply bindr_ok in H. destruct H as ([ch k4] & L & H). cbv beta iota in H.
  assert (string_choices (k3 ++ kw2) = Ok (ch, k4 ++ kw2) /\ merges k4) as [-> M4].
  { unfold string_choices in *. pop L M3. destruct v; try discriminate; injection L as <- <-; auto. }
  cbn [bindr]. eapply init_app; eassumption.
Qed.
Lemma number_app cl args kw b b' : merges kw -> Number_init cl args kw = Ok b -> with_options kw2 b = Ok b' -> Number_init cl args (kw ++ kw2) = Ok b'.
Proof.
  intros M H O. unfold Number_init in *. apply bindr_ok in H. destruct H as ([bd k1] & L & H). cbv beta iota in H.
  assert (number_bounds (kw ++ kw2) = Ok (bd, k1 ++ kw2) /\ merges k1) as [-> M1].
  { unfold number_bounds in *. pop L M. destruct (is_None v).
    - pop L M. pop L M. injection L as <- <-. auto.
    - apply bindr_ok in L. destruct L as (q & -> & [= <- <-]). cbn [bindr]. auto. }
  cbn [bindr]. eapply init_app; eassumption.
Qed.
Lemma clock_app c args kw b b' : merges kw -> clock_init c args kw = Ok b -> with_options kw2 b = Ok b' -> clock_init c args (kw ++ kw2) = Ok b'.
Proof.
  intros M H O.
  assert (PB : forall bd k1, pop_between kw = Ok (bd, k1) -> pop_between (kw ++ kw2) = Ok (bd, k1 ++ kw2) /\ merges k1).
  { intros bd k1 L. unfold pop_between in *. pop L M. pop L M. injection L as <- <-. auto. }
  destruct c; cbn [clock_init] in *; [unfold Date_init in *|unfold Time_init in *|unfold Datetime_init in *];
    (apply bindr_ok in H; destruct H as ([bd k1] & L & H); cbv beta iota in H; destruct (PB _ _ L) as [-> M1]; cbn [bindr]; pop H M1;
     apply bindr_ok in H; destruct H as (l & -> & H); cbn [bindr]; eapply init_app; eassumption).
Qed.
End More.
Lemma C91_options_lem m args kw1 kw2 b b' : make m args kw1 = Ok b -> with_options kw2 b = Ok b' -> apart kw1 kw2 ->
  (alookup kw1 "default" = Some (AV VNone) -> unsaid kw2 "nullable") -> (says kw2 "optional" -> unsaid kw1 "default") ->
  make m args (kw1 ++ kw2) = Ok b'.
Proof.
  intros H O A B C. assert (M : merges kw2 kw1) by (split; [exact A|split; assumption]).
  assert (KN : forallb (fun kv => known_option (fst kv)) kw2 = true).
  { unfold with_options in O. apply bindr_ok in O. destruct O as (o & O & _). apply options_iff in O. apply O. }
  destruct m; cbn [make] in *; [eapply init_app|eapply string_app|eapply number_app|eapply clock_app]; eassumption.
Qed.

(** ** [ignore], [translate], [tag] *)
Lemma C91_ignore_lem vs : forall b, (forall v, In v vs -> v <> VConst NOTSET) -> calls options_step (map (fun v => [("ignore", AV v)]) vs) b (with_ignores vs b).
Proof.
  induction vs as [|v vs IH]; intros b N.
  - destruct b as [bs o k]. unfold with_ignores, add_ignores, set_ignores. cbn [b_src b_opts b_kind]. rewrite app_nil_r. destruct o. constructor.
  - assert (G : with_options [("ignore", AV v)] b = Ok (with_ignores [v] b)).
    { unfold with_options, field_options. change (forallb _ _) with true. cbv iota. unfold given. cbn [alookup]. 
      change (String.eqb "ignore" "default") with false. change (String.eqb "ignore" "optional") with false. change (String.eqb "ignore" "nullable") with false.
      change (String.eqb "ignore" "ignore") with true. change (String.eqb "ignore" "translate") with false. change (String.eqb "ignore" "tags") with false. change (String.eqb "ignore" "attach_parent") with false.
      cbv iota. assert (NV : v <> VConst NOTSET) by (apply N; now left). destruct v; try reflexivity. destruct c; try reflexivity. contradiction. }
    cbn [map]. econstructor; [exact G|].
    replace (with_ignores (v :: vs) b) with (with_ignores vs (with_ignores [v] b)); [apply IH; intros; apply N; now right|].
    destruct b as [bs [nm sr nb df ig tr tg ap h1 h2 h3 h4 h5 h6] k]. unfold with_ignores, add_ignores, set_ignores. cbn [b_src b_opts b_kind o_name o_src o_nullable o_default o_ignores o_translations o_tags o_attach_parent o_compute o_resolve o_parse o_munge o_filter o_validate].
    now rewrite <- app_assoc.
Qed.
Lemma merge_app ts : forall l us, merge_tags l (ts ++ us) = merge_tags (merge_tags l ts) us.
Proof. induction ts as [|t ts IH]; intros l us; [reflexivity|]. cbn [app merge_tags]. destruct t; apply IH. Qed.
Lemma tag_step t b : t <> VConst NOTSET -> with_options [("tags", AV t)] b = with_tags [t] [] b.
Proof.
  intros N. destruct b as [bs [nm sr nb df ig tr tg ap h1 h2 h3 h4 h5 h6] k]. unfold with_options, field_options. change (forallb _ _) with true. cbv iota. unfold given. cbn [alookup].
  change (String.eqb "tags" "default") with false. change (String.eqb "tags" "optional") with false. change (String.eqb "tags" "nullable") with false.
  change (String.eqb "tags" "ignore") with false. change (String.eqb "tags" "translate") with false. change (String.eqb "tags" "tags") with true. change (String.eqb "tags" "attach_parent") with false.
  cbv iota. destruct t; try reflexivity. destruct c; reflexivity.
Qed.
Lemma C91_tag_lem ts : forall b b' ks, (forall v, In v ts -> v <> VConst NOTSET) ->
  with_tags ts ks b = Ok b' <-> calls options_step (map (fun v => [("tags", AV v)]) (ts ++ map VStr ks)) b b'.
Proof.
  intros b b' ks N. assert (N2 : forall v, In v (ts ++ map VStr ks) -> v <> VConst NOTSET).
  { intros v I. apply in_app_or in I. destruct I as [I|I]; [auto|]. apply in_map_iff in I. destruct I as (x & <- & _). discriminate. }
  unfold with_tags. revert N2. generalize (ts ++ map VStr ks) as us. clear ts ks N. intros us. revert b b'. induction us as [|t us IH]; intros b b' N.
  - cbn [map]. unfold add_tags. cbn [forallb merge_tags]. destruct b as [bs [nm sr nb df ig tr tg ap h1 h2 h3 h4 h5 h6] k]. cbn. split.
    + intros [= <-]. constructor.
    + intros H. now inversion H.
  - assert (IHt : forall c, with_options [("tags", AV t)] b = Ok c -> (bindr (add_tags us (b_opts c)) (fun o => Ok (BF (b_src c) o (b_kind c))) = Ok b' <-> calls options_step (map (fun v => [("tags", AV v)]) us) c b')).
    { intros c _. apply IH. intros v I. apply N. now right. }
    rewrite tag_step in IHt by (apply N; now left).
    assert (ST : options_step [("tags", AV t)] b = with_tags [t] [] b) by (unfold options_step; apply tag_step, N; now left).
    destruct b as [bs [nm sr nb df ig tr tg ap h1 h2 h3 h4 h5 h6] k]. unfold with_tags, add_tags in *. cbn [map app forallb b_opts b_src b_kind] in *. rewrite andb_true_r in *. destruct (hashable t) eqn:HT; cbn [andb bindr].
    + cbn [bindr] in IHt, ST. specialize (IHt _ eq_refl). cbn [b_opts b_src b_kind set_tags o_name o_src o_nullable o_default o_ignores o_translations o_tags o_attach_parent o_compute o_resolve o_parse o_munge o_filter o_validate] in *.
      change (merge_tags ?l (t :: us)) with (merge_tags l ([t] ++ us)) in *. rewrite (merge_app [t]). 
      transitivity (calls options_step (map (fun v => [("tags", AV v)]) us) (BF bs (set_tags (merge_tags tg [t]) (MkOpts nm sr nb df ig tr tg ap h1 h2 h3 h4 h5 h6)) k) b').
      * rewrite <- IHt. unfold set_tags. cbn [b_opts b_src b_kind o_name o_src o_nullable o_default o_ignores o_translations o_tags o_attach_parent o_compute o_resolve o_parse o_munge o_filter o_validate]. reflexivity.
      * split; [intros X; econstructor; [exact ST|exact X]|]. intros X. inversion X as [|c cs b0 b1 b2 S1 S2]; subst. rewrite ST in S1. injection S1 as <-. exact S2.
    + split; [discriminate|]. intros X. inversion X as [|c cs b0 b1 b2 S1 S2]; subst. rewrite ST in S1. discriminate.
Qed.
Lemma C91_elsewhere_lem m args kw b : make m args kw = Ok b -> (forall k, m = MkPlain k -> plain_kind k) ->
  (forall v, (forall c, m <> MkNum c) -> set_min v b = Exn (EAttr "min") /\ set_max v b = Exn (EAttr "max")) /\
  (forall v, (forall c, m <> MkClock c) -> set_after v b = Exn (EAttr "after") /\ set_before v b = Exn (EAttr "before") /\ set_format v b = Exn (EAttr "format")).
Proof.
  intros H P. unfold set_min, set_max, set_after, set_before, set_format. destruct m as [k| |c|c]; cbn [make] in H.
  - destruct (init_ok _ _ _ _ H) as [-> _]. specialize (P k eq_refl). destruct k; try contradiction; auto.
  - unfold String_init in H. repeat (apply bindr_ok in H; destruct H as ([? ?] & _ & H)). destruct (init_ok _ _ _ _ H) as [-> _]. auto.
  - unfold Number_init in H. apply bindr_ok in H. destruct H as ([? ?] & _ & H). destruct (init_ok _ _ _ _ H) as [-> _]. split; [intros v N; destruct (N c eq_refl)|]. destruct c; auto.
  - split; [|intros v N; destruct (N c eq_refl)].
    destruct c; cbn [clock_init] in H; [unfold Date_init in H|unfold Time_init in H|unfold Datetime_init in H];
      (apply bindr_ok in H; destruct H as ([? ?] & _ & H); apply bindr_ok in H; destruct H as ([? ?] & _ & H); apply bindr_ok in H; destruct H as (? & _ & H);
       destruct (init_ok _ _ _ _ H) as [-> _]; auto).
Qed.

(** ** What [translate] takes *)
Lemma C91_translate_any_lem v b : v <> VConst NOTSET -> with_options [("translate", AV v)] b = with_translations v b.
Proof.
  intros N. unfold with_options, field_options. change (forallb _ _) with true. cbv iota. unfold given. cbn [alookup].
  change (String.eqb "translate" "default") with false. change (String.eqb "translate" "optional") with false. change (String.eqb "translate" "nullable") with false.
  change (String.eqb "translate" "ignore") with false. change (String.eqb "translate" "translate") with true. change (String.eqb "translate" "tags") with false. change (String.eqb "translate" "attach_parent") with false.
  cbv iota. destruct b as [bs [nm sr nb df ig tr tg ap h1 h2 h3 h4 h5 h6] k].
  unfold with_translations. cbn [b_opts b_src b_kind].
  unfold opt_translate, add_translations.
  destruct v; try (destruct (table_arg _); reflexivity). destruct c; try reflexivity. contradiction.
Qed.
Lemma two_of_pair x a b : two_of x a b -> pair_of x = Ok (a, b).
Proof.
  intros [M U|u v -> U]; (assert (H : hashable a = true) by (destruct (hashable a) eqn:E; [reflexivity|]; destruct U; now apply hashable_no)).
  - inversion M as [l E1 E2|l E1 E2|s E1 E2]; subst; unfold pair_of; rewrite ?E2; now rewrite H.
  - cbn [pair_of map fst]. now rewrite H.
Qed.
Lemma pairs_all l d : Forall2 (fun x p => two_of x (fst p) (snd p)) l d -> pairs_of l = Ok d.
Proof.
  induction 1 as [|x [a b] l d T _ IH]; [reflexivity|]. cbn [pairs_of]. rewrite (two_of_pair _ _ _ T), IH. reflexivity.
Qed.
Lemma table_of_arg v d : table_of v d -> table_arg v = Ok d.
Proof. intros [d0|v0 l d0 M F]; [reflexivity|]. destruct M; cbn [table_arg]; now apply pairs_all. Qed.
Lemma C91_table_lem v d b : table_of v d -> with_translations v b = with_translations (VDict d) b.
Proof. intros T. unfold with_translations, add_translations. now rewrite (table_of_arg _ _ T). Qed.
Lemma pairs_stop l d x rest e : Forall2 (fun x p => two_of x (fst p) (snd p)) l d -> pair_of x = Exn e -> pairs_of (l ++ x :: rest) = Exn e.
Proof.
  intros F X. induction F as [|y [a b] l d T F IH]; cbn [app pairs_of]; [now rewrite X|]. rewrite (two_of_pair _ _ _ T). cbn [bindr]. now rewrite IH.
Qed.
Lemma C91_no_table_lem v b :
  (no_sequence v -> exists msg, with_translations v b = Exn (EType msg)) /\
  (forall l d x rest, members v (l ++ x :: rest) -> Forall2 (fun x p => two_of x (fst p) (snd p)) l d ->
     (no_sequence x -> exists msg, with_translations v b = Exn (EType msg)) /\
     (forall ms, members x ms -> length ms <> 2%nat -> exists msg, with_translations v b = Exn (EValue msg)) /\
     (forall a c, members x [a; c] -> unhashable a -> exists msg, with_translations v b = Exn (EType msg))).
Proof.
  split.
  - intros []; eexists; reflexivity.
  - intros l d x rest M F.
    assert (STOP : forall e, pair_of x = Exn e -> with_translations v b = Exn e).
    { intros e X. pose proof (pairs_stop _ _ _ rest _ F X) as P. unfold with_translations, add_translations.
      inversion M as [l0 E1 E2|l0 E1 E2|s E1 E2]; subst; cbn [table_arg]; rewrite ?E2, P; reflexivity. }
    split; [|split].
    + intros N. eexists. apply STOP. destruct N; reflexivity.
    + intros ms MS LN.
      assert (X : match ms with [_; _] => False | _ => True end) by (destruct ms as [|? [|? [|]]]; cbn in LN; try exact I; lia).
      eexists. apply STOP. destruct MS as [ms|ms|t]; cbn [pair_of];
        [| |set (ms := map _ _) in *]; destruct ms as [|? [|? [|]]]; try contradiction; reflexivity.
    + intros a c MS U. apply hashable_no in U.
      eexists. apply STOP. inversion MS as [l0 E1 E2|l0 E1 E2|s E1 E2]; subst; cbn [pair_of]; rewrite ?E2; now rewrite U.
Qed.
Lemma eq_text v k : py_eq v (VStr k) = true <-> v = VStr k.
Proof.
  split; [|intros ->; cbn; apply String.eqb_refl].
  destruct v; cbn; try discriminate; try (match goal with |- (match ?x with _ => _ end = _) -> _ => destruct x; discriminate end). intros E. apply String.eqb_eq in E. now subst.
Qed.
Lemma text_eq v k : py_eq (VStr k) v = true <-> v = VStr k.
Proof.
  split; [|intros ->; cbn; apply String.eqb_refl].
  destruct v; cbn; try discriminate; try (match goal with |- (match ?x with _ => _ end = _) -> _ => destruct x; discriminate end). intros E. apply String.eqb_eq in E. now subst.
Qed.
Lemma get_set_text l x v k : dict_get (dict_set l x v) (VStr k) = if py_eq x (VStr k) then Some v else dict_get l (VStr k).
Proof.
  induction l as [|[k' v'] l IH]; unfold dict_get in *; cbn [dict_set find fst].
  - destruct (py_eq x (VStr k)); reflexivity.
  - destruct (py_eq k' x) eqn:E.
    + cbn [find fst]. destruct (py_eq k' (VStr k)) eqn:K.
      * apply eq_text in K. subst k'. apply text_eq in E. subst x. destruct (py_eq (VStr k) (VStr k)) eqn:R; [reflexivity|]. cbn in R. now rewrite String.eqb_refl in R.
      * destruct (py_eq x (VStr k)) eqn:X; [|reflexivity]. apply eq_text in X. subst x. congruence.
    + cbn [find fst]. destruct (py_eq k' (VStr k)) eqn:K.
      * destruct (py_eq x (VStr k)) eqn:X; [|reflexivity]. apply eq_text in X. subst x. congruence.
      * exact IH.
Qed.
Lemma last_given_snoc d x y k v : last_given (d ++ [(x, y)]) k v <-> (x = VStr k /\ v = y) \/ (x <> VStr k /\ last_given d k v).
Proof.
  split.
  - intros (before & after & E & N). destruct after as [|p after _] using rev_ind.
    + apply app_inj_tail in E. destruct E as [_ [= -> ->]]. now left.
    + rewrite app_comm_cons, app_assoc in E. apply app_inj_tail in E. destruct E as [-> <-]. right. split.
      * intros ->. apply (N y). apply in_or_app. right. now left.
      * exists before, after. split; [reflexivity|]. intros w I. apply (N w). apply in_or_app. now left.
  - intros [[-> ->]|[NE (before & after & -> & N)]].
    + exists d, []. split; [reflexivity|]. intros w [].
    + exists before, (after ++ [(x, y)]). split; [now rewrite <- app_assoc|]. intros w I. apply in_app_or in I. destruct I as [I|[[= -> _]|[]]]; [exact (N w I)|congruence].
Qed.
Lemma update_texts d l k v : dict_get (dict_update l d) (VStr k) = Some v <->
  last_given d k v \/ (forall w, ~ last_given d k w) /\ dict_get l (VStr k) = Some v.
Proof.
  revert v. induction d as [|[x y] d IH] using rev_ind; intros v.
  - cbn. assert (Z : forall w, ~ last_given [] k w) by (intros w ([|] & after & E & _); discriminate E).
    split; [intros H; right; split; assumption|]. intros [H|[_ H]]; [destruct (Z _ H)|exact H].
  - unfold dict_update. rewrite fold_left_app. cbn [fold_left fst snd]. fold (dict_update l d). rewrite get_set_text.
    destruct (py_eq x (VStr k)) eqn:X.
    + apply eq_text in X. subst x. split.
      * intros [= <-]. left. apply last_given_snoc. now left.
      * intros [H|[H _]].
        -- apply last_given_snoc in H. destruct H as [[_ ->]|[NE _]]; [reflexivity|congruence].
        -- destruct (H y). apply last_given_snoc. now left.
    + assert (NX : x <> VStr k) by (intros ->; rewrite (proj2 (eq_text _ _) eq_refl) in X; discriminate).
      assert (LG : forall w, last_given (d ++ [(x, y)]) k w <-> last_given d k w).
      { intros w. rewrite last_given_snoc. split; [intros [[E _]|[_ H]]; [congruence|exact H]|intros H; right; auto]. }
      rewrite IH, LG. split; (intros [H|[H G]]; [now left|right; split; [|exact G]]); intros w I; [apply LG in I|apply (proj2 (LG w)) in I]; exact (H w I).
Qed.
Lemma C91_translations_lem d b : exists b', with_translations (VDict d) b = Ok b' /\ b_kind b' = b_kind b /\ b_src b' = b_src b /\
  (forall k v, dict_get (o_translations (b_opts b')) (VStr k) = Some v <->
     last_given d k v \/ (forall w, ~ last_given d k w) /\ dict_get (o_translations (b_opts b)) (VStr k) = Some v).
Proof.
  destruct b as [bs o kd]. eexists. split; [reflexivity|]. split; [reflexivity|]. split; [reflexivity|]. intros k v.
  cbn [b_opts]. destruct o. apply update_texts.
Qed.
