(** * Make73: lengths and bounds given to constructors (C73). *)
From Verif Require Import PyBase PyStr Source Field Context Fields Build SpecCtx SpecField FieldVios SpecBox SpecBuild Run FieldProofs FieldLemmas MakeProofs BoxProofs BoxLemmas.
From Coq Require Import Lia.
Open Scope Z_scope.

(** ** Popping keywords *)
Lemma pop_unsaid kw n : unsaid kw n -> pop_value n kw = Ok (VNone, kw_rest n kw).
Proof. unfold unsaid, pop_value, kw_pop. now intros ->. Qed.
Lemma pop_said kw n v : alookup kw n = Some (AV v) -> pop_value n kw = Ok (v, kw_rest n kw).
Proof. unfold pop_value, kw_pop. now intros ->. Qed.
(** the keywords but some *)
Definition left_of (kw : kwargs) (names : list string) : kwargs := fold_left (fun kw n => kw_rest n kw) names kw.
Lemma left_lookup names : forall kw n, ~ In n names -> alookup (left_of kw names) n = alookup kw n.
Proof.
  induction names as [|m names IH]; intros kw n NI; [reflexivity|]. cbn [left_of fold_left]. fold (left_of (kw_rest m kw) names).
  rewrite IH by (intros X; apply NI; now right). apply alookup_rest. intros ->. apply NI. now left.
Qed.
Lemma pop_end kw names n e : ~ In n names -> end_said (alookup kw n) e ->
  exists v, pop_value n (left_of kw names) = Ok (v, kw_rest n (left_of kw names)) /\ as_length v = Ok e.
Proof.
  intros NI H. rewrite <- (left_lookup names kw n NI) in H. inversion H as [X|X|z X].
  - exists VNone. split; [now apply pop_unsaid|reflexivity].
  - exists VNone. split; [now apply pop_said|reflexivity].
  - exists (VInt z). split; [now apply pop_said|reflexivity].
Qed.
Lemma end_length a e : end_said (Some (AV a)) e -> as_length a = Ok e.
Proof. intros H. now inversion H. Qed.
Lemma min_max_said kw lo hi : end_said (alookup kw "min_length") lo -> end_said (alookup kw "max_length") hi ->
  forall names, ~ In "min_length" names -> ~ In "max_length" names ->
  pop_min_max (left_of kw names) = Ok ((lo, hi), left_of kw (names ++ ["min_length"; "max_length"])).
Proof.
  intros Lo Hi names N1 N2. unfold pop_min_max. destruct (pop_end kw names "min_length" lo N1 Lo) as (v & -> & A). cbn [bindr].
  assert (N3 : ~ In "max_length" (names ++ ["min_length"])). { intros X. apply in_app_or in X. destruct X as [X|[X|[]]]; [now apply N2|discriminate]. }
  destruct (pop_end kw (names ++ ["min_length"]) "max_length" hi N3 Hi) as (w & P & B). unfold left_of in P. rewrite fold_left_app in P. cbn [fold_left] in P.
  unfold left_of. rewrite P. cbn [bindr]. unfold as_lengths. cbn [fst snd]. rewrite A. cbn [bindr]. rewrite B. cbn [bindr]. rewrite fold_left_app. reflexivity.
Qed.
Definition some_left (kw kw' : kwargs) (names : list string) : Prop := forall n, ~ In n names -> alookup kw' n = alookup kw n.
Lemma left_some kw names more : incl names more -> some_left kw (left_of kw names) more.
Proof. intros I n NI. apply left_lookup. auto. Qed.
Lemma string_lengths_said kw lo hi : lengths_said kw lo hi -> exists kw', string_lengths kw = Ok ((lo, hi), kw') /\ some_left kw kw' ["length"; "min_length"; "max_length"].
Proof.
  intros [(z & L & NZ & -> & ->)|[(a & b & l & L & D & A & B)|(U & A & B)]]; unfold string_lengths.
  - rewrite (pop_said _ _ _ L). cbn [bindr truthy is_sequence as_lengths fst snd as_length]. replace (z =? 0) with false by lia. cbn [negb bindr as_lengths fst snd as_length].
    exists (left_of kw ["length"]). split; [reflexivity|]. apply left_some. intros x [<-|[]]; now left.
  - rewrite (pop_said _ _ _ L). exists (left_of kw ["length"]). split; [|apply left_some; intros x [<-|[]]; now left].
    apply end_length in A, B. destruct D as [-> | ->]; cbn [bindr truthy is_sequence unpack2]; unfold as_lengths; cbn [fst snd negb length Nat.eqb bindr]; rewrite A; cbn [bindr]; rewrite B; reflexivity.
  - rewrite (pop_unsaid _ _ U). cbn [bindr truthy]. exists (left_of kw ["length"; "min_length"; "max_length"]).
    split; [|apply left_some; intros x X; exact X]. apply (min_max_said kw lo hi A B ["length"]); intros [X|[]]; discriminate.
Qed.
Lemma list_lengths_said kw lo hi : pair_said kw lo hi -> exists kw', list_lengths kw = Ok ((lo, hi), kw') /\ some_left kw kw' ["length"; "min_length"; "max_length"].
Proof.
  intros [(a & b & l & L & D & A & B)|(U & A & B)]; unfold list_lengths.
  - rewrite (pop_said _ _ _ L). exists (left_of kw ["length"]). split; [|apply left_some; intros x [<-|[]]; now left].
    apply end_length in A, B. destruct D as [-> | ->]; cbn [bindr truthy unpack2]; unfold as_lengths; cbn [fst snd negb length Nat.eqb bindr]; rewrite A; cbn [bindr]; rewrite B; reflexivity.
  - rewrite (pop_unsaid _ _ U). cbn [bindr truthy]. exists (left_of kw ["length"; "min_length"; "max_length"]).
    split; [|apply left_some; intros x X; exact X]. apply (min_max_said kw lo hi A B ["length"]); intros [X|[]]; discriminate.
Qed.
Lemma some_trans kw kw1 kw2 l1 l2 : some_left kw kw1 l1 -> some_left kw1 kw2 l2 -> some_left kw kw2 (l1 ++ l2).
Proof. intros A B n NI. rewrite B, A; [reflexivity|..]; intros X; apply NI, in_or_app; auto. Qed.
Lemma some_rest kw n : some_left kw (kw_rest n kw) [n].
Proof. intros m NI. apply alookup_rest. intros ->. apply NI. now left. Qed.
(** what is left for [Field.__init__] says the same about the field's options *)
Lemma rest_options kw kw' names args k b name : some_left kw kw' names -> ~ In "default" names -> ~ In "attach_parent" names ->
  static_default kw -> ~ says kw "attach_parent" -> field_init args kw' k = Ok b ->
  hook_free (attach_as name b) /\ f_kind (attach_as name b) = k.
Proof.
  intros SL ND NAP SD NA H. split.
  - refine (proj1 (init_hook_free _ _ _ _ name H _ _)).
    + intros p X. apply (SD p). rewrite <- (SL "default" ND). exact X.
    + intros (a & L & X). apply NA. exists a. rewrite <- (SL _ NAP). auto.
  - destruct (as_opts name b) as (_ & _ & _ & _ & _ & -> & _). apply (init_ok _ _ _ _ H).
Qed.
Lemma no_in n l : existsb (String.eqb n) l = false -> ~ In n l.
Proof. intros X Y. assert (existsb (String.eqb n) l = true); [|congruence]. apply existsb_exists. exists n. split; [exact Y|apply String.eqb_refl]. Qed.
Lemma String_said name args kw c b : String_init args kw = Ok b -> string_said kw c -> static_default kw -> ~ says kw "attach_parent" ->
  hook_free (attach_as name b) /\ f_kind (attach_as name b) = KString c.
Proof.
  intros H (L & P & A & C) SD NA. unfold String_init in H. destruct (string_lengths_said _ _ _ L) as (kw1 & X1 & S1). rewrite X1 in H. cbn [bindr] in H.
  rewrite <- (S1 "pattern") in P by (apply no_in; reflexivity). rewrite <- (S1 "alphabet") in A by (apply no_in; reflexivity). rewrite <- (S1 "choices") in C by (apply no_in; reflexivity).
  assert (X2 : string_pattern kw1 = Ok (sc_pattern c, kw_rest "pattern" kw1)).
  { unfold string_pattern, kw_pop. inversion P as [Y|s NE Y|s Y]; [reflexivity| |reflexivity].
    destruct (String.eqb s "") eqn:Q; [apply String.eqb_eq in Q; contradiction|reflexivity]. }
  rewrite X2 in H. cbn [bindr] in H.
  rewrite <- (alookup_rest "alphabet" "pattern") in A by discriminate. rewrite <- (alookup_rest "choices" "pattern") in C by discriminate.
  set (kw2 := kw_rest "pattern" kw1) in *.
  assert (X3 : string_alphabet kw2 = Ok (sc_alphabet c, kw_rest "alphabet" kw2)).
  { unfold string_alphabet. inversion A as [Y|s Y]; [rewrite pop_unsaid by (symmetry; exact Y)|erewrite pop_said by (symmetry; exact Y)]; reflexivity. }
  rewrite X3 in H. cbn [bindr] in H. rewrite <- (alookup_rest "choices" "alphabet") in C by discriminate. set (kw3 := kw_rest "alphabet" kw2) in *.
  assert (X4 : string_choices kw3 = Ok (sc_choices c, kw_rest "choices" kw3)).
  { unfold string_choices. inversion C as [Y|l Y Z]; [rewrite pop_unsaid by (symmetry; exact Y)|erewrite pop_said by (symmetry; exact Y); rewrite Z]; reflexivity. }
  rewrite X4 in H. cbn [bindr fst snd] in H. destruct c as [lo hi pt al ch]. cbn [sc_min sc_max sc_pattern sc_alphabet sc_choices] in *.
  eapply rest_options; [| | |exact SD|exact NA|exact H].
  - eapply some_trans; [exact S1|]. eapply some_trans; [apply some_rest|]. eapply some_trans; [apply some_rest|]. apply some_rest.
  - apply no_in. reflexivity.
  - apply no_in. reflexivity.
Qed.
Lemma C73_string_lem W n name args kw c b arg s eid m es pid p igd igm t v x :
  String_init args kw = Ok b -> string_said kw c -> static_default kw -> ~ says kw "attach_parent" ->
  let f := attach_as name b in
  mapping W s eid m es pid p igd igm -> obtains W s f p arg v -> ignored v = false -> lookable f v -> translated f v (VStr x) ->
  py_in (VStr x) (o_ignores (f_opts f)) = false -> p_str (w_env W) (spot f arg p) = Ok t ->
  (string_ok (w_env W) f c x -> yields W (S n) f arg s eid m es (VStr x) []) /\
  (~ string_ok (w_env W) f c x -> exists viol, first_violated (w_env W) f c x viol /\ yields W (S n) f arg s eid m es ERRORv [invalid_at f pid viol t]).
Proof.
  intros H SS SD NA f MP O G L T I PS. destruct (String_said name _ _ _ _ H SS SD NA) as [HF K]. fold f in HF, K. split; intros OK.
  - eapply C25_ok_lem; eassumption.
  - eapply C25_bad_lem; eassumption.
Qed.
Lemma bound_as a e : bound_said (Some (AV a)) e -> as_bound a = e.
Proof. intros H. inversion H as [X|X|w NE X]; [reflexivity|]. destruct a; try reflexivity. contradiction. Qed.
Lemma pop_bound kw n e : bound_said (alookup kw n) e -> exists v, pop_value n kw = Ok (v, kw_rest n kw) /\ as_bound v = e.
Proof.
  intros H. inversion H as [X|X|w NE X].
  - exists VNone. split; [now apply pop_unsaid|reflexivity].
  - exists VNone. split; [now apply pop_said|reflexivity].
  - exists w. split; [now apply pop_said|]. destruct w; try reflexivity. contradiction.
Qed.
Lemma number_bounds_said kw lo hi : range_said kw lo hi -> exists kw', number_bounds kw = Ok ((lo, hi), kw') /\ some_left kw kw' ["range"; "min_value"; "max_value"].
Proof.
  intros [(a & b & l & L & D & A & B)|(U & A & B)]; unfold number_bounds.
  - rewrite (pop_said _ _ _ L). apply bound_as in A, B. exists (kw_rest "range" kw). split.
    + destruct D as [-> | ->]; cbn [bindr is_None unpack2 fst snd]; rewrite A, B; reflexivity.
    + intros n NI. apply alookup_rest. intros ->. apply NI. now left.
  - rewrite (pop_unsaid _ _ U). cbn [bindr is_None]. rewrite <- (alookup_rest "min_value" "range") in A by discriminate.
    rewrite <- (alookup_rest "max_value" "range"), <- (alookup_rest "max_value" "min_value") in B by discriminate.
    destruct (pop_bound _ _ _ A) as (v & -> & <-). cbn [bindr]. destruct (pop_bound _ _ _ B) as (w & -> & <-). cbn [bindr]. eexists. split; [reflexivity|].
    change ["range"; "min_value"; "max_value"] with (["range"] ++ ["min_value"] ++ ["max_value"]).
    eapply some_trans; [apply some_rest|]. eapply some_trans; apply some_rest.
Qed.
Lemma Number_said name cl args kw lo hi b : Number_init cl args kw = Ok b -> range_said kw lo hi -> static_default kw -> ~ says kw "attach_parent" ->
  hook_free (attach_as name b) /\ f_kind (attach_as name b) = number_kind cl lo hi /\ bounds (f_kind (attach_as name b)) = Some (lo, hi).
Proof.
  intros H R SD NA. unfold Number_init in H. destruct (number_bounds_said _ _ _ R) as (kw' & X & SL). rewrite X in H. cbn [bindr fst snd] in H.
  assert (N1 : ~ In "default" ["range"; "min_value"; "max_value"]) by (apply no_in; reflexivity).
  assert (N2 : ~ In "attach_parent" ["range"; "min_value"; "max_value"]) by (apply no_in; reflexivity).
  destruct (rest_options _ _ _ _ _ _ name SL N1 N2 SD NA H) as [HF ->].
  split; [exact HF|]. split; [reflexivity|]. destruct cl; reflexivity.
Qed.
Lemma C73_number_lem W n cl name args kw lo hi b arg s eid m es pid p igd igm t v w q :
  Number_init cl args kw = Ok b -> range_said kw lo hi -> static_default kw -> ~ says kw "attach_parent" ->
  let f := attach_as name b in
  mapping W s eid m es pid p igd igm -> obtains W s f p arg v -> ignored v = false -> lookable f v -> translated f v w -> number w q ->
  py_in w (o_ignores (f_opts f)) = false -> p_str (w_env W) (spot f arg p) = Ok t ->
  ((forall z, lo = Some z -> exists r, number z r /\ (r <= q)%Q) -> (forall z, hi = Some z -> exists r, number z r /\ (q <= r)%Q) ->
   yields W (S n) f arg s eid m es w []) /\
  (forall z r, lo = Some z -> number z r -> (q < r)%Q -> yields W (S n) f arg s eid m es ERRORv [invalid_at f pid (VioMin w z) t]) /\
  (forall z r, hi = Some z -> number z r -> (r < q)%Q -> (forall c, lo = Some c -> exists x, number c x /\ (x <= q)%Q) ->
   yields W (S n) f arg s eid m es ERRORv [invalid_at f pid (VioMax w z) t]).
Proof.
  intros H R SD NA f MP O G L T N I PS. destruct (Number_said name _ _ _ _ _ _ H R SD NA) as (HF & _ & B). fold f in HF, B. repeat split.
  - intros Lo Hi. eapply C24_within_lem; eassumption.
  - intros z r -> Nz Lt. eapply C24_below_lem; eassumption.
  - intros z r -> Nz Lt Lo. eapply C24_above_lem; eassumption.
Qed.
(** ** Methods *)
Lemma set_range_kind l r b b' : set_range l r b = Ok b' -> forall lo hi, bounds (b_kind b) = Some (lo, hi) ->
  bounds (b_kind b') = Some (as_bound l, as_bound r) /\ b_opts b' = b_opts b /\ b_src b' = b_src b.
Proof.
  unfold set_range. intros H lo hi K. apply bindr_ok in H. destruct H as (b1 & H1 & H2). unfold set_min in H1. destruct b as [bs o k]. cbn [b_kind b_opts b_src] in *.
  destruct k; try discriminate; injection H1 as <-; injection H2 as <-; repeat split.
Qed.

(** ** Lists *)
Lemma pluck_first {A} (f : A -> bool) pre a post : (forall x, In x pre -> f x = false) -> f a = true -> pluck f (pre ++ a :: post) = (pre ++ post, Some a).
Proof.
  intros N Y. induction pre as [|x pre IH]; cbn [app pluck]; [now rewrite Y|]. rewrite (N x (or_introl eq_refl)), IH; [reflexivity|]. intros z Z. apply N. now right.
Qed.
Lemma free_steps f : hook_free f -> plain_steps f.
Proof. intros [[]]. split; assumption. Qed.
Lemma List_said name pre item post kw g lo hi b : List_init (pre ++ item :: post) kw = Ok b -> (forall x, In x pre -> is_item x = false) ->
  is_item item = true -> item_field item = Ok g -> pair_said kw lo hi -> static_default kw -> ~ says kw "attach_parent" ->
  plain_steps (attach_as name b) /\
  f_kind (attach_as name b) = KList (attach_inside g) lo hi (match alookup kw "allow_field" with Some a => arg_truthy a | None => false end).
Proof.
  intros H NP YI IT PS SD NA. unfold List_init in H. rewrite (pluck_first _ _ _ _ NP YI), IT in H. cbn [bindr] in H.
  destruct (list_lengths_said _ _ _ PS) as (kw1 & X & SL). rewrite X in H. unfold kw_pop in H. cbn [bindr fst snd] in H.
  rewrite (SL "allow_field") in H by (apply no_in; reflexivity).
  assert (N1 : ~ In "default" (["length"; "min_length"; "max_length"] ++ ["allow_field"])) by (apply no_in; reflexivity).
  assert (N2 : ~ In "attach_parent" (["length"; "min_length"; "max_length"] ++ ["allow_field"])) by (apply no_in; reflexivity).
  destruct (rest_options _ _ _ _ _ _ name (some_trans _ _ _ _ _ SL (some_rest kw1 "allow_field")) N1 N2 SD NA H) as [HF ->].
  split; [now apply free_steps|]. f_equal. now destruct (alookup kw "allow_field").
Qed.

Lemma C73_list_lem W n name pre item post kw g lo hi b s eid m es pid p igd igm len q vs s1 t :
  List_init (pre ++ item :: post) kw = Ok b -> (forall x, In x pre -> ~ exists g, item_said x g) -> item_said item g ->
  pair_said kw lo hi -> static_default kw -> ~ says kw "attach_parent" ->
  let f := attach_as name b in
  mapping W s eid m es pid p igd igm -> p_str (w_env W) (place f p) = Ok t -> sequence_at W s f p len q ->
  items W n (indexed len g) (within f s pid q) vs s1 -> SpecField.untouched f (VList (survivors vs)) ->
  (long_enough lo (length (survivors vs)) -> short_enough hi (length (survivors vs)) -> ends W (S n) f s s1 (VList (survivors vs))) /\
  (forall k, lo = Some k -> Z.of_nat (length (survivors vs)) < k -> rejects W (S n) f s s1 eid (invalid_at f pid (VioMinItems k) t)) /\
  (forall k, hi = Some k -> k < Z.of_nat (length (survivors vs)) -> long_enough lo (length (survivors vs)) ->
   rejects W (S n) f s s1 eid (invalid_at f pid (VioMaxItems k) t)).
Proof.
  intros H NP IS PS SD NA f MP T SQ IT U.
  assert (X : forall x, is_item x = true <-> exists g, item_said x g).
  { intros x. split; [destruct x; try discriminate; intros _; eexists; constructor|intros (y & []); reflexivity]. }
  assert (G : exists b0, item_field item = Ok b0 /\ attach_inside b0 = g).
  { destruct IS as [h|ty]; [exists h; split; reflexivity|]. exists (BF false no_opts (KSubForm ty false UIgnore)). split; reflexivity. }
  destruct G as (b0 & IF & AI).
  assert (NP' : forall x, In x pre -> is_item x = false).
  { intros x I. destruct (is_item x) eqn:Q; [|reflexivity]. exfalso. apply (NP x I), X, Q. }
  assert (YI : is_item item = true) by (apply X; eauto).
  destruct (List_said name _ _ _ _ _ _ _ _ H NP' YI IF PS SD NA) as [PL K].
  fold f in PL, K. rewrite AI in K. repeat split.
  - intros A B. eapply C31_list; eassumption.
  - intros k A B. eapply C32_min; eassumption.
  - intros k A B C. eapply C32_max; eassumption.
Qed.
Lemma C73_length_lem W n name args kw z b arg s eid m es pid p igd igm t v x :
  String_init args kw = Ok b -> alookup kw "length" = Some (AV (VInt z)) -> z <> 0 ->
  unsaid kw "pattern" -> unsaid kw "alphabet" -> unsaid kw "choices" -> static_default kw -> ~ says kw "attach_parent" ->
  let f := attach_as name b in
  mapping W s eid m es pid p igd igm -> obtains W s f p arg v -> ignored v = false -> lookable f v -> translated f v (VStr x) ->
  py_in (VStr x) (o_ignores (f_opts f)) = false -> p_str (w_env W) (spot f arg p) = Ok t ->
  (Z.of_nat (String.length x) = z -> yields W (S n) f arg s eid m es (VStr x) []) /\
  (Z.of_nat (String.length x) < z -> yields W (S n) f arg s eid m es ERRORv [invalid_at f pid (VioMinLen (VStr x) z) t]) /\
  (z < Z.of_nat (String.length x) -> yields W (S n) f arg s eid m es ERRORv [invalid_at f pid (VioMaxLen (VStr x) z) t]).
Proof.
  intros H L NZ U1 U2 U3 SD NA f MP O G LK T I PS.
  set (c := MkStrc (Some z) (Some z) None [] []).
  assert (SS : string_said kw c).
  { split; [left; exists z; repeat split; assumption|]. unfold unsaid in *. rewrite U1, U2, U3. repeat split; constructor. }
  destruct (C73_string_lem W n name args kw c b arg s eid m es pid p igd igm t v x H SS SD NA MP O G LK T I PS) as [A B]. fold f in A, B.
  assert (AO : alphabet_ok c x) by (left; reflexivity).
  repeat split.
  - intros Q. apply A. split; [exact AO|]. split; [intros k [= <-]; lia|]. split; [intros k [= <-]; lia|]. split; [intros k; discriminate|left; reflexivity].
  - intros Q. assert (NM : ~ min_ok c x) by (intros M; specialize (M z eq_refl); lia).
    destruct B as (vi & FV & Y); [intros (_ & M & _); contradiction|].
    destruct (first_violated_unique _ _ _ _ _ _ FV (fv_min _ _ _ _ z AO eq_refl NM)) as [->|(a1 & b1 & _ & X & _)]; [exact Y|discriminate].
  - intros Q. assert (NM : ~ max_ok c x) by (intros M; specialize (M z eq_refl); lia).
    assert (MO : min_ok c x) by (intros k [= <-]; lia).
    destruct B as (vi & FV & Y); [intros (_ & _ & M & _); contradiction|].
    destruct (first_violated_unique _ _ _ _ _ _ FV (fv_max _ _ _ _ z AO MO eq_refl NM)) as [->|(a1 & b1 & _ & X & _)]; [exact Y|discriminate].
Qed.
