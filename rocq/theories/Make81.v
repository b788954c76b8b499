(** * Make81: where constructed fields read (C81). *)
From Verif Require Import PyBase PyStr Source Field Context Fields Build SpecCtx SpecField FieldVios SpecBox SpecBuild Run FieldProofs FieldLemmas MakeProofs BoxProofs BoxLemmas Make73.
From Coq Require Import Lia.
Open Scope Z_scope.

Definition not_group (k : kind) : Prop := match k with KGroup _ => False | _ => True end.
Lemma options_src kw o o' : field_options kw o = Ok o' -> o_src o' = o_src o.
Proof. intros H. apply options_iff in H. destruct H as [_ ->]. reflexivity. Qed.
Lemma src_value_is v k : src_value v k -> src_key v = k /\ is_NONE v = false.
Proof. now intros [x|z|]. Qed.
Lemma init_place args kw k b name key p : not_group k -> field_init args kw k = Ok b -> src_said args kw name key ->
  place (attach_as name b) p = match key with Some k => p_append k p | None => p end.
Proof.
  intros NG H SS. unfold field_init in H.
  assert (Y : exists o, b = BF (match args, alookup kw "src" with [], None => false | _, _ => true end) o k /\
    (match args, alookup kw "src" with [], None => Some (KStr name) | _, _ => o_src o end) = key).
  { destruct SS as [-> U|v k' -> U SV|v k' -> U SV].
    - rewrite U in *. apply bindr_ok in H. destruct H as (o & H & [= <-]). exists o. auto.
    - rewrite U in *. apply bindr_ok in H. destruct H as (o & H & [= <-]). apply src_value_is in SV. destruct SV as [SV ->].
      exists o. split; [reflexivity|]. apply options_src in H. rewrite H. exact SV.
    - rewrite U in *. apply bindr_ok in H. destruct H as (o & H & [= <-]). apply src_value_is in SV. destruct SV as [SV ->].
      exists o. split; [reflexivity|]. apply options_src in H. rewrite H. exact SV. }
  destruct Y as (o & -> & <-). unfold place, own_key, attach_as. cbn [f_kind b_kind b_src b_opts f_opts].
  destruct args as [|a args], (alookup kw "src"); destruct k; try contradiction; reflexivity.
Qed.
Lemma src_some args kw kw' names name key : some_left kw kw' names -> ~ In "src" names -> src_said args kw name key -> src_said args kw' name key.
Proof.
  intros SL NI H. specialize (SL "src" NI). unfold unsaid in *. destruct H as [A U|v k A U SV|v k A U SV].
  - apply ss_name; [exact A|]. unfold unsaid in *. congruence.
  - eapply ss_arg; [exact A| |exact SV]. unfold unsaid in *. congruence.
  - eapply ss_kw; [exact A| |exact SV]. congruence.
Qed.
Lemma pop_left n kw v kw' : pop_value n kw = Ok (v, kw') -> some_left kw kw' [n].
Proof. unfold pop_value, kw_pop. intros H. apply bindr_ok in H. destruct H as (w & _ & [= _ <-]). apply some_rest. Qed.
Lemma min_max_left kw b kw' : pop_min_max kw = Ok (b, kw') -> some_left kw kw' ["min_length"; "max_length"].
Proof.
  unfold pop_min_max. intros H. apply bindr_ok in H. destruct H as ([lo kw1] & P1 & H). apply bindr_ok in H. destruct H as ([hi kw2] & P2 & H).
  apply bindr_ok in H. destruct H as (x & _ & [= _ <-]). apply pop_left in P1, P2. exact (some_trans _ _ _ _ _ P1 P2).
Qed.
Lemma some_more kw kw' l l' : some_left kw kw' l -> incl l l' -> some_left kw kw' l'.
Proof. intros H I n NI. apply H. auto. Qed.
Lemma string_lengths_left kw b kw' : string_lengths kw = Ok (b, kw') -> some_left kw kw' ["length"; "min_length"; "max_length"].
Proof.
  unfold string_lengths. intros H. apply bindr_ok in H. destruct H as ([len kw1] & P1 & H). apply pop_left in P1.
  destruct (truthy len).
  - apply bindr_ok in H. destruct H as (x & _ & H). apply bindr_ok in H. destruct H as (y & _ & [= _ <-]).
    apply (some_more _ _ _ _ P1). intros x0 [<-|[]]. now left.
  - apply min_max_left in H. exact (some_trans _ _ _ _ _ P1 H).
Qed.
Lemma list_lengths_left kw b kw' : list_lengths kw = Ok (b, kw') -> some_left kw kw' ["length"; "min_length"; "max_length"].
Proof.
  unfold list_lengths. intros H. apply bindr_ok in H. destruct H as ([len kw1] & P1 & H). apply pop_left in P1.
  destruct (truthy len).
  - apply bindr_ok in H. destruct H as (x & _ & H). apply bindr_ok in H. destruct H as (y & _ & [= _ <-]).
    apply (some_more _ _ _ _ P1). intros x0 [<-|[]]. now left.
  - apply min_max_left in H. exact (some_trans _ _ _ _ _ P1 H).
Qed.
Lemma pattern_left kw x kw' : string_pattern kw = Ok (x, kw') -> some_left kw kw' ["pattern"].
Proof.
  unfold string_pattern, kw_pop. intros H.
  destruct (match alookup kw "pattern" with Some a => a | None => AV VNone end) as [v|?|?|?|?|?|?]; try discriminate; [|injection H as _ <-; apply some_rest].
  destruct v; try (destruct (truthy _); [discriminate|]; injection H as _ <-; apply some_rest). injection H as _ <-. apply some_rest.
Qed.
Lemma alphabet_left kw x kw' : string_alphabet kw = Ok (x, kw') -> some_left kw kw' ["alphabet"].
Proof.
  unfold string_alphabet. intros H. apply bindr_ok in H. destruct H as ([v kw1] & P & H). apply pop_left in P. destruct v; try discriminate; injection H as _ <-; exact P.
Qed.
Lemma choices_left kw x kw' : string_choices kw = Ok (x, kw') -> some_left kw kw' ["choices"].
Proof.
  unfold string_choices. intros H. apply bindr_ok in H. destruct H as ([v kw1] & P & H). apply pop_left in P. destruct v; try discriminate; injection H as _ <-; exact P.
Qed.
Lemma bounds_left kw x kw' : number_bounds kw = Ok (x, kw') -> some_left kw kw' ["range"; "min_value"; "max_value"].
Proof.
  unfold number_bounds. intros H. apply bindr_ok in H. destruct H as ([r kw1] & P & H). apply pop_left in P. destruct (is_None r).
  - apply bindr_ok in H. destruct H as ([lo kw2] & P2 & H). apply bindr_ok in H. destruct H as ([hi kw3] & P3 & [= _ <-]). apply pop_left in P2, P3.
    exact (some_trans _ _ _ _ _ P (some_trans _ _ _ _ _ P2 P3)).
  - apply bindr_ok in H. destruct H as (y & _ & [= _ <-]). apply (some_more _ _ _ _ P). intros x0 [<-|[]]. now left.
Qed.
Lemma between_left kw x kw' : pop_between kw = Ok (x, kw') -> some_left kw kw' ["after"; "before"].
Proof.
  unfold pop_between. intros H. apply bindr_ok in H. destruct H as ([lo kw1] & P1 & H). apply bindr_ok in H. destruct H as ([hi kw2] & P2 & [= _ <-]).
  apply pop_left in P1, P2. exact (some_trans _ _ _ _ _ P1 P2).
Qed.
(** The constructors hand their positional arguments and [src] to [Field.__init__]. *)
Lemma pluck_at {A} (f : A -> bool) pre x post : (forall y, In y pre -> f y = false) -> f x = true -> pluck f (pre ++ x :: post) = (pre ++ post, Some x).
Proof.
  induction pre as [|a pre IH]; intros N X; cbn [app pluck]; [now rewrite X|]. rewrite (N a) by now left.
  rewrite IH; [reflexivity| |exact X]. intros y Y. apply N. now right.
Qed.
Lemma pluck_none {A} (f : A -> bool) l : (forall y, In y l -> f y = false) -> pluck f l = (l, None).
Proof.
  induction l as [|a l IH]; intros N; cbn [pluck]; [reflexivity|]. rewrite (N a) by now left. rewrite IH; [reflexivity|]. intros y Y. apply N. now right.
Qed.
Lemma no_item l : (forall g, ~ In (AF g) l) -> (forall t, ~ In (ACls t) l) -> forall y, In y l -> is_item y = false.
Proof. intros A B y Y. destruct y as [?|?|?|f|t|?|?]; try reflexivity; exfalso; [exact (A f Y)|exact (B t Y)]. Qed.
Lemma list_rest al args kw b f lo hi name key p : some_left kw al ["length"; "min_length"; "max_length"] -> 
  (let '(a, kw) := kw_pop "allow_field" al in field_init args kw (KList (attach_inside f) lo hi (arg_truthy a))) = Ok b ->
  src_said args kw name key -> place (attach_as name b) p = match key with Some k => p_append k p | None => p end.
Proof.
  intros SL H SS. unfold kw_pop in H. eapply init_place; [|exact H|]; [exact I|]. eapply src_some; [exact (some_trans _ _ _ _ _ SL (some_rest _ _))|apply no_in; reflexivity|exact SS].
Qed.
Lemma C81_lem args kw b name key p : constructed args kw b -> src_said args kw name key ->
  place (attach_as name b) p = match key with Some k => p_append k p | None => p end.
Proof.
  intros C SS. destruct C as [k PK H|H|c H|H|H|H|kf vf H|pre x post f IS N1 N2 EA H|f N1 N2 KF H|fields fs AS LA FS NS H|pre t post N EA NF H|probe tf table H].
  - eapply init_place; [|exact H|exact SS]. destruct k; try contradiction; exact I.
  - unfold String_init in H. apply bindr_ok in H. destruct H as ([b1 kw1] & P1 & H). apply bindr_ok in H. destruct H as ([b2 kw2] & P2 & H).
    apply bindr_ok in H. destruct H as ([b3 kw3] & P3 & H). apply bindr_ok in H. destruct H as ([b4 kw4] & P4 & H).
    apply string_lengths_left in P1. apply pattern_left in P2. apply alphabet_left in P3. apply choices_left in P4.
    eapply init_place; [|exact H|]; [exact I|]. eapply src_some; [exact (some_trans _ _ _ _ _ P1 (some_trans _ _ _ _ _ P2 (some_trans _ _ _ _ _ P3 P4)))|apply no_in; reflexivity|exact SS].
  - unfold Number_init in H. apply bindr_ok in H. destruct H as ([b1 kw1] & P1 & H). apply bounds_left in P1.
    eapply init_place; [|exact H|]; [destruct c; exact I|]. eapply src_some; [exact P1|apply no_in; reflexivity|exact SS].
  - unfold Date_init in H. apply bindr_ok in H. destruct H as ([b1 kw1] & P1 & H). apply bindr_ok in H. destruct H as ([b2 kw2] & P2 & H).
    apply bindr_ok in H. destruct H as (l & _ & H). apply between_left in P1. apply pop_left in P2.
    eapply init_place; [|exact H|]; [exact I|]. eapply src_some; [exact (some_trans _ _ _ _ _ P1 P2)|apply no_in; reflexivity|exact SS].
  - unfold Time_init in H. apply bindr_ok in H. destruct H as ([b1 kw1] & P1 & H). apply bindr_ok in H. destruct H as ([b2 kw2] & P2 & H).
    apply bindr_ok in H. destruct H as (l & _ & H). apply between_left in P1. apply pop_left in P2.
    eapply init_place; [|exact H|]; [exact I|]. eapply src_some; [exact (some_trans _ _ _ _ _ P1 P2)|apply no_in; reflexivity|exact SS].
  - unfold Datetime_init in H. apply bindr_ok in H. destruct H as ([b1 kw1] & P1 & H). apply bindr_ok in H. destruct H as ([b2 kw2] & P2 & H).
    apply bindr_ok in H. destruct H as (l & _ & H). apply between_left in P1. apply pop_left in P2.
    eapply init_place; [|exact H|]; [exact I|]. eapply src_some; [exact (some_trans _ _ _ _ _ P1 P2)|apply no_in; reflexivity|exact SS].
  - unfold Dict_init in H. apply bindr_ok in H. destruct H as ([b1 kw1] & P1 & H). apply bindr_ok in H. destruct H as ([b2 kw2] & P2 & H).
    apply bindr_ok in H. destruct H as (l & _ & H). apply bindr_ok in H. destruct H as (l2 & _ & H). apply pop_left in P1, P2.
    eapply init_place; [|exact H|]; [exact I|]. eapply src_some; [exact (some_trans _ _ _ _ _ P1 P2)|apply no_in; reflexivity|exact SS].
  - unfold List_init in H. rewrite pluck_at in H; [|now apply no_item|now destruct IS]. rewrite <- EA in H.
    apply bindr_ok in H. destruct H as ([g kw1] & P1 & H). apply bindr_ok in P1. destruct P1 as (g' & _ & [= -> <-]).
    apply bindr_ok in H. destruct H as ([b2 kw2] & P2 & H). apply list_lengths_left in P2. eapply list_rest; eassumption.
  - unfold List_init in H. rewrite pluck_none in H by now apply no_item. rewrite KF in H. cbn [bindr] in H.
    apply bindr_ok in H. destruct H as ([b2 kw2] & P2 & H). apply list_lengths_left in P2. eapply list_rest; [exact P2|exact H|].
    eapply src_some; [apply some_rest|apply no_in; reflexivity|exact SS].
  - assert (X : exists l, bindr (tuple_fields l) (fun fs => field_init args (kw_rest "allow_field" kw) (KTuple fs)) = Ok b).
    { unfold Tuple_init in H. destruct args as [|a [|a2 args]]; cbn [app length] in *; [| |lia].
      - destruct fields as [|a rest]; [discriminate|].
        assert (Z : match a with AV (VStr _) => ([a], rest) | _ => ([], a :: rest) end = ([], a :: rest)).
        { destruct a as [v|?|?|?|?|?|?]; try reflexivity. destruct v; try reflexivity. exfalso. eapply NS. reflexivity. }
        rewrite Z in H. apply bindr_ok in H. destruct H as (l & _ & H). exists l. exact H.
      - destruct (AS a (or_introl eq_refl)) as [x ->]. apply bindr_ok in H. destruct H as (l & _ & H). exists l. exact H. }
    destruct X as (l & X). apply bindr_ok in X. destruct X as (gs & _ & X). eapply init_place; [|exact X|]; [exact I|].
    eapply src_some; [apply some_rest|apply no_in; reflexivity|exact SS].
  - unfold SubForm_init in H. rewrite pluck_at in H; [| |reflexivity].
    2:{ intros y Y. destruct y as [?|?|?|?|u|?|?]; try reflexivity. exfalso. exact (N u Y). }
    rewrite <- EA in H. apply bindr_ok in H. destruct H as (b0 & H0 & H).
    assert (P0 : place (attach_as name b0) p = match key with Some k => p_append k p | None => p end).
    { eapply init_place; [|exact H0|]; [exact I|]. destruct SS as [A U|v k A U SV|v k A U SV].
      - apply ss_name; [exact A|]. unfold unsaid in *. now rewrite U.
      - eapply ss_arg; [exact A| |exact SV]. unfold unsaid in *. now rewrite U.
      - eapply ss_kw; [exact A| |exact SV]. rewrite U. reflexivity. }
    rewrite <- P0. unfold subform_options in H. destruct b0 as [s0 o0 k0]. cbn [b_kind b_opts b_src] in H.
    destruct k0; try discriminate. apply bindr_ok in H. destruct H as (u0 & _ & H). apply bindr_ok in H. destruct H as (o & FO & [= <-]).
    assert (F : match given "flat" (kw_rest "src" kw) with Some a => arg_truthy a | None => false end = false).
    { rewrite given_rest by discriminate. unfold given. destruct (alookup kw "flat") as [a|] eqn:L; [|reflexivity].
      assert (X : a <> AV (VConst NOTSET) -> arg_truthy a = false).
      { intros NN. destruct (arg_truthy a) eqn:T; [|reflexivity]. exfalso. apply NF. now apply says_given with a. }
      destruct a as [v|?|?|?|?|?|?]; try (apply X; discriminate). destruct v; try (apply X; discriminate).
      match goal with c : const |- _ => destruct c end; try (apply X; discriminate). reflexivity. }
    rewrite F in *. apply options_src in FO. unfold place, own_key, attach_as. cbn [f_kind b_kind b_src b_opts f_opts orb].
    destruct s0; cbn [f_opts o_src set_name set_src]; [now rewrite FO|reflexivity].
  - unfold Poly_init in H. apply bindr_ok in H. destruct H as (u & _ & H). eapply init_place; [|exact H|]; [exact I|].
    eapply src_some; [exact (some_trans _ _ _ _ _ (some_rest kw "reset") (some_rest _ "unmapped"))|apply no_in; reflexivity|exact SS].
Qed.
Lemma C81_flat_lem args kw b name p : SubForm_init args kw = Ok b -> says kw "flat" -> place (attach_as name b) p = p.
Proof.
  intros H SY. destruct (says_is _ _ SY) as (a & L & NN & T). unfold SubForm_init in H. destruct (pluck is_form_class args) as [rest [[?|?|?|?|t|?|?]|]]; try discriminate.
  apply bindr_ok in H. destruct H as (b0 & H0 & H). unfold subform_options in H. destruct b0 as [s0 o0 k0]. cbn [b_kind b_opts b_src] in H.
  destruct k0; try discriminate. apply bindr_ok in H. destruct H as (u0 & _ & H). apply bindr_ok in H. destruct H as (o & FO & [= <-]).
  assert (F : match given "flat" (kw_rest "src" kw) with Some a => arg_truthy a | None => false end = true).
  { rewrite given_rest by discriminate. unfold given. rewrite L. destruct a as [v|?|?|?|?|?|?]; try exact T. destruct v; try exact T.
    match goal with c : const |- _ => destruct c end; try exact T. contradiction. }
  rewrite F in *. apply options_src in FO. unfold place, own_key, attach_as. cbn [f_kind b_kind b_src b_opts f_opts orb o_src set_name set_src] in *. now rewrite FO.
Qed.

(** ** Sub-forms *)
Lemma unmapped_is a u : unmapped_said a u -> (match a with Some a => as_unmapped a | None => Ok UIgnore end) = Ok u /\ a <> Some (AV (VConst NOTSET)).
Proof.
  intros [| | | | | | |s N]; split; try (reflexivity || discriminate). cbn [as_unmapped].
  assert (Q : forall x, In x ["ignore"; "capture"; ""]%string -> String.eqb s x = false) by (intros x I; apply String.eqb_neq; intros ->; exact (N I)).
  rewrite (Q "ignore"), (Q "capture"), (Q "") by (cbn; tauto). reflexivity.
Qed.
Lemma reset_new W rec id u m s t : nth_error (forms s) id = Some (t, []) -> form_map W rec id ANone [] true u m s = form_map W rec id ANone [] false u m s.
Proof.
  intros N. assert (R : forall tags fs, form_reset id tags fs s = (Ok tt, s)).
  { intros tags. induction fs as [|f fs IH]; [reflexivity|]. cbn [form_reset]. unfold bind. destruct (selected tags f); [|exact IH].
    unfold field_delete, bind, form_entries, get, entries. rewrite N. cbn [ret snd dict_has dict_get existsb]. exact IH. }
  unfold form_map, bind. assert (ET : exists tags, effective_tags [] s = (Ok tags, s)).
  { unfold effective_tags, ctx_get_opt, bind, get. destruct (lookup "tags" (stk s)) as [[]|]; eexists; reflexivity. }
  destruct ET as (tags & ->). unfold form_type, get at 1. rewrite R. reflexivity.
Qed.
Lemma parse_new W rec t rs u s : parse_form W rec t rs u s = maps_new_form W rec t u s.
Proof.
  unfold parse_form, maps_new_form, bind, new_form. cbn [snd].
  assert (X : form_map W rec (length (forms s)) ANone [] rs u Collect (St (stk s) (forms s ++ [(t, [])]) (paths s) (errs s)) =
    form_map W rec (length (forms s)) ANone [] false u Collect (St (stk s) (forms s ++ [(t, [])]) (paths s) (errs s))).
  { destruct rs; [|reflexivity]. apply reset_new with t. cbn [forms]. rewrite nth_error_app2 by lia. now rewrite Nat.sub_diag. }
  rewrite X. destruct (form_map W rec (length (forms s)) ANone [] false u Collect _) as [[[|e es]|e] s']; reflexivity.
Qed.
Lemma C93_maps_lem W rec name pre t post kw b u pid s :
  (forall c, ~ In (ACls c) pre) -> SubForm_init (pre ++ ACls t :: post) kw = Ok b -> unmapped_said (alookup kw "unmapped") u ->
  parse_kind W rec (f_kind (attach_as name b)) pid s = maps_new_form W rec t u s.
Proof.
  intros NC H U. unfold SubForm_init in H. rewrite pluck_at in H; [| |reflexivity].
  2:{ intros y Y. destruct y as [?|?|?|?|c|?|?]; try reflexivity. exfalso. exact (NC c Y). }
  apply bindr_ok in H. destruct H as (b0 & H0 & H). apply unmapped_is in U. destruct U as [U UN].
  assert (exists s0 o0, b0 = BF s0 o0 (KSubForm t false UIgnore)) as (s0 & o0 & ->).
  { unfold field_init in H0. repeat match type of H0 with
      | match ?x with _ => _ end = Ok _ => destruct x; try discriminate
      end; apply bindr_ok in H0; destruct H0 as (o & _ & [= <-]); eauto. }
  unfold subform_options in H. cbn [b_kind b_opts b_src] in H.
  assert (G : given "unmapped" (kw_rest "src" kw) = alookup kw "unmapped").
  { rewrite given_rest by discriminate. unfold given. destruct (alookup kw "unmapped") as [[v|?|?|?|?|?|?]|]; try reflexivity. destruct v; try reflexivity. destruct c; try reflexivity. contradiction. }
  rewrite G in H. rewrite U in H. cbn [bindr] in H. apply bindr_ok in H. destruct H as (o & _ & [= <-]).
  cbn [attach_as f_kind b_kind parse_kind]. apply parse_new.
Qed.
Lemma C93_poly_lem W rec name probe tf table args kw b u pid s :
  Poly_init probe tf table args kw = Ok b -> unmapped_said (alookup kw "unmapped") u ->
  parse_kind W rec (f_kind (attach_as name b)) pid s =
    match poly_type W rec probe tf table pid s with
    | (Ok (inl t), s') => maps_new_form W rec t u s'
    | (Ok (inr v), s') => (Ok v, s')
    | (Exn e, s') => (Exn e, s')
    end.
Proof.
  intros H U. apply unmapped_is in U. destruct U as [U UN]. unfold Poly_init in H. rewrite U in H. cbn [bindr] in H.
  assert (exists s0 o0 rs, b = BF s0 o0 (KPoly probe tf table rs u)) as (s0 & o0 & rs & ->).
  { unfold field_init in H. repeat match type of H with
      | match ?x with _ => _ end = Ok _ => destruct x; try discriminate
      end; apply bindr_ok in H; destruct H as (o & _ & [= <-]); eauto. }
  cbn [attach_as f_kind b_kind parse_kind]. unfold parse_poly, bind.
  destruct (poly_type W rec probe tf table pid s) as [[[t|v]|e] s']; [apply parse_new|reflexivity|reflexivity].
Qed.
Lemma C93_accepts_lem t kw u :
  (forall n a, In (n, a) kw -> In n ["reset"; "unmapped"; "flat"]) -> unmapped_said (alookup kw "unmapped") u ->
  exists b, SubForm_init [ACls t] kw = Ok b.
Proof.
  intros N U. apply unmapped_is in U. destruct U as [U UN].
  assert (NS : alookup kw "src" = None).
  { destruct (alookup kw "src") as [a|] eqn:L; [|reflexivity]. exfalso.
    assert (I : exists a, In ("src", a) kw). { clear - L. induction kw as [|[n x] kw IH]; [discriminate|]. cbn [alookup] in L. destruct (String.eqb_spec n "src") as [->|NE]; [exists x; now left|]. destruct IH as [y IH]; [|exists y; now right]. revert L. destruct (String.eqb_spec "src" n); [congruence|auto]. }
    destruct I as [x I]. destruct (N _ _ I) as [X|[X|[X|[]]]]; discriminate. }
  unfold SubForm_init. cbn [pluck is_form_class]. rewrite NS. cbn [field_init alookup kw_rest filter bindr field_options forallb].
  assert (F0 : forall o, exists o', field_options [] o = Ok o') by (intros o; eexists; reflexivity).
  destruct (F0 no_opts) as [o0 E0]. unfold field_options in E0. cbn [forallb] in E0. rewrite E0. cbn [bindr]. unfold subform_options. cbn [b_kind b_opts b_src].
  assert (G : given "unmapped" (kw_rest "src" kw) = alookup kw "unmapped").
  { rewrite given_rest by discriminate. unfold given. destruct (alookup kw "unmapped") as [[v|?|?|?|?|?|?]|]; try reflexivity. destruct v; try reflexivity. destruct c; try reflexivity. contradiction. }
  rewrite G, U. cbn [bindr].
  assert (E : kw_rest "reset" (kw_rest "unmapped" (kw_rest "flat" (kw_rest "src" kw))) = []).
  { clear - N. induction kw as [|[n a] kw IH]; [reflexivity|]. cbn [kw_rest filter fst].
    assert (I : forall n0 a0, In (n0, a0) kw -> In n0 ["reset"; "unmapped"; "flat"]) by (intros; eapply N; right; eassumption).
    specialize (IH I). unfold kw_rest in *. destruct (N n a (or_introl eq_refl)) as [<-|[<-|[<-|[]]]]; cbn; exact IH. }
  rewrite E. match goal with |- context [field_options [] ?o] => destruct (F0 o) as [o' ->] end. cbn [bindr]. eauto.
Qed.
