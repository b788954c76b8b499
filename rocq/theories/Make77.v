(** * Make77: numbers with a pattern, groups, tuples and type fields (C77-C79). *)
From Verif Require Import PyBase PyStr Source Field Context Fields Build SpecCtx SpecField FieldVios SpecBox SpecBuild SrcPath SrcProofs Shape Reads Run FieldProofs FieldLemmas MakeProofs Make73 Make74 BoxProofs BoxLemmas.
From Coq Require Import Lia.
Open Scope Z_scope.

(** ** C77: pattern *)
Section Pattern.
Variables (W : world) (n : nat) (name : string) (b : bfield) (pattern : string).
Variables (s : st) (eid : nat) (m : mode) (es : list err) (pid : nat) (p : path) (igd igm : bool) (t : string) (c : cval).
Hypothesis MP : mapping W s eid m es pid p igd igm.
Hypothesis FO : lookup "form" (stk s) = Some c.
Hypothesis HF : hook_free (attach_as name b).
Definition b3 : bfield := BF (b_src b) (set_parse (Some (pattern_hook (w_env W) pattern)) (b_opts b)) (b_kind b).
Notation f := (attach_as name b3).
Hypothesis T : p_str (w_env W) (place f p) = Ok t.
Lemma pattern_makes : number_pattern (w_env W) pattern b = Ok b3.
Proof.
  unfold number_pattern, register.
  assert (C : o_parse (b_opts b) = None). { destruct HF as [[]]. destruct b as [bs o k]. destruct bs; assumption. }
  rewrite C. reflexivity.
Qed.
Lemma pat_quiet : quiet f /\ o_compute (f_opts f) = None /\ o_munge (f_opts f) = None /\ o_parse (f_opts f) = Some (pattern_hook (w_env W) pattern).
Proof. destruct HF as [[]]. unfold b3. destruct b as [bs o k]. destruct bs; cbn in *; repeat split; assumption. Qed.
(** what the hook makes of the text *)
Definition parsed (x : string) : res val :=
  match e_re (w_env W) pattern x with
  | None => Exn (EValue "does not match pattern")
  | Some groups =>
      match group_of groups (Some (KInt 0)) with
      | Some (VStr y) => match parse_int y with Some z => Ok (VInt z) | None => Exn (EValue "invalid literal for int()") end
      | _ => Exn (EType "int() argument")
      end
  end.
Lemma pat_body x : finds_text W s f p x -> exists q, p_str (w_env W) q = Ok t /\
  field_body W (field_map W n) f NONEv (entered f NONEv s pid p) =
  match parsed x with
  | Ok v => field_after W (field_map W n) f v (after_read f NONEv s pid p q)
  | Exn e => if caught_by_compute e then (out m es ERRORv [invalid_at f pid (VioExn (spoken e)) t], reported f NONEv s eid m es pid p q [invalid_at f pid (VioExn (spoken e)) t])
             else (Exn e, after_read f NONEv s pid p q)
  end.
Proof.
  intros (q1 & q2 & q3 & X1 & X2 & X3). destruct pat_quiet as (Q & HC & HM & HP). exists q3.
  assert (T3 : p_str (w_env W) q3 = Ok t).
  { rewrite (str_prim W s _ _ _ _ X3), (str_after W s p_is_null _ _ _ (t_is_null (w_env W)) X2), (str_after W s p_exists _ _ _ (t_exists (w_env W)) X1). exact T. }
  split; [exact T3|]. unfold field_body. change (is_NONE NONEv) with true. cbv iota. rewrite HC. unfold bind at 1.
  assert (C : field_compute W (field_map W n) f (entered f NONEv s pid p) =
    match parsed x with
    | Ok v => (Ok v, after_read f NONEv s pid p q3)
    | Exn e => if caught_by_compute e then invalid_error W (VioExn (spoken e)) (after_read f NONEv s pid p q3) else (Exn e, after_read f NONEv s pid p q3)
    end).
  { unfold field_compute. unfold bind at 1. rewrite (s1_is f NONEv s pid p), (ar_cur W f NONEv s eid m es pid p igd igm MP). unfold bind at 1, path_exists.
    change (spot f NONEv p) with (place f p). rewrite (ar_on W f NONEv s eid m es pid p igd igm MP p_exists _ _ _ X1). cbn [negb]. unfold bind at 1, path_is_null.
    rewrite (ar_on W f NONEv s eid m es pid p igd igm MP p_is_null _ _ _ X2). unfold catch at 1. rewrite HP.
    assert (H : call_hook W (field_map W n) (pattern_hook (w_env W) pattern) [VNone] (after_read f NONEv s pid p q2) = (parsed x, after_read f NONEv s pid p q3)).
    { unfold call_hook, pattern_hook. cbn [hk_attached hk_fun]. unfold bind at 1. unfold bind at 1, ctx_get at 1, ctx_get_opt at 1. unfold bind at 1, get at 1.
      rewrite (ar_lookup f NONEv s pid p) by discriminate. rewrite FO. cbn [ret].
      assert (Y : forall A (k : cval -> M A) z, (match c with CForm i => ret (VForm i) | CVal v => ret v | _ => ret VNone end) z = (Ok (match c with CForm i => VForm i | CVal v => v | _ => VNone end), z)) by (intros; destruct c; reflexivity).
      rewrite (Y _ (fun _ => ret tt)). cbn [run]. unfold catch, run_pathop, bind. rewrite (ar_cur W f NONEv s eid m es pid p igd igm MP).
      rewrite (prim_run W f NONEv s eid m es pid p igd igm MP _ _ _ _ X3). unfold parsed.
      destruct (e_re (w_env W) pattern x) as [groups|]; [|reflexivity]. destruct (group_of groups (Some (KInt 0))) as [w|]; [|reflexivity].
      destruct w; try reflexivity. match goal with |- context[parse_int ?y] => destruct (parse_int y) end; reflexivity. }
    rewrite H. destruct (parsed x) as [v|e]; [reflexivity|]. destruct (caught_by_compute e); reflexivity. }
  rewrite C. unfold parsed. clear C.
  destruct (e_re (w_env W) pattern x) as [groups|].
  - destruct (group_of groups (Some (KInt 0))) as [w|].
    + destruct w; try reflexivity.
      match goal with |- context[parse_int ?y] => destruct (parse_int y) end; [reflexivity|]. cbn [caught_by_compute]. unfold invalid_error, bind.
      rewrite (ar_report W f NONEv s eid m es pid p igd igm MP (Invalid (VioExn _)) q3 t T3); destruct m; reflexivity.
    + reflexivity.
  - cbn [caught_by_compute]. unfold invalid_error, bind. rewrite (ar_report W f NONEv s eid m es pid p igd igm MP (Invalid (VioExn _)) q3 t T3); destruct m; reflexivity.
Qed.
Lemma pat_good x y z w : finds_text W s f p x -> matches (w_env W) pattern x y -> SpecSrc.int_text y z -> settles (w_env W) f (VInt z) w ->
  yields W (S n) f NONEv s eid m es w [].
Proof.
  intros FT (groups & RE & HG) IT (G & L & Tr & Gw & I & F). destruct (pat_body x FT) as (q & Tq & B). destruct pat_quiet as (Q & HC & HM & HP).
  apply parse_int_iff in IT. unfold parsed in B. rewrite RE, (group_has _ _ _ HG), IT in B.
  rewrite (after_quiet W n f NONEv s eid m es pid p igd igm MP Q (VInt z) w w q t Tq L) in B; [|now apply translated_is|now rewrite HM].
  rewrite Gw in B. assert (N : is_NONE w = false) by (destruct w; try reflexivity; discriminate). rewrite N in B.
  exact (checked_yields W n f NONEv s eid m es pid p igd igm MP Q w q t None I (fits_violation W (entries s) f w F) B).
Qed.
Lemma pat_bad x : finds_text W s f p x ->
  (e_re (w_env W) pattern x = None \/ exists y, matches (w_env W) pattern x y /\ forall z, ~ SpecSrc.int_text y z) ->
  exists e, yields W (S n) f NONEv s eid m es ERRORv [invalid_at f pid (VioExn (EValue e)) t].
Proof.
  intros FT H. destruct (pat_body x FT) as (q & Tq & B). destruct pat_quiet as (Q & HC & HM & HP).
  assert (X : exists e, parsed x = Exn (EValue e)).
  { unfold parsed. destruct H as [-> |(y & (groups & RE & HG) & NI)]; [eauto|]. rewrite RE, (group_has _ _ _ HG).
    destruct (parse_int y) as [z|] eqn:PI; [|eauto]. apply parse_int_iff in PI. exfalso. exact (NI z PI). }
  destruct X as [e X]. exists e. rewrite X in B. exact (yields_run W n f NONEv s eid m es pid p igd igm MP Q _ _ q B).
Qed.
End Pattern.
Lemma C77_lem W n name b pattern s eid m es pid p igd igm t c :
  mapping W s eid m es pid p igd igm -> lookup "form" (stk s) = Some c -> hook_free (attach_as name b) ->
  exists b', number_pattern (w_env W) pattern b = Ok b' /\
  let f := attach_as name b' in
  (p_str (w_env W) (place f p) = Ok t -> forall x, finds_text W s f p x ->
   (forall y z w, matches (w_env W) pattern x y -> SpecSrc.int_text y z -> settles (w_env W) f (VInt z) w -> yields W (S n) f NONEv s eid m es w []) /\
   ((e_re (w_env W) pattern x = None \/ exists y, matches (w_env W) pattern x y /\ forall z, ~ SpecSrc.int_text y z) ->
    exists e, yields W (S n) f NONEv s eid m es ERRORv [invalid_at f pid (VioExn (EValue e)) t])).
Proof.
  intros MP FO HF. exists (b3 W b pattern). split; [now apply (pattern_makes W name)|]. intros f T x FT. split.
  - intros y z w M IT ST. eapply pat_good; eassumption.
  - intros H. eapply pat_bad; eassumption.
Qed.

(** ** C78: groups *)
Lemma init_plain args kw k b name : field_init args kw k = Ok b -> ~ says kw "attach_parent" -> plain_steps (attach_as name b).
Proof.
  intros H NA. destruct (init_ok _ _ _ _ H) as (_ & src & HO & _).
  assert (AT : o_attach_parent (b_opts b) = false).
  { rewrite HO. cbn [o_attach_parent opted no_opts set_src]. unfold att. destruct (given "attach_parent" kw) as [a|] eqn:G; [|reflexivity].
    destruct (arg_truthy a) eqn:Tr; [|reflexivity]. exfalso. apply NA. destruct (given_said _ _ _ G). now apply says_given with a. }
  assert (HK : o_compute (b_opts b) = None /\ o_resolve (b_opts b) = None /\ o_parse (b_opts b) = None /\ o_munge (b_opts b) = None /\ o_filter (b_opts b) = None /\ o_validate (b_opts b) = None)
    by (rewrite HO; repeat split).
  destruct b as [bs o k']. cbn [b_opts] in *. destruct HK as (K1 & K2 & K3 & K4 & K5 & K6). split; cbn; destruct bs; assumption.
Qed.
Scheme entry_ind2 := Minimality for entry_said Sort Prop with entries_ind2 := Minimality for entries_said Sort Prop.
Combined Scheme entry_both from entry_ind2, entries_ind2.
Lemma said_adds : (forall a x, entry_said a x -> forall path, add_item a path = Ok x) /\
  (forall l x, entries_said l x -> forall i path, add_items add_item i l path = Ok x).
Proof.
  apply entry_both.
  - intros b s S1 S2 path. cbn [add_item]. unfold add_bare. now rewrite S1, S2.
  - reflexivity.
  - reflexivity.
  - reflexivity.
  - intros l ll _ IH path. cbn [add_item]. apply IH.
  - reflexivity.
  - intros a l x y _ IHa _ IHl i path. cbn [add_items]. rewrite IHa. cbn [bindr]. rewrite IHl. reflexivity.
Qed.
Fixpoint arg_size (a : arg) : nat := match a with AList l => S (fold_right (fun a n => arg_size a + n) 0 l)%nat | _ => 1%nat end.
Lemma size_pos a : (0 < arg_size a)%nat.
Proof. destruct a; cbn; lia. Qed.
Lemma adds_said : forall n l i path x, (fold_right (fun a n => arg_size a + n) 0 l <= n)%nat -> add_items add_item i l path = Ok x -> entries_said l x.
Proof.
  induction n as [|n IH]; intros l i path x SZ H.
  - destruct l as [|a l]; [injection H as <-; constructor|]. cbn in SZ. pose proof (size_pos a). lia.
  - revert i x SZ H. induction l as [|a l IHl]; intros i x SZ H; [injection H as <-; constructor|]. cbn [add_items] in H. apply bindr_ok in H. destruct H as (y & A & H).
    apply bindr_ok in H. destruct H as (z & B & [= <-]). cbn [fold_right] in SZ. pose proof (size_pos a) as P. constructor; [|apply (IHl (S i)); [lia|exact B]].
    destruct a as [v| | |b| |l'|l']; try discriminate.
    + destruct v; try discriminate; cbn [add_item] in A.
      * match type of A with match ?l0 with _ => _ end = _ => destruct l0 end; [injection A as <-; constructor|discriminate].
      * match type of A with (if Nat.eqb (length ?l0) 2 then _ else _) = _ => destruct l0 as [|v1 [|v2 [|v3 l3]]] end; cbn in A; try discriminate; destruct v1; discriminate.
    + cbn [add_item] in A. unfold add_bare in A. destruct (b_src b) eqn:S1; [|discriminate]. destruct (o_src (b_opts b)) as [[s| |]|] eqn:S2; try discriminate. injection A as <-. now constructor.
    + cbn [add_item] in A. cbn [arg_size] in SZ. constructor. apply (IH l' 0%nat (i :: path) y); [lia|exact A].
    + cbn [add_item] in A. unfold add_tuple in A. destruct l' as [|a1 [|a2 [|a3 l3]]]; try discriminate.
      * destruct a1 as [v| | | | | |]; try discriminate. destruct v; discriminate.
      * destruct a1 as [v| | | | | |]; try discriminate; [destruct v; try discriminate|]; destruct a2; try discriminate; injection A as <-; constructor.
      * destruct a1 as [v| | | | | |]; try discriminate; [destruct v; try discriminate|]; destruct a2; discriminate.
Qed.
Lemma group_kw kw b k : field_init [] (match alookup kw "default" with Some _ => kw | None => kw ++ [("default", AFn (PRet (VList [])))] end) k = Ok b ->
  ~ says kw "attach_parent" -> forall name, plain_steps (attach_as name b) /\ f_kind (attach_as name b) = k /\ (unsaid kw "default" -> o_default (f_opts (attach_as name b)) = DCall (PRet (VList []))).
Proof.
  intros H NA name. split; [|split].
  - eapply init_plain; [exact H|]. destruct (alookup kw "default"); [exact NA|]. intros (a & L & X). apply NA. exists a. rewrite alookup_app in L. destruct (alookup kw "attach_parent"); [auto|discriminate].
  - destruct (as_opts name b) as (_ & _ & _ & _ & _ & -> & _). apply (init_ok _ _ _ _ H).
  - intros U. destruct (as_opts name b) as (_ & -> & _). destruct (init_ok _ _ _ _ H) as (_ & src & -> & _). unfold unsaid in U. rewrite U. cbn [o_default opted]. unfold dfl.
    unfold given at 1. rewrite alookup_app, U. reflexivity.
Qed.
Lemma C78_lem W n name items kw b : Group_init items kw = Ok b -> ~ says kw "attach_parent" ->
  exists l, entries_said items l /\
  let f := attach_as name b in
  (forall s eid m es pid p igd igm keys q ts c s1 t, mapping W s eid m es pid p igd igm -> p_str (w_env W) (place f p) = Ok t ->
     mapping_at W s f p keys q -> grouped W n l keys (SpecBox.within f s pid q) ts c s1 -> c <> O ->
     SpecField.untouched f (VList ts) -> ends W (S n) f s s1 (VList ts)) /\
  (unsaid kw "default" -> forall s eid m es pid p igm keys q ts s1, mapping W s eid m es pid p false igm ->
     mapping_at W s f p keys q -> grouped W n l keys (SpecBox.within f s pid q) ts 0 s1 -> ends W (S n) f s s1 (VList [])).
Proof.
  intros H NA. unfold Group_init in H. apply bindr_ok in H. destruct H as (l & A & H). exists l. split; [exact (adds_said _ _ _ _ _ (le_n _) A)|].
  destruct (group_kw _ _ _ H NA name) as (PL & K & D). split.
  - intros. eapply C35_group; eassumption.
  - intros U. intros. eapply C35_default; try eassumption. left. exact (D U).
Qed.
Lemma C78_built_lem items l : entries_said items l ->
  Group_init items [] = Ok (BF false (MkOpts None None true (DCall (PRet (VList []))) [] [] [] false None None None None None None) (KGroup l)).
Proof. intros E. unfold Group_init. rewrite (proj2 said_adds _ _ E 0%nat []). reflexivity. Qed.
Lemma C78_refused_lem items kw b : Group_init items kw = Ok b -> exists l, entries_said items l.
Proof. intros H. unfold Group_init in H. apply bindr_ok in H. destruct H as (l & A & H). exists l. exact (adds_said _ _ _ _ _ (le_n _) A). Qed.
(** the error names the field *)
Lemma adds_pre pre l : entries_said pre l -> forall i post path, add_items add_item i (pre ++ post) path =
  bindr (add_items add_item (i + length pre) post path) (fun y => Ok (l ++ y)).
Proof.
  induction 1 as [|a l0 x y A _ IH]; intros i post path.
  - cbn [app length]. rewrite Nat.add_0_r. destruct (add_items add_item i post path); reflexivity.
  - cbn [app add_items length]. rewrite (proj1 said_adds _ _ A). cbn [bindr]. rewrite IH. replace (i + S (length l0))%nat with (S i + length l0)%nat by lia.
    destruct (add_items add_item (S i + length l0) post path) as [z|e]; cbn [bindr]; [now rewrite app_assoc|reflexivity].
Qed.
Lemma indices_path path p : group_path (rev path ++ p) = (group_path p ++ indices path)%string.
Proof.
  unfold group_path, indices. rewrite rev_app_distr, rev_involutive, map_app.
  generalize (map (fun i => ("[" ++ print_int (Z.of_nat i) ++ "]")%string) path) as m2. intros m2.
  induction (map (fun i => ("[" ++ print_int (Z.of_nat i) ++ "]")%string) (rev p)) as [|a l IH]; [reflexivity|].
  assert (C : forall x (y : list string), String.concat "" (x :: y) = (x ++ String.concat "" y)%string).
  { intros x [|z y]; [|reflexivity]. cbn. induction x as [|c x IHx]; [reflexivity|]. cbn. now rewrite <- IHx. }
  cbn [app]. rewrite !C, IH. clear. induction a as [|c a IHa]; [reflexivity|]. cbn. now rewrite IHa.
Qed.
Lemma bare_fails items path : bare_at items path -> forall p, add_items add_item 0 items p = Exn (EValue ("field" ++ (group_path p ++ indices path) ++ ".src is not set")).
Proof.
  induction 1 as [pre b post l A NB|pre inner post l path A _ IH]; intros p; rewrite (adds_pre _ _ A); cbn [Nat.add add_items add_item].
  - unfold add_bare. rewrite NB. cbn [bindr]. rewrite <- (indices_path [length pre] p). reflexivity.
  - rewrite IH. cbn [bindr]. rewrite <- !indices_path. cbn [rev]. rewrite <- app_assoc. reflexivity.
Qed.
Lemma odd_fails items path : odd_at items path -> forall p, add_items add_item 0 items p = Exn (EValue ("field" ++ (group_path p ++ indices path) ++ " tuple be (src, field)")).
Proof.
  induction 1 as [pre t post l A NB|pre inner post l path A _ IH]; intros p; rewrite (adds_pre _ _ A); cbn [Nat.add add_items add_item].
  - rewrite <- (indices_path [length pre] p). cbn [rev app].
    destruct t as [|x [|y [|z t]]]; try reflexivity; [destruct x; try reflexivity; destruct v; reflexivity|cbn in NB; congruence|].
    destruct x; try reflexivity; destruct y; try reflexivity; destruct v; reflexivity.
  - rewrite IH. cbn [bindr]. rewrite <- !indices_path. cbn [rev]. rewrite <- app_assoc. reflexivity.
Qed.
Lemma alien_fails items path : alien_at items path -> forall p, add_items add_item 0 items p = Exn (EValue ("field" ++ (group_path p ++ indices path) ++ " should be field, (src, field) or [(src, field), ...]")).
Proof.
  induction 1 as [pre a post l A NB|pre inner post l path A _ IH]; intros p; rewrite (adds_pre _ _ A); cbn [Nat.add add_items].
  - rewrite <- (indices_path [] p). cbn [rev app]. destruct NB; reflexivity.
  - cbn [add_item]. rewrite IH. cbn [bindr]. rewrite <- !indices_path. cbn [rev]. rewrite <- app_assoc. reflexivity.
Qed.
Lemma C78_odd_lem items path kw : odd_at items path -> Group_init items kw = Exn (EValue ("field" ++ indices path ++ " tuple be (src, field)")).
Proof. intros B. unfold Group_init. rewrite (odd_fails _ _ B []). reflexivity. Qed.
Lemma C78_alien_lem items path kw : alien_at items path ->
  Group_init items kw = Exn (EValue ("field" ++ indices path ++ " should be field, (src, field) or [(src, field), ...]")).
Proof. intros B. unfold Group_init. rewrite (alien_fails _ _ B []). reflexivity. Qed.
Lemma C78_arguments_lem items : (exists b, Group_init items [] = Ok b) <-> exists l, entries_said items l.
Proof.
  split.
  - intros (b & H). exact (C78_refused_lem items [] b H).
  - intros (l & H). eexists. exact (C78_built_lem items l H).
Qed.
Lemma C78_bare_lem items path kw : bare_at items path -> Group_init items kw = Exn (EValue ("field" ++ indices path ++ ".src is not set")).
Proof. intros B. unfold Group_init. rewrite (bare_fails _ _ B []). reflexivity. Qed.

(** ** C79: type fields *)
Lemma pop_is n kw v kw' : pop_value n kw = Ok (v, kw') -> kw' = kw_rest n kw.
Proof. unfold pop_value, kw_pop. intros H. apply bindr_ok in H. destruct H as (w & _ & [= <- <-]). reflexivity. Qed.
Lemma some_more kw kw' l l' : incl l l' -> some_left kw kw' l -> some_left kw kw' l'.
Proof. intros I S1 n NI. apply S1. auto. Qed.
Definition string_names : list string := ["length"; "min_length"; "max_length"; "pattern"; "alphabet"; "choices"].
Lemma String_rest args kw b : String_init args kw = Ok b -> exists kw' c, field_init args kw' (KString c) = Ok b /\ some_left kw kw' string_names.
Proof.
  unfold String_init. intros H. apply bindr_ok in H. destruct H as ([bd kw1] & A & H). apply bindr_ok in H. destruct H as ([pt kw2] & B & H).
  apply bindr_ok in H. destruct H as ([al kw3] & C & H). apply bindr_ok in H. destruct H as ([ch kw4] & D & H).
  exists kw4, (MkStrc (fst bd) (snd bd) pt al ch). split; [exact H|].
  assert (S1 : some_left kw kw1 ["length"; "min_length"; "max_length"]).
  { unfold string_lengths in A. apply bindr_ok in A. destruct A as ([len k1] & A1 & A). apply pop_is in A1. subst k1. destruct (truthy len).
    - apply bindr_ok in A. destruct A as (pr & _ & A). apply bindr_ok in A. destruct A as (bb & _ & [= <- <-]). eapply some_more; [|apply some_rest]. intros x [<-|[]]. now left.
    - unfold pop_min_max in A. apply bindr_ok in A. destruct A as ([lo k2] & A2 & A). apply pop_is in A2. apply bindr_ok in A. destruct A as ([hi k3] & A3 & A). apply pop_is in A3.
      apply bindr_ok in A. destruct A as (bb & _ & [= <- <-]). subst k3 k2. change ["length"; "min_length"; "max_length"] with (["length"] ++ ["min_length"] ++ ["max_length"]).
      eapply some_trans; [apply some_rest|]. eapply some_trans; apply some_rest. }
  assert (S2 : some_left kw1 kw2 ["pattern"]).
  { assert (kw2 = kw_rest "pattern" kw1) as ->; [|apply some_rest]. unfold string_pattern, kw_pop in B.
    destruct (match alookup kw1 "pattern" with Some a => a | None => AV VNone end) as [v| | | | | |]; try discriminate; [|now injection B].
    destruct v; try (now injection B); cbn [truthy] in B; try (match type of B with (if ?x then _ else _) = _ => destruct x end); try discriminate; now injection B. }
  assert (S3 : some_left kw2 kw3 ["alphabet"]).
  { unfold string_alphabet in C. apply bindr_ok in C. destruct C as ([v k] & C1 & C). apply pop_is in C1. subst k. destruct v; try discriminate; injection C as <- <-; apply some_rest. }
  assert (S4 : some_left kw3 kw4 ["choices"]).
  { unfold string_choices in D. apply bindr_ok in D. destruct D as ([v k] & D1 & D). apply pop_is in D1. subst k. destruct v; try discriminate; injection D as <- <-; apply some_rest. }
  exact (some_trans _ _ _ _ _ S1 (some_trans _ _ _ _ _ S2 (some_trans _ _ _ _ _ S3 S4))).
Qed.
Lemma String_default args kw b a : String_init args kw = Ok b -> alookup kw "default" = Some (AV a) -> a <> VConst NOTSET -> o_default (b_opts b) = DVal a.
Proof.
  intros H L NE. destruct (String_rest _ _ _ H) as (kw' & c & F & SL). destruct (init_ok _ _ _ _ F) as (_ & src & -> & _). cbn [o_default opted]. unfold dfl.
  rewrite (said_given kw' "default" (AV a)); [reflexivity| |congruence]. rewrite SL; [exact L|]. apply no_in. reflexivity.
Qed.
Lemma C79_lem choices kw b : type_instance choices kw = Ok b ->
  (forall v, choices = [v] -> (forall c, v <> VConst c) -> type_value b = Ok (DVal v)) /\
  (length choices <> 1%nat -> type_value b = Exn (EType "is abstract or polymorphic")).
Proof.
  unfold type_instance. destruct (existsb _ kw) eqn:NK; [discriminate|]. intros H. split.
  - intros v -> NC. unfold type_value. erewrite String_default; [|exact H|reflexivity|apply NC]. destruct v; try reflexivity. exfalso. now apply (NC c).
  - intros NL. unfold type_value. erewrite String_default; [|exact H|reflexivity|].
    + destruct choices as [|a [|a2 l]]; try reflexivity. now elim NL.
    + destruct choices as [|a [|a2 l]]; try discriminate. now elim NL.
Qed.

Lemma C79_absent_lem W n name choices kw b s eid m es pid p igd igm t : type_instance choices kw = Ok b -> ~ says kw "attach_parent" ->
  let f := attach_as name b in
  mapping W s eid m es pid p igd igm -> p_str (w_env W) (place f p) = Ok t -> igd = false -> absent W s f p ->
  (forall v, choices = [v] -> v <> VConst NOTSET -> yields W (S n) f NONEv s eid m es v []) /\
  (length choices <> 1%nat -> yields W (S n) f NONEv s eid m es NONEv []).
Proof.
  intros H NA f MP PS IG AB. unfold type_instance in H. destruct (existsb _ kw) eqn:NK; [discriminate|].
  assert (Q : forall v, v <> VConst NOTSET -> match choices with [c] => c | _ => VConst NONE end = v -> yields W (S n) f NONEv s eid m es v []).
  { intros v NV E. rewrite E in H. destruct (String_rest _ _ _ H) as (kw' & c & F & SL).
    refine (C72_default_lem W n name [] kw' _ b s eid m es pid p igd igm t F _ MP PS v _ NV IG AB).
    - intros (a & L & X). apply NA. exists a. rewrite SL in L by (apply no_in; reflexivity). split; [exact L|exact X].
    - rewrite SL by (apply no_in; reflexivity). reflexivity. }
  split.
  - intros v -> NV. apply Q; [exact NV|reflexivity].
  - intros NL. apply Q; [discriminate|]. destruct choices as [|a [|a2 l]]; try reflexivity. now elim NL.
Qed.

(** ** C80: tuples *)
Lemma tuple_fields_said fs : tuple_fields (map AF fs) = Ok (map (fun b => MkField (b_opts b) (b_kind b)) fs).
Proof. induction fs as [|b fs IH]; [reflexivity|]. cbn [map tuple_fields]. rewrite IH. reflexivity. Qed.
Lemma tuple_not_field fs a rest : (forall f, a <> AF f) -> exists e, tuple_fields (map AF fs ++ a :: rest) = Exn e /\ refusal a e.
Proof.
  intros NF. induction fs as [|b fs (e & IH & R)].
  - cbn [map app].
    assert (X : (exists m, tuple_fields (a :: rest) = Exn (EValue m) /\ number_or_text a) \/ (exists m, tuple_fields (a :: rest) = Exn (EType m) /\ ~ number_or_text a)).
    { destruct a as [v| | | | | |]; try (right; eexists; split; [reflexivity|intros N; inversion N]).
      - destruct v; (left; eexists; split; [reflexivity|constructor]) || (right; eexists; split; [reflexivity|intros N; inversion N]).
      - exfalso. eapply NF; reflexivity. }
    destruct X as [(m & -> & N)|(m & -> & N)]; eexists; (split; [reflexivity|]); split; intros H; try contradiction; eauto.
  - cbn [map app tuple_fields]. rewrite IH. exists e. split; [reflexivity|exact R].
Qed.
Lemma C80_refuses_lem fs a rest kw : (forall f, a <> AF f) ->
  exists e, refusal a e /\ Tuple_init [AList (map AF fs ++ a :: rest)] kw = Exn e /\ Tuple_init [ATuple (map AF fs ++ a :: rest)] kw = Exn e /\
    (forall f, Tuple_init (AF f :: map AF fs ++ a :: rest) kw = Exn e).
Proof.
  intros NF. destruct (tuple_not_field fs a rest NF) as (e & H & R). exists e. split; [exact R|].
  unfold Tuple_init. cbn [bindr]. rewrite H. split; [reflexivity|]. split; [reflexivity|]. intros f.
  destruct (map AF fs ++ a :: rest) as [|x l] eqn:E; [destruct fs; discriminate E|]. rewrite <- E in *.
  assert (X : tuple_fields (AF f :: map AF fs ++ a :: rest) = Exn e) by (cbn [tuple_fields]; now rewrite H).
  rewrite E in X |- *. cbn [bindr]. now rewrite X.
Qed.
Lemma Tuple_said name args kw fs b : Tuple_init args kw = Ok b -> fields_said args fs -> static_default kw -> ~ says kw "attach_parent" ->
  plain_steps (attach_as name b) /\ f_kind (attach_as name b) = KTuple (map (fun b => MkField (b_opts b) (b_kind b)) fs).
Proof.
  intros H FS SD NA.
  assert (X : exists src, field_init src (kw_rest "allow_field" kw) (KTuple (map (fun b => MkField (b_opts b) (b_kind b)) fs)) = Ok b).
  { unfold Tuple_init in H.
    destruct FS as [fs L|fs|fs|s args fs FS NS].
    - destruct fs as [|f1 [|f2 fs]]; [cbn in L; lia|cbn in L; lia|]. cbn [map] in H. cbn [bindr] in H.
      change (AF f1 :: AF f2 :: map AF fs) with (map AF (f1 :: f2 :: fs)) in H. rewrite tuple_fields_said in H. cbn [bindr] in H. eauto.
    - cbn [bindr] in H. rewrite tuple_fields_said in H. cbn [bindr] in H. eauto.
    - cbn [bindr] in H. rewrite tuple_fields_said in H. cbn [bindr] in H. eauto.
    - destruct FS as [fs L|fs|fs|s2 args fs FS _].
      + destruct fs as [|f1 [|f2 fs]]; [cbn in L; lia|cbn in L; lia|]. cbn [map] in H. cbn [bindr] in H.
        change (AF f1 :: AF f2 :: map AF fs) with (map AF (f1 :: f2 :: fs)) in H. rewrite tuple_fields_said in H. cbn [bindr] in H. eauto.
      + cbn [bindr] in H. rewrite tuple_fields_said in H. cbn [bindr] in H. eauto.
      + cbn [bindr] in H. rewrite tuple_fields_said in H. cbn [bindr] in H. eauto.
      + exfalso. now apply (NS s2 args). }
  destruct X as [src X].
  assert (N1 : ~ In "default" ["allow_field"]) by (apply no_in; reflexivity).
  assert (N2 : ~ In "attach_parent" ["allow_field"]) by (apply no_in; reflexivity).
  destruct (rest_options _ _ _ _ _ _ name (some_rest kw "allow_field") N1 N2 SD NA X) as [HF ->]. split; [now apply free_steps|reflexivity].
Qed.
Lemma C80_lem W n name args kw fs b s eid m es pid p igd igm t :
  Tuple_init args kw = Ok b -> fields_said args fs -> static_default kw -> ~ says kw "attach_parent" ->
  let f := attach_as name b in let gs := map (fun b => MkField (b_opts b) (b_kind b)) fs in
  mapping W s eid m es pid p igd igm -> p_str (w_env W) (place f p) = Ok t ->
  (forall q vs s1, sequence_at W s f p (length fs) q -> items W n (zipped 0 gs) (SpecBox.within f s pid q) vs s1 -> SpecField.untouched f (VTuple (survivors vs)) ->
     ends W (S n) f s s1 (VTuple (survivors vs))) /\
  (forall q len, m = Collect -> sequence_at W s f p len q -> len <> length fs ->
     yields W (S n) f NONEv s eid m es ERRORv [invalid_at f pid (VioItems (length fs)) t]).
Proof.
  intros H FS SD NA f gs MP T. destruct (Tuple_said name _ _ _ _ H FS SD NA) as [PL K]. fold f in PL, K. fold gs in K.
  assert (LG : length gs = length fs) by apply map_length. rewrite <- LG. split.
  - intros q vs s1 SQ IT U. eapply C33_tuple; eassumption.
  - intros q len -> SQ NE. eapply C33_length; eassumption.
Qed.
