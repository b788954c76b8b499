(** * JoinCapture: capturing the keys of a union of JSON documents (C45). *)
From Verif Require Import PyBase PyStr Source Field Context Fields SpecSrc Eval SpecUnion SrcPath Shape SpecField SpecForm SpecJson UnionProofs SpecJoin FieldLemmas FormProofs CaptureProofs JoinProofs JoinLemmas JoinDeep JoinTree JoinAgain.
From Coq Require Import Lia.

Section Capture.
Variables (W : world) (pid : nat).
Let E := w_env W.
Variable top : path -> path -> Prop.
Variables started fresh done : string -> phase.
Variable reads : string -> Prop.
Hypothesis AL : alike W top started fresh done reads.
Variable keys : list string.
Hypothesis TSTR : forall p q, top p q -> p_str E p = p_str E q.
Hypothesis TEX : forall e p q, top p q -> exists p' q', p_exists E e p = (p', Ok true) /\ p_exists E e q = (q', Ok true) /\ top p' q'.
Hypothesis TNULL : forall e p q, top p q -> exists p' q', p_is_null E e p = (p', Ok false) /\ p_is_null E e q = (q', Ok false) /\ top p' q'.
Hypothesis TMAP : forall e p q, top p q -> exists p' q', p_mapping E e p = (p', Ok (Ok (map VStr keys))) /\ p_mapping E e q = (q', Ok (Ok (map VStr keys))) /\ top p' q'.
Hypothesis RD : forall k, In k keys -> reads k.
Notation ph := (top_phase top).
Notation tw := (tw pid).
(** The value at a key *)
Lemma tw_plain n k : reads k -> tw ph ph (map_at W (field_map W (S n)) (KStr k) plain_field).
Proof.
  intros R. unfold map_at. eapply tw_enter; [exact AL|exact R|]. change (field_map W (S n)) with (field_map_body W (field_map W n)). unfold field_map_body. apply tw_bind.
  - apply tw_frame; [reflexivity|reflexivity|]. unfold field__map. cbn [is_NONE NONEv]. change (field_resolve W (field_map W n) plain_field) with (@ret (option key) None).
    change (bind (ret None) ?f) with (f (@None key)). cbv beta iota. eapply tw_body; [exact AL|exact calm_plain].
  - intros v. apply tw_bind; intros; apply tw_ret.
Qed.
Lemma tw_capture n id : tw ph ph (form_unmapped (field_map W (S (S n))) id UCapture).
Proof. apply (tw_unmapped W pid top TSTR keys TEX TNULL TMAP _ id plain_string plain_field calm_string). intros m [= <-] k I. apply tw_plain, RD, I. Qed.
End Capture.

(** ** One document with every key once *)
Fixpoint ded (l : list (val * val)) : list (val * val) :=
  match l with
  | [] => []
  | e :: l' => e :: filter (fun w => negb (py_eq (fst e) (fst w))) (ded l')
  end.
Lemma ded_keys l : map fst (ded l) = dedup (map fst l).
Proof.
  induction l as [|e l IH]; cbn [ded map dedup]; [reflexivity|]. f_equal. rewrite <- IH. clear. induction (ded l) as [|w m IH]; cbn [filter map]; [reflexivity|].
  destruct (negb (py_eq (fst e) (fst w))); cbn [map]; now rewrite IH.
Qed.
Lemma ded_in l e : In e (ded l) -> In e l.
Proof. revert e. induction l as [|x l IH]; cbn [ded]; intros e I; [exact I|]. destruct I as [->|I]; [now left|]. apply filter_In in I. right. apply IH, I. Qed.
Lemma ded_get l k : (forall e, In e l -> exists a, fst e = VStr a) -> dict_get (ded l) (VStr k) = dict_get l (VStr k).
Proof.
  induction l as [|[x v] l IH]; intros H; [reflexivity|]. destruct (H _ (or_introl eq_refl)) as (a & A). cbn [fst] in A. subst x. specialize (IH (fun e I => H e (or_intror I))).
  unfold dict_get in *. cbn [ded find fst]. cbn [py_eq]. destruct (String.eqb_spec a k) as [->|N]; [reflexivity|]. rewrite <- IH. f_equal.
  assert (SK : forall e, In e (ded l) -> exists b, fst e = VStr b) by (intros e I; apply H; right; now apply ded_in). clear -SK N.
  induction (ded l) as [|[y w] m IH]; [reflexivity|]. destruct (SK _ (or_introl eq_refl)) as (b & B). cbn [fst] in B. subst y. specialize (IH (fun e I => SK e (or_intror I))).
  cbn [filter fst]. cbn [py_eq]. destruct (String.eqb_spec a b) as [->|M]; cbn [negb find fst py_eq].
  - destruct (String.eqb_spec b k); [congruence|exact IH].
  - now rewrite IH.
Qed.
Lemma json_keys l : json_val (VDict l) = true -> forall e, In e l -> exists a, fst e = VStr a.
Proof. intros J [k v] I. cbn [json_val] in J. rewrite forallb_forall in J. specialize (J _ I). cbn in J. destruct k; try discriminate. cbn. eauto. Qed.
Lemma ded_json l : json_val (VDict l) = true -> json_val (VDict (ded l)) = true.
Proof. intros J. cbn [json_val] in *. rewrite forallb_forall in *. intros e I. apply J. now apply ded_in. Qed.
Lemma map_str_keys l : json_val (VDict l) = true -> map VStr (str_keys l) = map fst l.
Proof.
  intros J. pose proof (json_keys l J) as K. clear J. induction l as [|[k v] l IH]; [reflexivity|]. destruct (K _ (or_introl eq_refl)) as (a & A). cbn in A. subst k.
  cbn [str_keys flat_map fst app map]. f_equal. apply IH. intros e I. apply K. now right.
Qed.

Section Union.
Variables (E : env) (strict : option bool) (docs : list (list (val * val))) (one : list (val * val)) (u : usource) (keys : list string).
Hypothesis SOME : docs <> [].
Hypothesis JD : Forall (fun d => plain_src E (doc_of strict d)) docs.
Hypothesis KEYS : map fst one = dedup (flat_map (map fst) docs).
Hypothesis NAMES : map fst one = map VStr keys.
Let top := jtop E strict docs one u.
Lemma jtop_str p q : top p q -> p_str E p = p_str E q.
Proof.
  intros (a & -> & _ & PA & ->). cbn [p_str bp_str]. unfold pp_str, pkeys_str, up_keys, pp_keys. rewrite PA. cbn [Source.pp_parts Source.pp_src map].
  assert (PX : psource_prefix (doc_of strict one) = []) by (clear; destruct strict; reflexivity). rewrite PX. now destruct (keys_str E []).
Qed.
Lemma root_members e p q : top p q -> exists a l, p = PBase (BU a) /\ up_value E e a = (a, Ok (VUMap l)) /\ l <> [] /\ flat_map snd l = flat_map (map fst) docs.
Proof.
  intros (a & -> & AT & PA & ->). destruct (value_here E e u a _ _ (AT e)) as (w & kss & UV & T & M & SH & LA & SU). inversion SH as [| |ms l F| |]; subst.
  exists a, ms. split; [reflexivity|]. split; [exact UV|]. split; [intros ->; clear -F SOME; destruct docs; [congruence|]; inversion F|].
  clear -F. revert ms F. induction docs as [|d l IH]; intros ms F; cbn [map] in F; inversion F as [|[i ks] y ms' l' [_ Q] F']; subst; [reflexivity|]. cbn [flat_map fst snd] in *. subst ks. f_equal. apply IH, F'.
Qed.
Lemma jtop_same p q : top p q -> exists a, p = PBase (BU a) /\ q = PBase (BP (Source.PPath (doc_of strict one) (VDict one) [])).
Proof. intros (a & -> & _ & _ & ->). eauto. Qed.
Lemma jtop_exists e p q : top p q -> exists p' q', p_exists E e p = (p', Ok true) /\ p_exists E e q = (q', Ok true) /\ top p' q'.
Proof.
  intros T. destruct (root_members e p q T) as (a & l & -> & UV & NE & _). destruct (jtop_same _ _ T) as (a' & _ & ->). eexists _, _. cbn [p_exists bp_exists on_bp]. unfold up_exists. rewrite UV. split; [reflexivity|].
  split; [destruct strict; reflexivity|exact T].
Qed.
Lemma jtop_null e p q : top p q -> exists p' q', p_is_null E e p = (p', Ok false) /\ p_is_null E e q = (q', Ok false) /\ top p' q'.
Proof.
  intros T. destruct (root_members e p q T) as (a & l & -> & UV & NE & _). destruct (jtop_same _ _ T) as (a' & _ & ->). eexists _, _. cbn [p_is_null bp_is_null on_bp]. unfold up_is_null. rewrite UV.
  destruct l; [congruence|]. split; [reflexivity|]. split; [destruct strict; reflexivity|exact T].
Qed.
Lemma jtop_mapping e p q : top p q -> exists p' q', p_mapping E e p = (p', Ok (Ok (map VStr keys))) /\ p_mapping E e q = (q', Ok (Ok (map VStr keys))) /\ top p' q'.
Proof.
  intros T. destruct (root_members e p q T) as (a & l & -> & UV & NE & FM). destruct (jtop_same _ _ T) as (a' & _ & ->). eexists _, _. cbn [p_mapping bp_mapping on_bp]. unfold up_mapping. rewrite UV.
  unfold umap_keys. rewrite FM, <- KEYS, NAMES. split; [reflexivity|]. split; [|exact T]. destruct strict; cbn; now rewrite NAMES.
Qed.
End Union.

Lemma capture_gen W n strict docs one keys mm sm dp id tags rs m s t l tg :
  docs <> [] -> Forall (fun d => plain_src (w_env W) (doc_of strict d)) docs -> plain_src (w_env W) (doc_of strict one) -> first_wins docs one ->
  map fst one = dedup (flat_map (map fst) docs) -> map fst one = map VStr keys ->
  in_force s tags tg -> nth_error (forms s) id = Some (t, l) ->
  (forall k, In k keys -> one_key (KStr k) /\ forall v, first_with docs k = Some v -> v <> VNone /\ undated v) ->
  (forall f, In f (ft_fields t) -> chosen tg f -> exists k, simple_field f k /\
     match first_with docs k with Some v => v <> VNone /\ undated v | None => strict = None -> e_attr (w_env W) (VDict one) k = None end) ->
  same_answer (Form_map W (S (S n)) id (ASrc (SBase (BUnion (USource (map (doc_of strict) docs) mm sm dp)))) tags rs UCapture m s)
              (Form_map W (S (S n)) id (ASrc (SBase (BPlain (doc_of strict one)))) tags rs UCapture m s).
Proof.
  intros NE JD JO FW KEYS NAMES IF N HK H. set (us := USource (map (doc_of strict) docs) mm sm dp).
  pose proof (docs_alike (w_env W) strict docs one us eq_refl JD JO FW W eq_refl) as AL.
  unfold Form_map. refine (tw_map_gen W _ (al_mapping _ _ _ _ _ _ AL) _ _ _ (S (S n)) id tags rs UCapture m s t l tg _ IF N _).
  - intros e. exact (docs_open (w_env W) strict docs one us eq_refl NE JD e).
  - intros pid. refine (tw_capture W pid _ _ _ _ _ AL keys _ _ _ _ _ n id).
    + apply jtop_str.
    + intros e p q. now apply jtop_exists.
    + intros e p q. now apply jtop_null.
    + intros e p q. now apply jtop_mapping.
    + intros k I. destruct (HK k I) as [K V]. split; [exact K|]. destruct (first_with docs k) as [v|] eqn:Q; [now apply V|]. exfalso.
      rewrite <- (FW k) in Q. assert (X : In (VStr k) (map fst one)) by (rewrite NAMES; now apply in_map). clear -Q X. unfold dict_get in Q.
      induction one as [|[a b] l IH]; [contradiction|]. cbn [map fst find] in *. destruct X as [->|X]; [cbn [py_eq] in Q; now rewrite String.eqb_refl in Q|]. destruct (py_eq a (VStr k)); [discriminate|]. exact (IH Q X).
  - intros f pid I C. destruct (H f I C) as (k & SF & NN). refine (tw_field W pid _ _ _ _ _ AL (S (S n)) f k SF _). split; [exact (sf_key _ _ _ SF)|exact NN].
Qed.

Lemma at_key_one one k : one_key (KStr k) -> at_key one k = dict_get one (VStr k).
Proof.
  intros [K1 K2]. unfold at_key, json_at. cbn [flat_map key_steps]. rewrite (split_no_dot k K2). cbn [map app json_steps json_step val_of_key]. now destruct (dict_get one (VStr k)).
Qed.
Lemma in_str_keys l k : In k (str_keys l) <-> In (VStr k) (map fst l).
Proof.
  unfold str_keys. induction l as [|[a b] l IH]; cbn [flat_map map fst]; [tauto|]. rewrite in_app_iff, IH. cbn [In]. destruct a; cbn [In]; intuition (try discriminate; try congruence).
Qed.
Lemma get_keys l k : dict_get l (VStr k) = None \/ exists a v, In (a, v) l /\ py_eq a (VStr k) = true /\ dict_get l (VStr k) = Some v.
Proof.
  unfold dict_get. destruct (find (fun kv => py_eq (fst kv) (VStr k)) l) as [[a v]|] eqn:F; [|now left]. right. apply find_some in F. exists a, v. cbn in *. tauto.
Qed.
Lemma C45_union_lem W fuel strict docs mm sm dp id tags rs s t l tg es s0 :
  docs <> [] -> Forall (fun d => json_val (VDict d) = true) docs -> in_force s tags tg -> nth_error (forms s) id = Some (t, l) -> direct_form t -> mapping_context s ->
  (forall f, In f (ft_fields t) -> chosen tg f -> exists k, simple_field f k) ->
  (forall d k v, In d docs -> In (VStr k, v) d -> one_key (KStr k)) -> (forall k, first_with docs k <> Some VNone) ->
  let src := ASrc (SBase (BUnion (USource (map (json_doc strict) docs) mm sm dp))) in
  Form_map W (S (S fuel)) id src tags rs UIgnore Collect s = (Ok es, s0) ->
  exists s1, Form_map W (S (S fuel)) id src tags rs UCapture Collect s = (Ok es, s1) /\
    (forall k, dict_get (entries_at s1 id) (VStr k) =
       match dict_get (entries_at s0 id) (VStr k) with Some v => Some v | None => first_with docs k end) /\
    (forall k, (forall a, k <> VStr a) -> dict_get (entries_at s1 id) k = dict_get (entries_at s0 id) k) /\
    (forall i, i <> id -> nth_error (forms s1) i = nth_error (forms s0) i).
Proof.
  intros NE JD IF N D C H KS NN src R. set (one := ded (concat docs)). pose proof (concat_json docs JD) as JC.
  assert (JO : json_val (VDict one) = true) by now apply ded_json.
  assert (FW : first_wins docs one) by (intros k; unfold one; rewrite (ded_get _ _ (json_keys _ JC)); apply concat_wins).
  assert (KEYS : map fst one = dedup (flat_map (map fst) docs)) by (unfold one; rewrite ded_keys, concat_map, flat_map_concat_map; reflexivity).
  pose proof (map_str_keys one JO) as NAMES. symmetry in NAMES.
  assert (ONE : forall k, In k (str_keys one) -> one_key (KStr k)).
  { intros k I. apply in_str_keys in I. apply in_map_iff in I. destruct I as ([a v] & Q & I). cbn in Q. subst a. apply ded_in in I. apply in_concat in I. destruct I as (d & I1 & I2). eapply KS; eauto. }
  assert (JD' : Forall (fun d => plain_src (w_env W) (doc_of (Some strict) d)) docs) by (eapply Forall_impl; [|exact JD]; intros d J; now constructor).
  assert (H' : forall f, In f (ft_fields t) -> chosen tg f -> exists k, simple_field f k /\
     match first_with docs k with Some v => v <> VNone /\ undated v | None => Some strict = None -> e_attr (w_env W) (VDict one) k = None end).
  { intros f I Ch. destruct (H f I Ch) as (k & SF). exists k. split; [exact SF|]. destruct (first_with docs k) as [v|] eqn:Q; [|discriminate]. split; [specialize (NN k); congruence|exact (first_json docs k v JD Q)]. }
  destruct (capture_gen W fuel (Some strict) docs one (str_keys one) mm sm dp id tags rs Collect s t l tg NE JD' ltac:(now constructor) FW KEYS NAMES IF N
    ltac:(intros k I; split; [now apply ONE|]; intros v Q; split; [specialize (NN k); congruence|exact (first_json docs k v JD Q)]) H') as (A1 & A2 & _ & _).
  destruct (join_gen W (S (S fuel)) (Some strict) docs one mm sm dp id tags rs UIgnore Collect s t l tg NE JD' ltac:(now constructor) FW ltac:(now left) IF N H') as (B1 & B2 & _ & _).
  cbn [doc_of] in *. change (map (doc_of (Some strict)) docs) with (map (json_doc strict) docs) in *. fold src in A1, A2, B1, B2. rewrite R in B1, B2. cbn [fst snd] in B1, B2.
  destruct (Form_map W (S (S fuel)) id (ASrc (SBase (BPlain (json_doc strict one)))) tags rs UIgnore Collect s) as [r s0'] eqn:RD. cbn [fst snd] in B1, B2. subst r.
  destruct (C45_json_lem W fuel one strict None id t l tags rs s es s0' JO N D C RD) as (s1' & RC & G1 & G2 & G3).
  change (SJson (VDict one) strict None) with (json_doc strict one) in RC. rewrite RC in A1, A2. cbn [fst snd] in A1, A2.
  destruct (Form_map W (S (S fuel)) id src tags rs UCapture Collect s) as [r s1] eqn:RU. cbn [fst snd] in A1, A2. subst r. exists s1.
  assert (E1 : forall i, entries_at s1 i = entries_at s1' i) by (intros i; unfold entries_at; now rewrite A2). assert (E0 : forall i, entries_at s0 i = entries_at s0' i) by (intros i; unfold entries_at; now rewrite B2).
  assert (LK : lost_keys one (entries_at s0' id) = []).
  { unfold lost_keys. assert (X : forall k, In k (left_over one (entries_at s0' id)) -> at_key one k <> None).
    { intros k I. unfold left_over in I. apply filter_In in I. destruct I as [I _]. rewrite (at_key_one one k (ONE k I)). apply in_str_keys in I. clear -I. unfold dict_get.
      induction one as [|[a b] m IH]; [contradiction|]. cbn [map fst find] in *. destruct I as [->|I]; [cbn [py_eq]; now rewrite String.eqb_refl|]. destruct (py_eq a (VStr k)); [discriminate|auto]. }
    induction (left_over one (entries_at s0' id)) as [|k m IH]; [reflexivity|]. cbn [filter]. destruct (at_key one k) eqn:Q; [|exfalso; exact (X k (or_introl eq_refl) Q)]. apply IH. intros x I. apply X. now right. }
  rewrite LK in RU. cbn [map] in RU. split; [|split; [|split]].
  - rewrite LK. cbn [map]. destruct (missing_ignored s); now rewrite app_nil_r.
  - intros k. rewrite E1, E0, G1. destruct (dict_get (entries_at s0' id) (VStr k)); [reflexivity|]. rewrite <- (FW k). destruct (existsb (String.eqb k) (str_keys one)) eqn:X.
    + apply existsb_exists in X. destruct X as (a & I & Q). apply String.eqb_eq in Q. subst a. now apply at_key_one, ONE.
    + destruct (get_keys one k) as [->|(a & v & I & Q & G)]; [reflexivity|]. exfalso. destruct (json_keys one JO _ I) as (b & B). cbn in B. subst a. cbn [py_eq] in Q. apply String.eqb_eq in Q. subst b.
      assert (Y : existsb (String.eqb k) (str_keys one) = true) by (apply existsb_exists; exists k; split; [apply in_str_keys, in_map_iff; exists (VStr k, v); auto|apply String.eqb_refl]). congruence.
  - intros k K. rewrite E1, E0. now apply G2.
  - intros i I. rewrite A2, B2. now apply G3.
Qed.
(** Forms within forms, for a document that merges the others *)
Lemma C45_nested_lem W fuel strict docs one mm sm dp id tags rs s t l tg es s0 :
  docs <> [] -> Forall (fun d => json_val (VDict d) = true) docs -> json_val (VDict one) = true -> in_force s tags tg -> nth_error (forms s) id = Some (t, l) -> direct_form t -> mapping_context s ->
  leaves (USource (map (json_doc strict) docs) mm sm dp) (all_docs strict docs) one UCapture ->
  (forall f, In f (ft_fields t) -> chosen tg f -> reads_alike (USource (map (json_doc strict) docs) mm sm dp) (all_docs strict docs) one f) ->
  let src := ASrc (SBase (BUnion (USource (map (json_doc strict) docs) mm sm dp))) in
  Form_map W (S (S fuel)) id src tags rs UIgnore Collect s = (Ok es, s0) ->
  exists s1, Form_map W (S (S fuel)) id src tags rs UCapture Collect s = (Ok es, s1) /\
    (forall k, dict_get (entries_at s1 id) (VStr k) =
       match dict_get (entries_at s0 id) (VStr k) with Some v => Some v | None => dict_get one (VStr k) end) /\
    (forall k, (forall a, k <> VStr a) -> dict_get (entries_at s1 id) k = dict_get (entries_at s0 id) k) /\
    (forall i, i <> id -> nth_error (forms s1) i = nth_error (forms s0) i).
Proof.
  intros NE JD JO IF N D C LV H src R.
  destruct (deep_lem W (S (S fuel)) strict docs one mm sm dp id tags rs UCapture Collect s t l tg NE JD JO LV IF N H) as (A1 & A2 & _ & _).
  destruct (deep_lem W (S (S fuel)) strict docs one mm sm dp id tags rs UIgnore Collect s t l tg NE JD JO (lv_ignored _ _ _ _ _ (or_introl eq_refl)) IF N H) as (B1 & B2 & _ & _).
  assert (ONE : forall k, In k (str_keys one) -> one_key (KStr k)).
  { inversion LV as [? ? ? [Q|Q]|? ? _ IT| |]; subst; try discriminate. inversion IT as [? ? ? ? ks (all & _ & _ & MO) _ _ V]; subst. intros k I. apply in_str_keys in I. rewrite MO in I. apply in_map_iff in I.
    destruct I as (a & [= ->] & I). specialize (V k I). inversion V; assumption. }
  fold src in A1, A2, B1, B2. rewrite R in B1, B2. cbn [fst snd] in B1, B2.
  destruct (Form_map W (S (S fuel)) id (ASrc (SBase (BPlain (json_doc strict one)))) tags rs UIgnore Collect s) as [r s0'] eqn:RD. cbn [fst snd] in B1, B2. subst r.
  destruct (C45_json_lem W fuel one strict None id t l tags rs s es s0' JO N D C RD) as (s1' & RC & G1 & G2 & G3).
  change (SJson (VDict one) strict None) with (json_doc strict one) in RC. rewrite RC in A1, A2. cbn [fst snd] in A1, A2.
  destruct (Form_map W (S (S fuel)) id src tags rs UCapture Collect s) as [r s1] eqn:RU. cbn [fst snd] in A1, A2. subst r. exists s1.
  assert (E1 : forall i, entries_at s1 i = entries_at s1' i) by (intros i; unfold entries_at; now rewrite A2). assert (E0 : forall i, entries_at s0 i = entries_at s0' i) by (intros i; unfold entries_at; now rewrite B2).
  assert (LK : lost_keys one (entries_at s0' id) = []).
  { unfold lost_keys. assert (X : forall k, In k (left_over one (entries_at s0' id)) -> at_key one k <> None).
    { intros k I. unfold left_over in I. apply filter_In in I. destruct I as [I _]. rewrite (at_key_one one k (ONE k I)). apply in_str_keys in I. clear -I. unfold dict_get.
      induction one as [|[a b] m IH]; [contradiction|]. cbn [map fst find] in *. destruct I as [->|I]; [cbn [py_eq]; now rewrite String.eqb_refl|]. destruct (py_eq a (VStr k)); [discriminate|auto]. }
    induction (left_over one (entries_at s0' id)) as [|k m IH]; [reflexivity|]. cbn [filter]. destruct (at_key one k) eqn:Q; [|exfalso; exact (X k (or_introl eq_refl) Q)]. apply IH. intros x I. apply X. now right. }
  rewrite LK in RU. cbn [map] in RU. split; [|split; [|split]].
  - rewrite LK. cbn [map]. destruct (missing_ignored s); now rewrite app_nil_r.
  - intros k. rewrite E1, E0, G1. destruct (dict_get (entries_at s0' id) (VStr k)); [reflexivity|]. destruct (existsb (String.eqb k) (str_keys one)) eqn:X.
    + apply existsb_exists in X. destruct X as (a & I & Q). apply String.eqb_eq in Q. subst a. now apply at_key_one, ONE.
    + destruct (get_keys one k) as [->|(a & v & I & Q & G)]; [reflexivity|]. exfalso. destruct (json_keys one JO _ I) as (b & B). cbn in B. subst a. cbn [py_eq] in Q. apply String.eqb_eq in Q. subst b.
      assert (Y : existsb (String.eqb k) (str_keys one) = true) by (apply existsb_exists; exists k; split; [apply in_str_keys, in_map_iff; exists (VStr k, v); auto|apply String.eqb_refl]). congruence.
  - intros k K. rewrite E1, E0. now apply G2.
  - intros i I. rewrite A2, B2. now apply G3.
Qed.
(** Python dicts *)
Lemma C45_native_union_lem W fuel P docs one mm sm dp id tags rs s t l tg es s0 :
  docs <> [] -> plain_native (w_env W) P -> sentinel_ok (w_env W) P -> Forall (fun d => P (VDict d)) docs -> P (VDict one) -> in_force s tags tg -> nth_error (forms s) id = Some (t, l) -> direct_form t -> mapping_context s ->
  leaves_with (native_read (w_env W)) (USource (map native_doc docs) mm sm dp) (all_native docs) one UCapture ->
  (forall f, In f (ft_fields t) -> chosen tg f -> reads_with (native_read (w_env W)) (USource (map native_doc docs) mm sm dp) (all_native docs) one f) ->
  let src := ASrc (SBase (BUnion (USource (map native_doc docs) mm sm dp))) in
  Form_map W (S (S fuel)) id src tags rs UIgnore Collect s = (Ok es, s0) ->
  exists s1, Form_map W (S (S fuel)) id src tags rs UCapture Collect s = (Ok es, s1) /\
    (forall k, dict_get (entries_at s1 id) (VStr k) =
       match dict_get (entries_at s0 id) (VStr k) with Some v => Some v | None => dict_get one (VStr k) end) /\
    (forall i, i <> id -> nth_error (forms s1) i = nth_error (forms s0) i).
Proof.
  intros NE PN SE JD JO IF N D C LV H src R.
  destruct (native_lem W (S (S fuel)) P docs one mm sm dp id tags rs UCapture Collect s t l tg NE PN SE JD JO LV IF N H) as (A1 & A2 & _ & _).
  destruct (native_lem W (S (S fuel)) P docs one mm sm dp id tags rs UIgnore Collect s t l tg NE PN SE JD JO (lv_ignored _ _ _ _ _ (or_introl eq_refl)) IF N H) as (B1 & B2 & _ & _).
  fold src in A1, A2, B1, B2. rewrite R in B1, B2. cbn [fst snd] in B1, B2.
  destruct (Form_map W (S (S fuel)) id (ASrc (SBase (BPlain (native_doc one)))) tags rs UIgnore Collect s) as [r s0'] eqn:RD. cbn [fst snd] in B1, B2. subst r.
  destruct (native_capture W fuel P one None id t l tags rs s es s0' PN JO N D C RD) as (s1' & RC & G1 & G3).
  change (SDefault (VDict one) [] [] None) with (native_doc one) in RC. rewrite RC in A1, A2. cbn [fst snd] in A1, A2.
  destruct (Form_map W (S (S fuel)) id src tags rs UCapture Collect s) as [r s1] eqn:RU. cbn [fst snd] in A1, A2. subst r. exists s1.
  assert (E1 : forall i, entries_at s1 i = entries_at s1' i) by (intros i; unfold entries_at; now rewrite A2). assert (E0 : forall i, entries_at s0 i = entries_at s0' i) by (intros i; unfold entries_at; now rewrite B2).
  split; [reflexivity|]. split; [intros k; now rewrite E1, E0|]. intros i I. rewrite A2, B2. now apply G3.
Qed.
