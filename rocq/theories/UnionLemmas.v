(** * UnionLemmas: the answers of a union by location. *)
From Verif Require Import PyBase PyStr Source Field Context Fields SpecSrc Eval SpecUnion UnionProofs.
From Coq Require Import Lia.
Open Scope Z_scope.

Lemma answers_app E u : forall os os' pos xs pos', answers E u os pos = Some (xs, pos') ->
  answers E u (os ++ os') pos = match answers E u os' pos' with Some (l, q) => Some (xs ++ l, q) | None => None end.
Proof.
  induction os as [|o os IH]; intros os' pos xs pos' A; cbn [answers app] in *.
  - injection A as <- <-. now destruct (answers E u os' pos) as [[? ?]|].
  - destruct (answer E u o pos) as [[x p1]|]; [|discriminate]. destruct (answers E u os p1) as [[l p2]|] eqn:A1; [|discriminate]. injection A as <- <-.
    rewrite (IH os' p1 l p2 A1). now destruct (answers E u os' p2) as [[? ?]|].
Qed.
Lemma below_snoc k : forall ks v, below v (ks ++ [k]) = match below v ks with Some w => below w [k] | None => None end.
Proof. induction ks as [|a ks IH]; intros v; cbn [app]; [reflexivity|]. cbn [below]. destruct v; try reflexivity. now destruct (dict_get l (val_of_key a)). Qed.
Lemma under_deeper k ks : forall c ms, shaped (fun _ => dict_of) (deeper c ks) = Some ms -> under k ms = deeper c (ks ++ [k]).
Proof.
  induction c as [|[s v] c IH]; intros ms H; unfold deeper in H; cbn [flat_map fst snd] in H; unfold deeper; cbn [flat_map fst snd].
  - injection H as <-. reflexivity.
  - rewrite below_snoc. fold (deeper c ks) in H. fold (deeper c (ks ++ [k])). destruct (below v ks) as [w|]; cbn [app] in *; [|exact (IH _ H)]. cbn [shaped] in H.
    destruct w; cbn [is_null dict_of below] in *; try discriminate; [exact (IH _ H)|].
    destruct (shaped (fun _ => dict_of) (deeper c ks)) as [ms'|]; [|discriminate]. injection H as <-. unfold under. cbn [flat_map fst snd]. fold (under k ms'). rewrite (IH _ eq_refl). now destruct (dict_get l (val_of_key k)).
Qed.
Lemma mappable_shaped c : mappable c -> exists ms, shaped (fun _ => dict_of) c = Some ms.
Proof.
  intros [_ F]. induction F as [|[s v] c H F [ms IH]]; cbn [shaped]; [eauto|]. cbn [snd] in H. destruct H as [->|[d ->]]; cbn [is_null dict_of]; rewrite IH; eauto.
Qed.
Lemma shaped_keys k : forall c ms, shaped (fun _ => dict_of) c = Some ms ->
  (py_in k (flat_map (fun sm => map fst (snd sm)) ms) = true <-> exists s d, In (s, VDict d) c /\ py_in k (map fst d) = true).
Proof.
  assert (A : forall a b, py_in k (a ++ b) = py_in k a || py_in k b) by (induction a as [|x a IH]; intros b; cbn [app py_in existsb]; [reflexivity|]; unfold py_in in *; cbn [existsb]; now rewrite IH, orb_assoc).
  induction c as [|[s v] c IH]; intros ms H; cbn [shaped] in H.
  - injection H as <-. split; [discriminate|]. intros (s & d & [] & _).
  - destruct v; cbn [is_null dict_of] in H; try discriminate.
    + rewrite (IH _ H). split; intros (s' & d & I & P); exists s', d; (split; [|exact P]); [now right|]. destruct I as [I|I]; [discriminate|exact I].
    + destruct (shaped (fun _ => dict_of) c) as [ms'|]; [|discriminate]. injection H as <-. cbn [flat_map snd fst]. rewrite A, orb_true_iff, (IH _ eq_refl). split.
      * intros [P|(s' & d & I & P)]; [exists s, l; split; [now left|exact P]|exists s', d; split; [now right|exact P]].
      * intros (s' & d & [I|I] & P); [injection I as <- <-; now left|right; eauto].
Qed.
Lemma deeper_nil c : deeper c [] = c.
Proof. unfold deeper. cbn [below]. induction c as [|[s v] c IH]; [reflexivity|]. cbn [flat_map fst snd app]. now rewrite IH. Qed.

(** The rule does not matter at these candidates *)
Definition opened {A} (o : option A) : res A := match o with Some a => Ok a | None => Exn (ESource NotMapping) end.
Lemma merge_opened m c : valid m -> merge_maps m c = opened (open_maps m c).
Proof. now destruct m. Qed.
Definition rule_free (u : usource) (c : list cand) : Prop := merge_maps (map_rule u c) c = opened (shaped (fun _ => dict_of) c).
Lemma combine_free u c : us_mapping u = MCombine -> us_depth u = None -> rule_free u c.
Proof. intros M D. unfold rule_free, map_rule, limited. now rewrite D, M. Qed.
Lemma single_free u c : valid (us_mapping u) -> (length c <= 1)%nat -> rule_free u c.
Proof.
  intros V L. unfold rule_free. pose proof (limited_valid (us_depth u) (length c) _ V) as VM. fold (map_rule u c) in VM. rewrite (merge_opened _ _ VM). f_equal. generalize (map_rule u c). intros m. destruct c as [|[s v] [|? ?]]; [| |cbn in L; lia]; [now destruct m|]. destruct m, v; reflexivity.
Qed.

Lemma answers_down E u c : forall ks ms above, shaped (fun _ => dict_of) c = Some ms -> (forall i, (S i <= length ks)%nat -> rule_free u (deeper c (firstn (S i) ks))) ->
  mappable_along c ks ->
  exists xs ms' ab, answers E u (down ks) (NMap ms :: above) = Some (xs, NMap ms' :: ab) /\ shaped (fun _ => dict_of) (deeper c ks) = Some ms' /\ no_err xs /\ length ab = (length ks + length above)%nat.
Proof.
  intros ks ms above SH. induction ks as [|k ks IH] using rev_ind; intros RF MA.
  - exists [], ms, above. split; [reflexivity|]. split; [now rewrite deeper_nil|]. split; [now intros e []|reflexivity].
  - destruct IH as (xs & ms' & ab & AN & S & NE & LA).
    { intros i Hi. specialize (RF i). rewrite app_length in RF. specialize (RF ltac:(lia)). rewrite firstn_app in RF. replace (S i - length ks)%nat with 0%nat in RF by lia. cbn [firstn] in RF. now rewrite app_nil_r in RF. }
    { intros i Hi. specialize (MA i). rewrite app_length in MA. specialize (MA ltac:(lia)). rewrite firstn_app in MA. replace (i - length ks)%nat with 0%nat in MA by lia. cbn [firstn] in MA. now rewrite app_nil_r in MA. }
    unfold down. rewrite flat_map_app. fold (down ks). rewrite (answers_app _ _ _ _ _ _ _ AN). cbn [flat_map app answers answer]. rewrite (under_deeper k ks c ms' S).
    pose proof (MA (length (ks ++ [k])) (le_n _)) as MP. rewrite firstn_all in MP. destruct (mappable_shaped _ MP) as [ms2 S2].
    pose proof (RF (length ks)) as R. rewrite app_length in R. cbn [length] in R. specialize (R ltac:(lia)). rewrite firstn_all2 in R by (rewrite app_length; cbn; lia). unfold rule_free in R.
    destruct (deeper c (ks ++ [k])) as [|sv c'] eqn:D; [now destruct MP|]. cbn [join]. rewrite R, S2. cbn [opened]. eexists _, ms2, _. split; [reflexivity|]. split; [reflexivity|]. split.
    + intros e I. apply in_app_or in I. destruct I as [I|[I|[I|[]]]]; [exact (NE e I)|discriminate|discriminate].
    + cbn [length]. rewrite LA, app_length. cbn. lia.
Qed.

Lemma same_err ys xs : Forall2 same_out ys xs -> no_err xs -> no_err ys.
Proof.
  intros F N e I. induction F as [|y x ys xs S F IH]; [exact I|]. destruct I as [->|I]; [inversion S; subst; exact (N e (or_introl eq_refl))|]. apply IH; [|exact I]. intros e' I'. exact (N e' (or_intror I')).
Qed.
Lemma last_of_run ys xs x : Forall2 same_out ys (xs ++ [x]) -> no_err xs -> exists y, ends_with ys y /\ same_out y x.
Proof.
  intros F N. destruct (Forall2_app_inv_r _ _ F) as (a & b & FA & FB & ->). inversion FB as [|y x' b' l S FN]; subst. inversion FN; subst. exists y. split; [|exact S]. exists a. split; [reflexivity|]. exact (same_err _ _ FA N).
Qed.
Lemma mappable_start u ks : mappable_along (roots u) ks -> exists ms, start u = Some [NMap ms] /\ shaped (fun _ => dict_of) (roots u) = Some ms.
Proof.
  intros MA. specialize (MA 0%nat ltac:(lia)). cbn [firstn] in MA. rewrite deeper_nil in MA. destruct (mappable_shaped _ MA) as [ms S]. exists ms. split; [|exact S].
  unfold start, roots in *. destruct (us_srcs u); [now destruct MA|]. now rewrite S.
Qed.
Lemma down_plain ks : Forall one_key ks -> Forall plain_op (down ks).
Proof. induction 1; cbn [down flat_map app]; repeat constructor; auto. Qed.

Lemma read_first_keys E t c : forall l, read_first E t c <> OKeys l.
Proof. intros l. destruct c as [|[s v] c]; cbn [read_first]; [discriminate|]. destruct (psource_parse E s t v); discriminate. Qed.

(** What a finished walk supports: the keys here, and one value below *)
Section Walk.
Context (E : env) (ents : entries_of) (u : usource).
Hypothesis PS : Forall (plain_src E) (us_srcs u).
Lemma walk_keys os xs ms above c ms0 : start u = Some [NMap ms0] -> Forall plain_op os -> answers E u os [NMap ms0] = Some (xs, NMap ms :: above) -> no_err xs ->
  shaped (fun _ => dict_of) c = Some ms ->
  exists p ys p' l, usource_path E ents u = Ok p /\ do_ops E ents (os ++ [Keys]) p = (ys, p') /\ ends_with ys (OKeys l) /\ keys_among l c.
Proof.
  intros ST PO AN NE SH. destruct (union_lem E ents u (os ++ [Keys]) [NMap ms0] (xs ++ [OKeys (flat_map (fun sm => map fst (snd sm)) ms)]) (NMap ms :: above) PS ST) as (p & ys & p' & UP & D & F).
  - apply Forall_app. split; [exact PO|]. now repeat constructor.
  - now rewrite (answers_app _ _ _ _ _ _ _ AN).
  - destruct (last_of_run _ _ _ F NE) as (y & EW & SO). inversion SO as [x N|a b P Q]; subst; [now destruct (N _ eq_refl)|]. exists p, ys, p', a. split; [exact UP|]. split; [exact D|]. split; [exact EW|].
    split; [exact Q|]. intros k. rewrite P. exact (shaped_keys k c ms SH).
Qed.
Lemma walk_read os xs ms above c k t ms0 : start u = Some [NMap ms0] -> Forall plain_op os -> one_key k -> answers E u os [NMap ms0] = Some (xs, NMap ms :: above) -> no_err xs ->
  under k ms = c ->
  exists p ys p', usource_path E ents u = Ok p /\ do_ops E ents (os ++ [Enter k; Prim t]) p = (ys, p') /\ ends_with ys (read_first E t c).
Proof.
  intros ST PO OK AN NE UN.
  assert (A : exists b pos, answers E u [Enter k; Prim t] (NMap ms :: above) = Some ([OBool b; read_first E t c], pos)).
  { cbn [answers answer]. rewrite UN. destruct c as [|[s v] c]; cbn [join read_first answers answer]; [eauto|]. destruct (psource_parse E s t v); cbn [out_of]; eauto. }
  destruct A as (b & pos & A).
  destruct (union_lem E ents u (os ++ [Enter k; Prim t]) [NMap ms0] (xs ++ [OBool b; read_first E t c]) pos PS ST) as (p & ys & p' & UP & D & F).
  - apply Forall_app. split; [exact PO|]. repeat constructor; auto.
  - now rewrite (answers_app _ _ _ _ _ _ _ AN), A.
  - change [OBool b; read_first E t c] with ([OBool b] ++ [read_first E t c]) in F. rewrite app_assoc in F. destruct (last_of_run _ _ _ F) as (y & EW & SO).
    { intros e I. apply in_app_or in I. destruct I as [I|[I|[]]]; [exact (NE e I)|discriminate]. }
    exists p, ys, p'. split; [exact UP|]. split; [exact D|]. revert SO. generalize (read_first_keys E t c). generalize (read_first E t c). intros x NK SO. destruct SO as [x N|a a' P Q]; [exact EW|]. now destruct (NK a').
Qed.
(** The sequence at a key, and one of its elements *)
Lemma walk_len os xs ms above c ss k ms0 : start u = Some [NMap ms0] -> Forall plain_op os -> one_key k -> answers E u os [NMap ms0] = Some (xs, NMap ms :: above) -> no_err xs ->
  under k ms = c -> c <> [] -> merge_seqs (seq_rule u (S (length above))) c = Ok ss ->
  (exists p ys p', usource_path E ents u = Ok p /\ do_ops E ents (os ++ [Enter k; Len]) p = (ys, p') /\ ends_with ys (OLen (length (concat_of ss)))) /\
  forall (i : nat) t, exists p ys p', usource_path E ents u = Ok p /\ do_ops E ents (os ++ [Enter k; Len; Enter (KInt (Z.of_nat i)); Prim t]) p = (ys, p') /\
    ends_with ys (read_first E t (match nth_error (concat_of ss) i with Some sv => [sv] | None => [] end)).
Proof.
  intros ST PO OK AN NE UN NN OS.
  assert (A : answers E u [Enter k; Len] (NMap ms :: above) = Some ([OBool true; OLen (length (concat_of ss))], NSeq ss :: NMap ms :: above)).
  { cbn [answers answer]. rewrite UN. destruct c as [|sv c]; [congruence|]. cbn [join answers answer length]. now rewrite OS. }
  split.
  - destruct (union_lem E ents u (os ++ [Enter k; Len]) [NMap ms0] (xs ++ [OBool true; OLen (length (concat_of ss))]) (NSeq ss :: NMap ms :: above) PS ST) as (p & ys & p' & UP & D & F).
    + apply Forall_app. split; [exact PO|]. repeat constructor; auto.
    + now rewrite (answers_app _ _ _ _ _ _ _ AN), A.
    + change [OBool true; OLen (length (concat_of ss))] with ([OBool true] ++ [OLen (length (concat_of ss))]) in F. rewrite app_assoc in F. destruct (last_of_run _ _ _ F) as (y & EW & SO).
      { intros e I. apply in_app_or in I. destruct I as [I|[I|[]]]; [exact (NE e I)|discriminate]. }
      exists p, ys, p'. split; [exact UP|]. split; [exact D|]. inversion SO; subst. exact EW.
  - intros i t. set (c' := match nth_error (concat_of ss) i with Some sv => [sv] | None => [] end).
    assert (B : exists b pos, answers E u [Enter (KInt (Z.of_nat i)); Prim t] (NSeq ss :: NMap ms :: above) = Some ([OBool b; read_first E t c'], pos)).
    { cbn [answers answer element]. rewrite Nat2Z.id. fold c'. destruct c' as [|[s v] c'']; cbn [join read_first answers answer]; [eauto|]. destruct (psource_parse E s t v); cbn [out_of]; eauto. }
    destruct B as (b & pos & B).
    destruct (union_lem E ents u (os ++ [Enter k; Len; Enter (KInt (Z.of_nat i)); Prim t]) [NMap ms0] (xs ++ [OBool true; OLen (length (concat_of ss)); OBool b; read_first E t c']) pos PS ST) as (p & ys & p' & UP & D & F).
    + apply Forall_app. split; [exact PO|]. repeat constructor; auto. cbn. lia.
    + rewrite (answers_app _ _ _ _ _ _ _ AN). change [Enter k; Len; Enter (KInt (Z.of_nat i)); Prim t] with ([Enter k; Len] ++ [Enter (KInt (Z.of_nat i)); Prim t]). now rewrite (answers_app _ _ _ _ _ _ _ A), B.
    + change [OBool true; OLen (length (concat_of ss)); OBool b; read_first E t c'] with ([OBool true; OLen (length (concat_of ss)); OBool b] ++ [read_first E t c']) in F. rewrite app_assoc in F. destruct (last_of_run _ _ _ F) as (y & EW & SO).
      { intros e I. apply in_app_or in I. destruct I as [I|[I|[I|[I|[]]]]]; [exact (NE e I)|discriminate|discriminate|discriminate]. }
      exists p, ys, p'. split; [exact UP|]. split; [exact D|]. revert SO. generalize (read_first_keys E t c'). generalize (read_first E t c'). intros x NK SO. destruct SO as [x N|a a' P Q]; [exact EW|]. now destruct (NK a').
Qed.
End Walk.

(** ** Combined mappings *)
Lemma C57_keys_lem E ents u ks : Forall (plain_src E) (us_srcs u) -> us_mapping u = MCombine -> us_depth u = None ->
  Forall one_key ks -> mappable_along (roots u) ks ->
  exists p ys p' l, usource_path E ents u = Ok p /\ do_ops E ents (down ks ++ [Keys]) p = (ys, p') /\ ends_with ys (OKeys l) /\ keys_among l (values_at u ks).
Proof.
  intros PS M D OK MA. destruct (mappable_start u ks MA) as (ms & ST & SH). destruct (answers_down E u (roots u) ks ms [] SH (fun i _ => combine_free u _ M D) MA) as (xs & ms' & ab & AN & SH' & NE & _).
  exact (walk_keys E ents u PS (down ks) xs ms' ab _ ms ST (down_plain ks OK) AN NE SH').
Qed.
Lemma C57_read_lem E ents u ks k t : Forall (plain_src E) (us_srcs u) -> us_mapping u = MCombine -> us_depth u = None ->
  Forall one_key ks -> one_key k -> mappable_along (roots u) ks ->
  exists p ys p', usource_path E ents u = Ok p /\ do_ops E ents (down ks ++ [Enter k; Prim t]) p = (ys, p') /\ ends_with ys (read_first E t (values_at u (ks ++ [k]))).
Proof.
  intros PS M D OK K MA. destruct (mappable_start u ks MA) as (ms & ST & SH). destruct (answers_down E u (roots u) ks ms [] SH (fun i _ => combine_free u _ M D) MA) as (xs & ms' & ab & AN & SH' & NE & _).
  exact (walk_read E ents u PS (down ks) xs ms' ab _ k t ms ST (down_plain ks OK) K AN NE (under_deeper k ks _ _ SH')).
Qed.

(** ** One mapping chosen at the first key *)
Lemma single_deeper sv ks : (length (deeper [sv] ks) <= 1)%nat.
Proof. destruct sv as [s v]. unfold deeper. cbn [flat_map fst snd]. destruct (below v ks); cbn; lia. Qed.
Definition chooses (u : usource) (k : key) (sv : cand) : Prop :=
  values_at u [k] <> [] /\ valid (us_mapping u) /\ open_maps (map_rule u (values_at u [k])) (values_at u [k]) = shaped (fun _ => dict_of) [sv].
Lemma chosen_walk E u k sv ks : mappable (roots u) -> chooses u k sv -> mappable_along [sv] ks ->
  exists ms0 xs ms' ab, start u = Some [NMap ms0] /\ answers E u (down (k :: ks)) [NMap ms0] = Some (xs, NMap ms' :: ab) /\ shaped (fun _ => dict_of) (deeper [sv] ks) = Some ms' /\ no_err xs.
Proof.
  intros MR (NN & VM & CH) MA. pose proof (merge_opened _ (values_at u [k]) (limited_valid (us_depth u) (length (values_at u [k])) _ VM)) as MO. fold (map_rule u (values_at u [k])) in MO. assert (MA0 : mappable_along (roots u) []) by (intros [|i] Hi; [cbn [firstn]; now rewrite deeper_nil|cbn in Hi; lia]).
  destruct (mappable_start u [] MA0) as (ms & ST & SH). pose proof (MA 0%nat ltac:(lia)) as M0. cbn [firstn] in M0. rewrite deeper_nil in M0. destruct (mappable_shaped _ M0) as [ms1 S1].
  assert (UN : under k ms = values_at u [k]) by (apply (under_deeper k [] (roots u)); now rewrite deeper_nil).
  destruct (answers_down E u [sv] ks ms1 [NMap ms] S1 (fun i _ => single_free u _ VM (single_deeper _ _)) MA) as (xs & ms' & ab & AN & SH' & NE & _).
  assert (A0 : answers E u [Enter k; Keys] [NMap ms] = Some ([OBool true; OKeys (flat_map (fun sm => map fst (snd sm)) ms1)], [NMap ms1; NMap ms])).
  { cbn [answers answer]. rewrite UN. destruct (values_at u [k]) as [|sv' c]; [congruence|]. cbn [join answers answer]. now rewrite MO, CH, S1. }
  exists ms. eexists _, ms', ab. split; [exact ST|]. split; [change (down (k :: ks)) with ([Enter k; Keys] ++ down ks); rewrite (answers_app _ _ _ _ _ _ _ A0), AN; reflexivity|]. split; [exact SH'|].
  intros e I. apply in_app_or in I. destruct I as [[I|[I|[]]]|I]; [discriminate|discriminate|exact (NE e I)].
Qed.
Lemma chosen_lem E ents u k sv ks : Forall (plain_src E) (us_srcs u) ->
  Forall one_key (k :: ks) -> mappable (roots u) -> chooses u k sv -> mappable_along [sv] ks ->
  (exists p ys p' l, usource_path E ents u = Ok p /\ do_ops E ents (down (k :: ks) ++ [Keys]) p = (ys, p') /\ ends_with ys (OKeys l) /\ keys_among l (deeper [sv] ks)) /\
  forall k' t, one_key k' -> exists p ys p', usource_path E ents u = Ok p /\ do_ops E ents (down (k :: ks) ++ [Enter k'; Prim t]) p = (ys, p') /\ ends_with ys (read_first E t (deeper [sv] (ks ++ [k']))).
Proof.
  intros PS OK MR CH MA. destruct (chosen_walk E u k sv ks MR CH MA) as (ms & xs & ms' & ab & ST & AN & SH & NE). split.
  - exact (walk_keys E ents u PS _ xs ms' ab _ ms ST (down_plain _ OK) AN NE SH).
  - intros k' t K'. exact (walk_read E ents u PS _ xs ms' ab _ k' t ms ST (down_plain _ OK) K' AN NE (under_deeper k' ks _ _ SH)).
Qed.
Lemma chooses_first u k sv rest : us_mapping u = MFirst -> values_at u [k] = sv :: rest -> chooses u k sv.
Proof.
  intros M Q. split; [now rewrite Q|]. split; [now rewrite M|]. assert (R : map_rule u (values_at u [k]) = MFirst) by (unfold map_rule, limited; rewrite M; destruct (us_depth u) as [d|]; [now destruct (d <=? _)|reflexivity]).
  rewrite R, Q. reflexivity.
Qed.
Lemma shaped_app {A} (f : psource -> val -> option A) : forall a b la lb, shaped f a = Some la -> shaped f b = Some lb -> shaped f (a ++ b) = Some (la ++ lb).
Proof.
  induction a as [|[s v] a IH]; intros b la lb HA HB; cbn [app shaped] in *; [injection HA as <-; exact HB|]. destruct (is_null v); [exact (IH _ _ _ HA HB)|]. destruct (f s v) as [x|]; [|discriminate].
  destruct (shaped f a) as [l|]; [|discriminate]. injection HA as <-. now rewrite (IH _ _ _ eq_refl HB).
Qed.
Lemma shaped_null {A} (f : psource -> val -> option A) c : Forall (fun sv => snd sv = VNone) c -> shaped f c = Some [].
Proof. induction 1 as [|[s v] c H F IH]; [reflexivity|]. cbn [snd] in H. subst v. exact IH. Qed.
Lemma chooses_last u k pre s d post : us_mapping u = MLast -> us_depth u = None -> values_at u [k] = pre ++ (s, VDict d) :: post ->
  Forall (fun sv => snd sv = VNone \/ exists d, snd sv = VDict d) pre -> Forall (fun sv => snd sv = VNone) post -> chooses u k (s, VDict d).
Proof.
  intros M D Q FP FN. split; [rewrite Q; now destruct pre|]. split; [now rewrite M|]. unfold map_rule, limited. rewrite D, M, Q.
  assert (SP : exists lp, shaped (fun _ => dict_of) pre = Some lp).
  { clear -FP. induction FP as [|[s v] c H F [ms IH]]; cbn [shaped]; [eauto|]. cbn [snd] in H. destruct H as [->|[d ->]]; cbn [is_null dict_of]; rewrite IH; eauto. }
  destruct SP as [lp SP]. unfold open_maps. rewrite (shaped_app _ pre ((s, VDict d) :: post) lp [(s, d)] SP) by (cbn [shaped is_null dict_of]; now rewrite (shaped_null _ _ FN)).
  cbn [option_map shaped is_null dict_of]. unfold last_of. now rewrite rev_app_distr.
Qed.
Lemma C58_first_lem E ents u k s v rest ks : Forall (plain_src E) (us_srcs u) -> us_mapping u = MFirst ->
  Forall one_key (k :: ks) -> mappable (roots u) -> values_at u [k] = (s, v) :: rest -> mappable_along [(s, v)] ks ->
  (exists p ys p' l, usource_path E ents u = Ok p /\ do_ops E ents (down (k :: ks) ++ [Keys]) p = (ys, p') /\ ends_with ys (OKeys l) /\ keys_among l (deeper [(s, v)] ks)) /\
  forall k' t, one_key k' -> exists p ys p', usource_path E ents u = Ok p /\ do_ops E ents (down (k :: ks) ++ [Enter k'; Prim t]) p = (ys, p') /\ ends_with ys (read_first E t (deeper [(s, v)] (ks ++ [k']))).
Proof. intros PS M OK MR Q MA. apply chosen_lem; auto. exact (chooses_first u k _ rest M Q). Qed.
Lemma C58_last_lem E ents u k pre s d post ks : Forall (plain_src E) (us_srcs u) -> us_mapping u = MLast -> us_depth u = None ->
  Forall one_key (k :: ks) -> mappable (roots u) -> values_at u [k] = pre ++ (s, VDict d) :: post ->
  Forall (fun sv => snd sv = VNone \/ exists d, snd sv = VDict d) pre -> Forall (fun sv => snd sv = VNone) post -> mappable_along [(s, VDict d)] ks ->
  (exists p ys p' l, usource_path E ents u = Ok p /\ do_ops E ents (down (k :: ks) ++ [Keys]) p = (ys, p') /\ ends_with ys (OKeys l) /\ keys_among l (deeper [(s, VDict d)] ks)) /\
  forall k' t, one_key k' -> exists p ys p', usource_path E ents u = Ok p /\ do_ops E ents (down (k :: ks) ++ [Enter k'; Prim t]) p = (ys, p') /\ ends_with ys (read_first E t (deeper [(s, VDict d)] (ks ++ [k']))).
Proof. intros PS M D OK MR Q FP FN MA. apply chosen_lem; auto. exact (chooses_last u k pre s d post M D Q FP FN). Qed.

(** ** Sequences *)
Lemma seqs_opened m c ss : valid m -> open_seqs m c = Some ss -> merge_seqs m c = Ok ss.
Proof. intros V H. destruct m; [| | |destruct V]; cbn [merge_seqs]; now rewrite H. Qed.
Lemma C59_lem E ents u ks k ss : Forall (plain_src E) (us_srcs u) -> us_mapping u = MCombine -> us_depth u = None -> valid (us_sequence u) ->
  Forall one_key ks -> one_key k -> mappable_along (roots u) ks -> values_at u (ks ++ [k]) <> [] -> open_seqs (us_sequence u) (values_at u (ks ++ [k])) = Some ss ->
  (exists p ys p', usource_path E ents u = Ok p /\ do_ops E ents (down ks ++ [Enter k; Len]) p = (ys, p') /\ ends_with ys (OLen (length (concat_of ss)))) /\
  forall (i : nat) t, exists p ys p', usource_path E ents u = Ok p /\ do_ops E ents (down ks ++ [Enter k; Len; Enter (KInt (Z.of_nat i)); Prim t]) p = (ys, p') /\
    ends_with ys (read_first E t (match nth_error (concat_of ss) i with Some sv => [sv] | None => [] end)).
Proof.
  intros PS M D V OK K MA NN OS. destruct (mappable_start u ks MA) as (ms & ST & SH). destruct (answers_down E u (roots u) ks ms [] SH (fun i _ => combine_free u _ M D) MA) as (xs & ms' & ab & AN & SH' & NE & _).
  refine (walk_len E ents u PS (down ks) xs ms' ab _ ss k ms ST (down_plain ks OK) K AN NE (under_deeper k ks _ _ SH') NN _). unfold seq_rule, limited. rewrite D. exact (seqs_opened _ _ _ V OS).
Qed.
(** Below [merge_depth] keys the sequences are merged, from there on the first is taken. *)
Lemma few_free u c d : us_mapping u = MCombine -> us_depth u = Some d -> Z.of_nat (length c) < d \/ (length c <= 1)%nat -> rule_free u c.
Proof.
  intros M D [L|L]; [|apply single_free; [now rewrite M|exact L]]. unfold rule_free, map_rule, limited. rewrite D, M. destruct (Z.leb_spec d (Z.of_nat (length c))); [lia|reflexivity].
Qed.
Lemma C60_lem E ents u d ks k ss : Forall (plain_src E) (us_srcs u) -> us_mapping u = MCombine -> us_depth u = Some d -> valid (us_sequence u) ->
  Forall one_key ks -> one_key k -> mappable_along (roots u) ks -> values_at u (ks ++ [k]) <> [] ->
  (forall i, (S i <= length ks)%nat -> Z.of_nat (length (values_at u (firstn (S i) ks))) < d \/ (length (values_at u (firstn (S i) ks)) <= 1)%nat) ->
  open_seqs (if Z.of_nat (length (ks ++ [k])) <? d then us_sequence u else MFirst) (values_at u (ks ++ [k])) = Some ss ->
  (exists p ys p', usource_path E ents u = Ok p /\ do_ops E ents (down ks ++ [Enter k; Len]) p = (ys, p') /\ ends_with ys (OLen (length (concat_of ss)))) /\
  forall (i : nat) t, exists p ys p', usource_path E ents u = Ok p /\ do_ops E ents (down ks ++ [Enter k; Len; Enter (KInt (Z.of_nat i)); Prim t]) p = (ys, p') /\
    ends_with ys (read_first E t (match nth_error (concat_of ss) i with Some sv => [sv] | None => [] end)).
Proof.
  intros PS M D V OK K MA NN FW OS. destruct (mappable_start u ks MA) as (ms & ST & SH).
  destruct (answers_down E u (roots u) ks ms [] SH (fun i Hi => few_free u _ d M D (FW i Hi)) MA) as (xs & ms' & ab & AN & SH' & NE & LA).
  refine (walk_len E ents u PS (down ks) xs ms' ab _ ss k ms ST (down_plain ks OK) K AN NE (under_deeper k ks _ _ SH') NN _). unfold seq_rule, limited. rewrite D, LA.
  rewrite app_length in OS. cbn [length] in *. replace (S (length ks + 0)) with (length ks + 1)%nat by lia. destruct (Z.leb_spec d (Z.of_nat (length ks + 1))); destruct (Z.ltb_spec (Z.of_nat (length ks + 1)) d); try lia; apply seqs_opened; auto; exact I.
Qed.

(** ** [merge_depth] and mappings *)
Lemma open_cut u d c : us_mapping u = MCombine -> us_depth u = Some d -> merge_maps (map_rule u c) c = opened (shaped (fun _ => dict_of) (cut d c)).
Proof.
  intros M D. unfold map_rule, limited, cut. rewrite D, M. destruct (Z.leb_spec d (Z.of_nat (length c))); destruct (Z.ltb_spec (Z.of_nat (length c)) d); try lia; reflexivity.
Qed.
Lemma answers_seen E u d : us_mapping u = MCombine -> us_depth u = Some d ->
  forall ks c ms above, shaped (fun _ => dict_of) c = Some ms -> mappable_seen d c ks ->
  exists xs ms' ab, answers E u (down ks) (NMap ms :: above) = Some (xs, NMap ms' :: ab) /\ shaped (fun _ => dict_of) (seen d c ks) = Some ms' /\ no_err xs.
Proof.
  intros M D. induction ks as [|k ks IH]; intros c ms above SH MA.
  - exists [], ms, above. split; [reflexivity|]. split; [exact SH|]. now intros e [].
  - pose proof (MA 1%nat ltac:(cbn; lia)) as M1. cbn [firstn seen] in M1. destruct (mappable_shaped _ M1) as [ms1 S1].
    assert (UN : under k ms = deeper c [k]) by (apply (under_deeper k []); now rewrite deeper_nil).
    destruct (IH (cut d (deeper c [k])) ms1 (NMap ms :: above) S1) as (xs & ms' & ab & AN & SH' & NE).
    { intros i Hi. exact (MA (S i) ltac:(cbn; lia)). }
    assert (A0 : answers E u [Enter k; Keys] (NMap ms :: above) = Some ([OBool true; OKeys (flat_map (fun sm => map fst (snd sm)) ms1)], NMap ms1 :: NMap ms :: above)).
    { cbn [answers answer]. rewrite UN. destruct (deeper c [k]) as [|sv c'] eqn:Q; [|cbn [join answers answer]; now rewrite (open_cut u d _ M D), S1].
      exfalso. destruct M1 as [N _]. apply N. unfold cut. now destruct (_ <? d). }
    eexists _, ms', ab. split; [change (down (k :: ks)) with ([Enter k; Keys] ++ down ks); rewrite (answers_app _ _ _ _ _ _ _ A0), AN; reflexivity|]. split; [exact SH'|].
    intros e I. apply in_app_or in I. destruct I as [[I|[I|[]]]|I]; [discriminate|discriminate|exact (NE e I)].
Qed.
Lemma seen_snoc d k : forall ks c, seen d c (ks ++ [k]) = cut d (deeper (seen d c ks) [k]).
Proof. induction ks as [|a ks IH]; intros c; cbn [app seen]; [reflexivity|]. apply IH. Qed.
Lemma read_cut E t d c : read_first E t (cut d c) = read_first E t c.
Proof. unfold cut. destruct (_ <? d); [reflexivity|]. destruct c as [|[s v] c]; reflexivity. Qed.
Lemma C60_seen_lem E ents u d ks : Forall (plain_src E) (us_srcs u) -> us_mapping u = MCombine -> us_depth u = Some d ->
  Forall one_key ks -> mappable_seen d (roots u) ks ->
  (exists p ys p' l, usource_path E ents u = Ok p /\ do_ops E ents (down ks ++ [Keys]) p = (ys, p') /\ ends_with ys (OKeys l) /\ keys_among l (seen d (roots u) ks)) /\
  forall k t, one_key k -> exists p ys p', usource_path E ents u = Ok p /\ do_ops E ents (down ks ++ [Enter k; Prim t]) p = (ys, p') /\ ends_with ys (read_first E t (seen d (roots u) (ks ++ [k]))).
Proof.
  intros PS M D OK MA. assert (MA0 : mappable_along (roots u) []).
  { intros [|i] Hi; [|cbn in Hi; lia]. pose proof (MA 0%nat ltac:(lia)) as M0. cbn [firstn seen] in *. now rewrite deeper_nil. }
  destruct (mappable_start u [] MA0) as (ms & ST & SH). destruct (answers_seen E u d M D ks (roots u) ms [] SH MA) as (xs & ms' & ab & AN & SH' & NE). split.
  - exact (walk_keys E ents u PS (down ks) xs ms' ab _ ms ST (down_plain ks OK) AN NE SH').
  - intros k t K. rewrite seen_snoc, read_cut. refine (walk_read E ents u PS (down ks) xs ms' ab _ k t ms ST (down_plain ks OK) K AN NE _).
    apply (under_deeper k [] (seen d (roots u) ks)). now rewrite deeper_nil.
Qed.

(** ** Invalid strategies *)
Lemma C58_invalid_lem E ents u k b : Forall (plain_src E) (us_srcs u) -> us_mapping u = MBad b -> us_depth u = None ->
  one_key k -> mappable (roots u) -> values_at u [k] <> [] ->
  exists p ys p' t, usource_path E ents u = Ok p /\ do_ops E ents [Enter k; Keys] p = (ys, p') /\ ends_with ys (OErr (EValue t)).
Proof.
  intros PS M D K MR NN. assert (MA0 : mappable_along (roots u) []) by (intros [|i] Hi; [cbn [firstn]; now rewrite deeper_nil|cbn in Hi; lia]).
  destruct (mappable_start u [] MA0) as (ms & ST & SH). assert (UN : under k ms = values_at u [k]) by (apply (under_deeper k [] (roots u)); now rewrite deeper_nil).
  assert (A : exists pos, answers E u [Enter k; Keys] [NMap ms] = Some ([OBool true] ++ [OErr (EValue "merge invalid")], pos)).
  { cbn [answers answer]. rewrite UN. destruct (values_at u [k]) as [|sv c]; [congruence|]. cbn [join answers answer]. unfold map_rule, limited. rewrite D, M. cbn [merge_maps]. eauto. }
  destruct A as [pos A]. destruct (union_lem E ents u [Enter k; Keys] [NMap ms] _ pos PS ST ltac:(repeat constructor; auto) A) as (p & ys & p' & UP & DO & F).
  destruct (last_of_run _ _ _ F) as (y & EW & SO); [intros e [I|[]]; discriminate|]. exists p, ys, p'. inversion SO; subst. eauto.
Qed.
Lemma lone_spec : forall c ss x, shaped seq_of c = Some x -> (length ss <= 1)%nat ->
  lone c ss = match ss ++ x with _ :: _ :: _ => Exn EIndex | l => Ok l end.
Proof.
  induction c as [|[s v] c IH]; intros ss x H L; cbn [shaped lone] in *.
  - injection H as <-. rewrite app_nil_r. destruct ss as [|a [|b ss]]; [reflexivity|reflexivity|cbn in L; lia].
  - destruct (is_null v); [now apply IH|]. destruct (seq_of s v) as [l|]; [|discriminate]. destruct (shaped seq_of c) as [y|]; [|discriminate]. injection H as <-.
    destruct ss as [|a ss]; [|cbn in L; destruct ss; [reflexivity|cbn in L; lia]]. rewrite (IH [(s, l)] y eq_refl) by (cbn; lia). reflexivity.
Qed.
Lemma C59_invalid_lem E ents u ks k b ss : Forall (plain_src E) (us_srcs u) -> us_mapping u = MCombine -> us_sequence u = MBad b -> us_depth u = None ->
  Forall one_key ks -> one_key k -> mappable_along (roots u) ks -> values_at u (ks ++ [k]) <> [] -> shaped seq_of (values_at u (ks ++ [k])) = Some ss ->
  exists p ys p', usource_path E ents u = Ok p /\ do_ops E ents (down ks ++ [Enter k; Len]) p = (ys, p') /\
    ends_with ys (if (length ss <=? 1)%nat then OLen (length (concat_of ss)) else OErr EIndex).
Proof.
  intros PS M Q D OK K MA NN SS. destruct (mappable_start u ks MA) as (ms & ST & SH). destruct (answers_down E u (roots u) ks ms [] SH (fun i _ => combine_free u _ M D) MA) as (xs & ms' & ab & AN & SH' & NE & _).
  pose proof (under_deeper k ks _ _ SH') as UN. fold (values_at u (ks ++ [k])) in UN. set (o := if (length ss <=? 1)%nat then OLen (length (concat_of ss)) else OErr EIndex).
  assert (A : exists pos, answers E u [Enter k; Len] (NMap ms' :: ab) = Some ([OBool true; o], pos)).
  { cbn [answers answer]. rewrite UN. destruct (values_at u (ks ++ [k])) as [|sv c]; [congruence|]. cbn [join answers answer]. unfold seq_rule, limited. rewrite D, Q. cbn [merge_seqs].
    rewrite (lone_spec _ [] ss SS) by (cbn; lia). cbn [app]. destruct ss as [|x [|y ss]]; eauto. }
  destruct A as [pos A]. destruct (union_lem E ents u (down ks ++ [Enter k; Len]) [NMap ms] (xs ++ [OBool true; o]) pos PS ST) as (p & ys & p' & UP & DO & F).
  - apply Forall_app. split; [exact (down_plain ks OK)|]. repeat constructor; auto.
  - now rewrite (answers_app _ _ _ _ _ _ _ AN), A.
  - change [OBool true; o] with ([OBool true] ++ [o]) in F. rewrite app_assoc in F. destruct (last_of_run _ _ _ F) as (y & EW & SO).
    { intros e I. apply in_app_or in I. destruct I as [I|[I|[]]]; [exact (NE e I)|discriminate]. }
    exists p, ys, p'. split; [exact UP|]. split; [exact DO|]. assert (NK : forall l, o <> OKeys l) by (intros l; unfold o; destruct (length ss <=? 1)%nat; discriminate). revert SO NK. fold o. generalize o. intros x SO NK. destruct SO as [x N|a a' P R]; [exact EW|now destruct (NK a')].
Qed.
