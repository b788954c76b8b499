(** * ReadMore: C46 for configurations and for polymorphic sub-forms. *)
From Verif Require Import PyBase PyStr Source Field Context Fields SpecSrc SrcPath SrcProofs Shape Balance Eval Refine Regime CfgRegime SpecForm SpecJson SpecMount FormProofs MountProofs ReadProofs.
From Coq Require Import Lia.

(** ** Sections *)
Lemma alookup_only s opts l : only s opts l -> alookup opts (lower s) = alookup l (lower s).
Proof.
  induction 1 as [|o v l l' C _ IH|o v l l' C _ IH]; [reflexivity| |].
  - unfold alookup in *. cbn [find fst] in *. now destruct (String.eqb o (lower s)).
  - unfold alookup in *. cbn [find fst] in *. destruct (String.eqb_spec o (lower s)) as [->|]; [destruct C; now left|exact IH].
Qed.
Lemma table_only s opts l : only s opts l -> forall acc acc', dict_get acc (VStr s) = dict_get acc' (VStr s) ->
  dict_get (fold_left add_sub opts acc) (VStr s) = dict_get (fold_left add_sub l acc') (VStr s).
Proof.
  induction 1 as [|o v l l' C _ IH|o v l l' C _ IH]; intros acc acc' A; cbn [fold_left]; [exact A| |]; apply IH; unfold add_sub; cbn [fst snd].
  - destruct (sub_option o) as [[n k]|]; [|exact A]. rewrite !dict_get_set. cbn [py_eq].
    destruct (String.eqb_spec n s) as [->|]; [|exact A]. now rewrite A.
  - destruct (sub_option o) as [[n k]|] eqn:SO; [|exact A]. apply sub_option_iff in SO. rewrite dict_get_set. cbn [py_eq].
    destruct (String.eqb_spec n s) as [->|]; [|exact A]. destruct C. right. eauto.
Qed.
Lemma section_same opts d opts' d' k : same_section opts d opts' d' k ->
  or_NONE (section_getitem opts d k) = or_NONE (section_getitem opts' d' k).
Proof.
  intros (s & l & -> & O & O' & D). unfold section_getitem.
  assert (T : forall o, only s o l -> dict_get (sub_mappings o) (VStr s) = dict_get (sub_mappings l) (VStr s)).
  { intros o X. exact (table_only s o l X [] [] eq_refl). }
  rewrite (T _ O), (T _ O'), (alookup_only _ _ _ O), (alookup_only _ _ _ O'). destruct (dict_get (sub_mappings l) (VStr s)); [reflexivity|].
  destruct (alookup l (lower s)); [reflexivity|]. unfold default_at in D.
  destruct d, d'; try reflexivity; try (rewrite <- D; reflexivity); try (rewrite D; reflexivity); try (now destruct (dict_get _ _)).
Qed.
Lemma sections_same cfg l cfg' l' k : same_sections cfg (VDict l) cfg' (VDict l') k -> cfgroot_getitem cfg (VDict l) k = cfgroot_getitem cfg' (VDict l') k.
Proof. intros (s & -> & A & D). cbn [default_at] in D. unfold cfgroot_getitem. now rewrite A, D. Qed.

Lemma config_apart W cfg sec d cfg' d' loc o m : config_given cfg sec d -> config_given cfg' sec d' ->
  apart W (same_config cfg sec d cfg' d') (r_start o (SConfig cfg sec d loc) m (config_start cfg sec d)) (r_start o (SConfig cfg' sec d' loc) m (config_start cfg' sec d')).
Proof.
  intros [J G] [J' G']. split.
  - split; try reflexivity. split; reflexivity.
  - intros k SK. unfold r_child. cbn [r_start r_val r_src psource_resolve]. unfold config_resolve, config_start. destruct sec as [s|].
    + cbn [py_getitem]. exact (section_same _ _ _ _ _ SK).
    + destruct G as (l & ->). destruct G' as (l' & ->). cbn [py_getitem]. now rewrite (sections_same _ _ _ _ _ SK).
  - unfold config_start. destruct sec; eexists _, _; repeat split; reflexivity.
  - unfold config_start. destruct sec as [s|]; split; eexists; intros st; reflexivity.
Qed.

Lemma C46_config_lem W fuel cfg sec d cfg' d' loc id t l tags tg rs u m s :
  config_given cfg sec d -> config_given cfg' sec d' -> nth_error (forms s) id = Some (t, l) -> direct_form t -> ignoring u -> mapping_context s ->
  in_force s tags tg -> (forall f, In f (ft_fields t) -> chosen tg f -> reads_within (same_config cfg sec d cfg' d') f) ->
  let x := Form_map W fuel id (ASrc (SBase (BPlain (SConfig cfg sec d loc)))) tags rs u m s in
  let y := Form_map W fuel id (ASrc (SBase (BPlain (SConfig cfg' sec d' loc)))) tags rs u m s in
  fst x = fst y /\ forms (snd x) = forms (snd y).
Proof.
  intros J J' NT D U C IF RW. cbv zeta. assert (Du : direct_unm u) by (destruct U as [-> | ->]; constructor).
  pose proof (C30_config_lem W fuel cfg sec d loc id t l tags rs u m s J NT D Du C) as [X _].
  pose proof (C30_config_lem W fuel cfg' sec d' loc id t l tags rs u m s J' NT D Du C) as [Y _]. cbv zeta in X, Y.
  rewrite (apart_map W (same_config cfg sec d cfg' d') False fuel (outer_of s) (SConfig cfg sec d loc) (SConfig cfg' sec d' loc)
    (config_start cfg sec d) (config_start cfg' sec d') id t l tags rs u m (forms s) NT (form_poly False t D) U) in X.
  - rewrite <- Y in X. injection X as X1 X2. auto.
  - now rewrite (outer_tags s tags tg IF).
  - intros m0. now apply config_apart.
Qed.

(** ** Polymorphic sub-forms *)
Lemma C46_poly_json_lem W P fuel items items' strict loc id t l tags tg rs u m s :
  plain_native (w_env W) P -> P (VDict items) -> P (VDict items') -> json_val (VDict items) = true -> json_val (VDict items') = true ->
  (forall c ty, w_class W c = Some ty -> pdirect_form True ty) ->
  nth_error (forms s) id = Some (t, l) -> pdirect_form True t -> ignoring u -> mapping_context s -> in_force s tags tg ->
  (forall f, In f (ft_fields t) -> chosen tg f -> reads_within (same_json (VDict items) (VDict items')) f) ->
  fst (ev_map W fuel (outer_of s) (SJson (VDict items) strict loc) (VDict items) id tags rs u m (forms s)) <> Exn unevaluated ->
  let x := Form_map W fuel id (ASrc (SBase (BPlain (SJson (VDict items) strict loc)))) tags rs u m s in
  let y := Form_map W fuel id (ASrc (SBase (BPlain (SJson (VDict items') strict loc)))) tags rs u m s in
  fst x = fst y /\ forms (snd x) = forms (snd y).
Proof.
  intros PN Pd Pd' J J' CL NT D U C IF RW NU. cbv zeta. assert (Du : pdirect_unm True u) by (destruct U as [-> | ->]; constructor).
  assert (Q : ev_map W fuel (outer_of s) (SJson (VDict items) strict loc) (VDict items) id tags rs u m (forms s) =
    ev_map W fuel (outer_of s) (SJson (VDict items') strict loc) (VDict items') id tags rs u m (forms s)).
  { apply (apart_map W (same_json (VDict items) (VDict items')) True fuel (outer_of s) _ _ _ _ id t l tags rs u m (forms s) NT D U).
    - now rewrite (outer_tags s tags tg IF).
    - intros m0. now apply json_apart. }
  destruct (C30_poly_json_lem W fuel P _ strict loc id t l tags rs u m s PN Pd J CL NT D Du C NU) as [X _].
  rewrite Q in NU, X. destruct (C30_poly_json_lem W fuel P _ strict loc id t l tags rs u m s PN Pd' J' CL NT D Du C NU) as [Y _].
  rewrite <- Y in X. injection X as X1 X2. auto.
Qed.
Lemma C46_poly_native_lem W P fuel items items' id t l tags tg rs u m s :
  plain_native (w_env W) P -> P (VDict items) -> P (VDict items') ->
  (forall c ty, w_class W c = Some ty -> pdirect_form True ty) ->
  nth_error (forms s) id = Some (t, l) -> pdirect_form True t -> ignoring u -> mapping_context s -> in_force s tags tg ->
  (forall f, In f (ft_fields t) -> chosen tg f -> reads_within (same_native (w_env W) (VDict items) (VDict items')) f) ->
  fst (ev_map W fuel (outer_of s) (SDefault (VDict items) [] [] None) (VDict items) id tags rs u m (forms s)) <> Exn unevaluated ->
  let x := Form_map W fuel id (AVal (VDict items)) tags rs u m s in
  let y := Form_map W fuel id (AVal (VDict items')) tags rs u m s in
  fst x = fst y /\ forms (snd x) = forms (snd y).
Proof.
  intros PN Pd Pd' CL NT D U C IF RW NU. cbv zeta. assert (Du : pdirect_unm True u) by (destruct U as [-> | ->]; constructor).
  assert (Q : ev_map W fuel (outer_of s) (SDefault (VDict items) [] [] None) (VDict items) id tags rs u m (forms s) =
    ev_map W fuel (outer_of s) (SDefault (VDict items') [] [] None) (VDict items') id tags rs u m (forms s)).
  { apply (apart_map W (same_native (w_env W) (VDict items) (VDict items')) True fuel (outer_of s) _ _ _ _ id t l tags rs u m (forms s) NT D U).
    - now rewrite (outer_tags s tags tg IF).
    - intros m0. now apply (native_apart W P). }
  destruct (C30_poly_native_lem W fuel P _ None id t l tags rs u m s PN Pd CL NT D Du C NU) as [X _].
  rewrite Q in NU, X. destruct (C30_poly_native_lem W fuel P _ None id t l tags rs u m s PN Pd' CL NT D Du C NU) as [Y _].
  rewrite !dict_is_source. rewrite <- Y in X. injection X as X1 X2. auto.
Qed.
