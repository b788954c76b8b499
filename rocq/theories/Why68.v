(** * Why68: ignored locations of a DefaultSource (C68). *)
From Verif Require Import PyBase PyStr Source Field SpecSrc.
From Coq Require Import Lia.

Lemma split_some sep x : split_on sep x <> [].
Proof. destruct x as [|c x]; cbn [split_on]; [discriminate|]. destruct (Ascii.eqb c sep); [discriminate|]. destruct (split_on sep x); discriminate. Qed.
Lemma ignored_resolve E ents al ig ks : is_ignored ig ks = true -> forall fuel c k, default_resolve fuel E ents al ig ks c k = Ok (VConst NONE).
Proof.
  intros I. assert (ST : forall c k, default_resolve1 E ents al ig ks c k = Ok (VConst NONE)) by (intros; unfold default_resolve1; now rewrite I).
  induction fuel as [|fuel IH]; intros c k; destruct k as [x|z|x]; cbn [default_resolve]; try apply ST.
  - destruct (strip_call x); rewrite ST; cbn [is_NONE]; destruct (split_on dot x) eqn:S; try (now destruct (split_some _ _ S)); cbn [walk_atoms]; rewrite ST; reflexivity.
  - destruct (strip_call x); [rewrite IH; reflexivity|]. rewrite ST; cbn [is_NONE]. destruct (split_on dot x) eqn:S; [now destruct (split_some _ _ S)|]. cbn [walk_atoms]. rewrite ST. reflexivity.
Qed.
Lemma names_ignored ig names : In names ig -> is_ignored ig (map KStr names) = true.
Proof.
  intros H. apply existsb_exists. exists names. split; [exact H|]. induction names as [|a l IH]; [reflexivity|]. cbn [map keys_are key_is]. rewrite String.eqb_refl.
  clear H IH. cbn [andb]. induction l as [|b l IH]; [reflexivity|]. cbn [map keys_are key_is]. now rewrite String.eqb_refl, IH.
Qed.

(** *** Read first *)
Definition dull (q : part) : Prop := (exists x, pk q = KStr x) /\ (pc q = None \/ pc q = Some (VConst NONE)).
Lemma dull_cached rp : Forall dull rp -> exists o, last_cached rp = Ok o /\ match o with Some (n, v) => v = VConst NONE /\ (n < length rp)%nat | None => True end.
Proof.
  induction rp as [|q rp IH]; intros F; cbn [last_cached]; [eexists; split; [reflexivity|exact I]|].
  inversion F as [|? ? [(x & K) C] F']; subst. destruct (IH F') as (o & R & H). rewrite K, R. destruct C as [->| ->].
  - destruct o as [[n v]|]; eexists; (split; [reflexivity|]); cbn in *; [intuition lia|exact I].
  - eexists. split; [reflexivity|]. split; [reflexivity|cbn; lia].
Qed.
Lemma dull_value E ents d al ig loc root names parts : In names ig -> names <> [] -> map pk parts = map KStr names -> Forall dull parts ->
  exists parts', pp_value E ents (Source.PPath (SDefault d al ig loc) root parts) = (Source.PPath (SDefault d al ig loc) root parts', Ok (VConst NONE)) /\
    map pk parts' = map KStr names /\ Forall dull parts'.
Proof.
  intros I NE K F. unfold pp_value. cbn [pp_parts pp_src pp_root]. destruct (dull_cached (rev parts) (Forall_rev F)) as (o & R & H). rewrite R.
  set (res := psource_resolve E ents (SDefault d al ig loc) (pp_keys (Source.PPath (SDefault d al ig loc) root parts))).
  assert (RES : forall c k, res c k = Ok (VConst NONE)).
  { intros c k. unfold res, pp_keys. cbn [pp_parts psource_resolve]. rewrite K. apply ignored_resolve, names_ignored, I. }
  assert (WP : forall ps cur, Forall dull ps -> exists ps', walk_parts res cur ps = (ps', Ok (match ps with [] => cur | _ => VConst NONE end)) /\ map pk ps' = map pk ps /\ Forall dull ps').
  { intros ps cur FP. destruct ps as [|q ps]; cbn [walk_parts]; [eexists; split; [reflexivity|split; [reflexivity|constructor]]|]. rewrite RES. cbn [is_NONE]. eexists. split; [reflexivity|]. split; [reflexivity|].
    inversion FP as [|? ? [X _] FP']; subst. constructor; [|exact FP']. split; [exact X|now right]. }
  assert (G : forall n cur, (n <= length parts)%nat -> (n = O -> cur = VConst NONE) -> exists parts',
    (let '(rest, r) := walk_parts res cur (skipn (length parts - n) parts) in (Source.PPath (SDefault d al ig loc) root (firstn (length parts - n) parts ++ rest), r)) =
      (Source.PPath (SDefault d al ig loc) root parts', Ok (VConst NONE)) /\ map pk parts' = map KStr names /\ Forall dull parts').
  { intros n cur LN Z. assert (F2 := F). rewrite <- (firstn_skipn (length parts - n) parts) in F2. apply Forall_app in F2. destruct F2 as [FA FB].
    destruct (WP (skipn (length parts - n) parts) cur FB) as (ps' & W & KP & FP). rewrite W. eexists. split; [f_equal|split].
    - assert (LS : length (skipn (length parts - n) parts) = n) by (rewrite skipn_length; lia). destruct (skipn (length parts - n) parts); [|reflexivity]. rewrite Z; [reflexivity|]. symmetry. exact LS.
    - rewrite map_app, KP, <- map_app, firstn_skipn. exact K.
    - apply Forall_app. split; assumption. }
  destruct o as [[n v]|].
  - rewrite rev_length in H. apply G; [lia|]. intros _. exact (proj1 H).
  - apply G; [lia|]. intros Z. assert (parts = []) as -> by (destruct parts; [reflexivity|discriminate]). destruct names; [congruence|discriminate].
Qed.
(** What a location that is missing answers. *)
Lemma C68_first_lem E ents d al ig loc names ops : In names ig -> names <> [] ->
  Forall (fun o => o = OpExists \/ o = OpValue \/ o = OpIsNull) ops ->
  drive E ents (map Down (map KStr names) ++ map Read ops) (untouched (SDefault d al ig loc) d []) =
  map (fun _ => ObsUnit (Ok tt)) names ++ map (fun o => match o with OpValue => ObsVal (Ok (VConst NONE)) | _ => ObsBool (Ok false) end) ops.
Proof.
  intros I NE F.
  assert (DN : forall l ks rest, drive E ents (map Down (map KStr l) ++ rest) (untouched (SDefault d al ig loc) d ks) =
    map (fun _ => ObsUnit (Ok tt)) l ++ drive E ents rest (untouched (SDefault d al ig loc) d (ks ++ map KStr l))).
  { induction l as [|a l IH]; intros ks rest; cbn [map app drive do_cmd].
    - now rewrite app_nil_r.
    - assert (Q : p_append (KStr a) (untouched (SDefault d al ig loc) d ks) = untouched (SDefault d al ig loc) d (ks ++ [KStr a])) by (unfold untouched; cbn; unfold pp_append; cbn; now rewrite map_app).
      rewrite Q, IH. f_equal. rewrite <- app_assoc. reflexivity. }
  rewrite DN. f_equal. cbn [app].
  assert (RD : forall ops parts, Forall (fun o => o = OpExists \/ o = OpValue \/ o = OpIsNull) ops -> map pk parts = map KStr names -> Forall dull parts ->
    drive E ents (map Read ops) (PBase (BP (Source.PPath (SDefault d al ig loc) d parts))) =
    map (fun o => match o with OpValue => ObsVal (Ok (VConst NONE)) | _ => ObsBool (Ok false) end) ops).
  { clear F ops. induction ops as [|o ops IH]; intros parts F K D; [reflexivity|]. inversion F as [|? ? HO F']; subst. cbn [map drive do_cmd].
    destruct (dull_value E ents d al ig loc d names parts I NE K D) as (parts' & V & K' & D').
    destruct HO as [->|[->| ->]]; cbn [do_read p_exists p_value p_is_null bp_exists bp_value bp_is_null on_bp]; unfold pp_exists, pp_is_null; rewrite V; cbn [is_NONE is_None negb];
      f_equal; now apply IH. }
  apply RD; [exact F|rewrite !map_map; reflexivity|]. apply Forall_map, Forall_map. apply Forall_forall. intros a _. split; [now exists a|now left].
Qed.

(** *** Read below first *)
Lemma unignored_resolve E ents al ig ks : is_ignored ig ks = false -> forall fuel c k, default_resolve fuel E ents al ig ks c k = default_resolve fuel E ents al [] ks c k.
Proof.
  intros I. assert (ST : forall c k, default_resolve1 E ents al ig ks c k = default_resolve1 E ents al [] ks c k) by (intros; unfold default_resolve1; now rewrite I).
  assert (WA : forall atoms c, walk_atoms (fun c a => default_resolve1 E ents al ig ks c (KStr a)) c atoms = walk_atoms (fun c a => default_resolve1 E ents al [] ks c (KStr a)) c atoms).
  { induction atoms as [|a l IH]; intros c; cbn [walk_atoms]; [reflexivity|]. rewrite ST. destruct (default_resolve1 E ents al [] ks c (KStr a)) as [v|]; [|reflexivity]. destruct (is_NONE v); [reflexivity|apply IH]. }
  induction fuel as [|fuel IH]; intros c k; destruct k as [x|z|x]; cbn [default_resolve]; try apply ST.
  - destruct (strip_call x); rewrite ST, WA; reflexivity.
  - destruct (strip_call x); [now rewrite IH|]. now rewrite ST, WA.
Qed.
Lemma walk_same r1 r2 : (forall c k, r1 c k = r2 c k) -> forall ps c, walk_parts r1 c ps = walk_parts r2 c ps.
Proof. intros H. induction ps as [|q ps IH]; intros c; cbn [walk_parts]; [reflexivity|]. rewrite H. destruct (r2 c (pk q)); [|reflexivity]. now rewrite IH. Qed.
Lemma walk_full r : forall ps c ps' v, walk_parts r c ps = (ps', Ok v) -> is_NONE v = false -> map pk ps' = map pk ps /\ Forall (fun q => exists w, pc q = Some w /\ is_NONE w = false) ps'.
Proof.
  induction ps as [|q ps IH]; intros c ps' v H N; cbn [walk_parts] in H; [injection H as <- <-; split; [reflexivity|constructor]|].
  destruct (r c (pk q)) as [w|e] eqn:R; [|discriminate]. destruct (is_NONE w) eqn:NW; [injection H as <- <-; congruence|].
  destruct (walk_parts r w ps) as [rest x] eqn:WP. injection H as <- ->. destruct (IH w rest v WP N) as (K & F). split; [cbn [map pk]; now rewrite K|]. constructor; [|exact F]. exists w. auto.
Qed.
Lemma fresh_cached ks : Forall plain_key ks -> last_cached (rev (map (fun k => Part k None) ks)) = Ok None.
Proof.
  intros F. rewrite <- map_rev. apply Forall_rev in F. induction (rev ks) as [|k l IH]; [reflexivity|]. inversion F as [|? ? P F']; subst. cbn [map last_cached pk pc]. rewrite (IH F'). destruct k; try contradiction; reflexivity.
Qed.
Lemma C68_below_lem E ents d al ig loc names k v : In names ig -> names <> [] -> plain_key k ->
  is_ignored ig (map KStr names ++ [k]) = false ->
  value_at E ents (SDefault d al [] loc) d (map KStr names ++ [k]) = Ok v -> is_NONE v = false ->
  drive E ents (map Down (map KStr names) ++ [Down k; Read OpExists; Up; Read OpExists]) (untouched (SDefault d al ig loc) d []) =
  map (fun _ => ObsUnit (Ok tt)) names ++ [ObsUnit (Ok tt); ObsBool (Ok true); ObsUnit (Ok tt); ObsBool (Ok true)].
Proof.
  intros I NE PK NI V NV.
  assert (DN : forall l ks rest, drive E ents (map Down (map KStr l) ++ rest) (untouched (SDefault d al ig loc) d ks) =
    map (fun _ => ObsUnit (Ok tt)) l ++ drive E ents rest (untouched (SDefault d al ig loc) d (ks ++ map KStr l))).
  { induction l as [|a l IH]; intros ks rest; cbn [map app drive do_cmd].
    - now rewrite app_nil_r.
    - assert (Q : p_append (KStr a) (untouched (SDefault d al ig loc) d ks) = untouched (SDefault d al ig loc) d (ks ++ [KStr a])) by (unfold untouched; cbn; unfold pp_append; cbn; now rewrite map_app).
      rewrite Q, IH. f_equal. rewrite <- app_assoc. reflexivity. }
  rewrite DN. f_equal. cbn [app drive do_cmd].
  assert (Q : p_append k (untouched (SDefault d al ig loc) d (map KStr names)) = untouched (SDefault d al ig loc) d (map KStr names ++ [k])) by (unfold untouched; cbn; unfold pp_append; cbn; now rewrite map_app).
  rewrite Q. f_equal. set (ks := map KStr names ++ [k]) in *.
  assert (FK : Forall plain_key ks) by (apply Forall_app; split; [apply Forall_map, Forall_forall; intros; exact Logic.I|constructor; [exact PK|constructor]]).
  unfold value_at, untouched in V. cbn [p_value bp_value on_bp] in V. unfold pp_value in V. cbn [pp_parts pp_src pp_root] in V. rewrite (fresh_cached ks FK) in V. rewrite Nat.sub_diag in V. cbn [skipn firstn app] in V.
  set (r0 := psource_resolve E ents (SDefault d al [] loc) (pp_keys (Source.PPath (SDefault d al [] loc) d (map (fun k => Part k None) ks)))) in *.
  destruct (walk_parts r0 d (map (fun k => Part k None) ks)) as [ps' r] eqn:WP. cbn [snd] in V. subst r.
  destruct (walk_full r0 _ _ _ _ WP NV) as (K & F).
  assert (VAL : pp_value E ents (Source.PPath (SDefault d al ig loc) d (map (fun k => Part k None) ks)) = (Source.PPath (SDefault d al ig loc) d ps', Ok v)).
  { unfold pp_value. cbn [pp_parts pp_src pp_root]. rewrite (fresh_cached ks FK), Nat.sub_diag. cbn [skipn firstn app].
    rewrite (walk_same _ r0), WP; [reflexivity|]. intros c k0. unfold r0, pp_keys. cbn [pp_parts psource_resolve]. rewrite map_map. cbn [pk]. rewrite map_id. apply unignored_resolve. exact NI. }
  unfold untouched. cbn [do_read p_exists bp_exists on_bp]. unfold pp_exists. rewrite VAL, NV. cbn [negb]. f_equal.
  assert (L : exists rest a b, ps' = (rest ++ [a]) ++ [b]).
  { rewrite map_map in K. cbn [pk] in K. rewrite map_id in K. unfold ks in K. destruct (exists_last NE) as (nn & z & ->).
    assert (LP : length ps' = (length nn + 2)%nat) by (rewrite <- (map_length pk), K, app_length, map_length, app_length; cbn; lia).
    destruct ps' as [|x0 x1]; [cbn in LP; lia|]. destruct (@exists_last _ (x0 :: x1)) as (l1 & b & E1); [discriminate|]. rewrite E1 in LP |- *. rewrite app_length in LP. cbn in LP.
    destruct l1 as [|y0 y1]; [cbn in LP; lia|]. destruct (@exists_last _ (y0 :: y1)) as (l2 & a & E2); [discriminate|]. exists l2, a, b. now rewrite E2. }
  destruct L as (rest & a & b & ->). cbn [p_pop bp_pop on_bp]. unfold pp_pop. cbn [pp_parts pp_src pp_root]. destruct ((rest ++ [a]) ++ [b]) as [|x0 x1] eqn:Z; [destruct (rest ++ [a]); discriminate|]. rewrite <- Z in F, K |- *. clear Z.
  rewrite removelast_last. f_equal. cbn [p_exists bp_exists on_bp do_read]. unfold pp_exists, pp_value. cbn [pp_parts pp_src pp_root].
  rewrite rev_app_distr. cbn [rev app last_cached]. apply Forall_app in F. destruct F as [F _]. apply Forall_app in F. destruct F as [_ F]. inversion F as [|? ? (w & CW & NW) _]; subst.
  assert (exists x, pk a = KStr x) as (x & KA).
  { rewrite map_map in K. cbn [pk] in K. rewrite map_id in K. unfold ks in K. rewrite map_app in K. cbn [map] in K. apply app_inj_tail in K. destruct K as [K _]. rewrite map_app in K. cbn [map] in K.
    destruct (exists_last NE) as (nn & z & ->). rewrite map_app in K. cbn [map] in K. apply app_inj_tail in K. exists z. tauto. }
  rewrite KA, CW. rewrite Nat.sub_0_r, skipn_all. cbn [walk_parts]. rewrite NW. reflexivity.
Qed.
