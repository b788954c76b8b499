(** * SrcPath: reading a plain path is repeatable (C07, C08). *)
From Verif Require Import PyBase PyStr Source Field SpecSrc Shape.
From Coq Require Import Lia.

Section Drive.
Variables (E : env) (ents : entries_of) (src : psource) (root : val).
(** Resolution does not look at the rest of the path. *)
Hypothesis IND : forall ks c k, psource_resolve E ents src ks c k = psource_resolve E ents src [] c k.
Let R := psource_resolve E ents src [].
(** The keys in use. *)
Variable K : key -> Prop.
Hypothesis KP : forall k, K k -> plain_key k.
Definition cmd_in (c : pathcmd) : Prop := match c with Down k => K k | _ => True end.

Fixpoint fold_r (cur : val) (ks : list key) : res val :=
  match ks with
  | [] => Ok cur
  | k :: rest => match R cur k with Ok v => fold_r v rest | Exn e => Exn e end
  end.
Definition absorbs : Prop := forall k, K k -> R (VConst NONE) k = Ok (VConst NONE).
(** Nothing missing strictly inside. *)
Definition inside_ok (cur : val) (ks : list key) : Prop :=
  forall pre k post, ks = pre ++ k :: post -> pre <> [] -> fold_r cur pre <> Ok (VConst NONE).

Lemma fold_r_app a : forall cur b, fold_r cur (a ++ b) =
  match fold_r cur a with Ok v => fold_r v b | Exn e => Exn e end.
Proof.
  induction a as [|k a IH]; intros cur b; cbn [app fold_r]; [reflexivity|].
  destruct (R cur k) as [v|e]; [apply IH|reflexivity].
Qed.
Lemma fold_none ks : absorbs -> Forall K ks -> fold_r (VConst NONE) ks = Ok (VConst NONE).
Proof. intros A. induction 1 as [|k ks H _ IH]; cbn [fold_r]; [reflexivity|]. now rewrite (A k H). Qed.

(** Cached values are the values at their location. *)
Definition coherent (base : val) (ps : list part) : Prop :=
  forall pre q post v, ps = pre ++ q :: post -> pc q = Some v ->
    fold_r base (map pk pre ++ [pk q]) = Ok v.

Lemma coherent_cons base p ps :
  coherent base (p :: ps) <->
  (forall v, pc p = Some v -> R base (pk p) = Ok v) /\
  (forall pre q post v, ps = pre ++ q :: post -> pc q = Some v ->
     fold_r base (pk p :: map pk pre ++ [pk q]) = Ok v).
Proof.
  split.
  - intros H. split.
    + intros v Hv. specialize (H [] p ps v eq_refl Hv). cbn in H. destruct (R base (pk p)); [|discriminate]. exact H.
    + intros pre q post v -> Hv. exact (H (p :: pre) q post v eq_refl Hv).
  - intros [H1 H2] pre q post v E0 Hv. destruct pre as [|p' pre]; cbn in E0; inversion E0; subst.
    + cbn. now rewrite (H1 v Hv).
    + cbn [map app]. eapply H2; eauto.
Qed.
Lemma coherent_cons_ok base p ps v : R base (pk p) = Ok v ->
  (forall w, pc p = Some w -> w = v) -> coherent v ps -> coherent base (p :: ps).
Proof.
  intros Hr Hp Hc. apply coherent_cons. split.
  - intros w Hw. now rewrite Hr, (Hp w Hw).
  - intros pre q post w E0 Hw. cbn [fold_r]. rewrite Hr. eapply Hc; eauto.
Qed.
Lemma coherent_app base a b v : coherent base a -> fold_r base (map pk a) = Ok v -> coherent v b ->
  coherent base (a ++ b).
Proof.
  intros Ha Hf Hb pre q post w E0 Hw.
  destruct (Nat.lt_ge_cases (length pre) (length a)) as [L|L].
  - assert (Ea : a = pre ++ q :: firstn (length a - S (length pre)) post).
    { apply (f_equal (firstn (length a))) in E0. rewrite firstn_app, Nat.sub_diag, firstn_all in E0.
      cbn in E0. rewrite app_nil_r in E0. rewrite E0 at 1. rewrite firstn_app.
      rewrite firstn_all2 by lia. f_equal. destruct (length a - length pre)%nat eqn:D; [lia|].
      cbn. f_equal. f_equal. lia. }
    eapply Ha; eauto.
  - assert (Eb : exists pre', pre = a ++ pre' /\ b = pre' ++ q :: post).
    { exists (skipn (length a) pre). pose proof E0 as E1.
      apply (f_equal (firstn (length a))) in E0. rewrite firstn_app, Nat.sub_diag, firstn_all in E0.
      cbn in E0. rewrite app_nil_r in E0. rewrite firstn_app in E0.
      replace (length a - length pre)%nat with 0%nat in E0 by lia. cbn in E0. rewrite app_nil_r in E0.
      split.
      - rewrite E0 at 1. now rewrite firstn_skipn.
      - apply (f_equal (skipn (length a))) in E1. rewrite skipn_app, Nat.sub_diag, skipn_all in E1. cbn in E1.
        rewrite E1, skipn_app. replace (length a - length pre)%nat with 0%nat by lia. reflexivity. }
    destruct Eb as (pre' & -> & Eb). rewrite map_app, <- app_assoc, fold_r_app, Hf. eapply Hb; eauto.
Qed.
Lemma coherent_prefix base a b : coherent base (a ++ b) -> coherent base a.
Proof. intros H pre q post v -> Hv. apply (H pre q (post ++ b) v); [now rewrite <- app_assoc|exact Hv]. Qed.
Lemma coherent_uncached base a : Forall (fun p => pc p = None) a -> coherent base a.
Proof.
  intros H pre q post v -> Hv. apply Forall_app in H. destruct H as [_ H]. inversion H; subst. congruence.
Qed.

Lemma walk_parts_spec ps : forall cur, Forall (fun p => pc p = None) ps ->
  Forall K (map pk ps) -> (absorbs \/ inside_ok cur (map pk ps)) ->
  snd (walk_parts R cur ps) = fold_r cur (map pk ps) /\
  map pk (fst (walk_parts R cur ps)) = map pk ps /\
  coherent cur (fst (walk_parts R cur ps)).
Proof.
  induction ps as [|p ps IH]; intros cur HN HP HC; cbn [walk_parts map].
  - repeat split. intros pre q post v E0. destruct pre; discriminate.
  - inversion HN as [|? ? Hp HN']; subst. inversion HP as [|? ? Kp HP']; subst. cbn [fold_r].
    destruct (R cur (pk p)) as [v|e] eqn:Hr.
    + destruct (is_NONE v) eqn:Hv.
      * assert (v = VConst NONE) as -> by (destruct v; try discriminate; destruct c; try discriminate; reflexivity).
        cbn [fst snd map pk]. split; [|split; [reflexivity|]].
        -- destruct HC as [A|I]; [now rewrite fold_none|].
           destruct ps as [|p' ps]; [reflexivity|]. exfalso.
           apply (I [pk p] (pk p') (map pk ps)); [reflexivity|discriminate|]. cbn. now rewrite Hr.
        -- eapply coherent_cons_ok; [exact Hr|cbn; now intros w [= ->]|]. now apply coherent_uncached.
      * destruct (IH v HN' HP') as (A1 & A2 & A3).
        { destruct HC as [A|I]; [now left|right]. intros pre k post E0 NE.
          specialize (I (pk p :: pre) k post). cbn [fold_r] in I. rewrite Hr in I. apply I; [cbn; now rewrite E0|discriminate]. }
        destruct (walk_parts R v ps) as [rest r]. cbn [fst snd] in *. cbn [map pk].
        split; [exact A1|]. split; [now rewrite A2|].
        eapply coherent_cons_ok; [exact Hr|cbn; now intros w [= ->]|exact A3].
    + cbn [fst snd map]. repeat split. apply coherent_uncached. now constructor.
Qed.

Lemma last_cached_spec rp : Forall plain_key (map pk rp) ->
  exists o, last_cached rp = Ok o /\
  match o with
  | Some (n, v) => exists a q b, rp = a ++ q :: b /\ length a = n /\ Forall (fun p => pc p = None) a /\ pc q = Some v
  | None => Forall (fun p => pc p = None) rp
  end.
Proof.
  induction rp as [|p rp IH]; intros H; cbn [last_cached].
  - exists None. split; [reflexivity|constructor].
  - inversion H as [|? ? Kp H']; subst. destruct (IH H') as (o & Ho & Hs).
    destruct (pc p) as [v|] eqn:Hp.
    + exists (Some (0%nat, v)). split; [destruct (pk p); [reflexivity|reflexivity|contradiction]|].
      exists [], p, rp. repeat split; auto.
    + destruct o as [[n v]|].
      * exists (Some (S n, v)). rewrite Ho. split; [destruct (pk p); [reflexivity|reflexivity|contradiction]|].
        destruct Hs as (a & q & b & -> & L & F & C). exists (p :: a), q, b. repeat split; auto. cbn. lia.
      * exists None. rewrite Ho. split; [destruct (pk p); [reflexivity|reflexivity|contradiction]|]. now constructor.
Qed.

Record good_path (p : ppath) (ks : list key) : Prop := {
  gp_src : pp_src p = src;
  gp_root : pp_root p = root;
  gp_keys : pp_keys p = ks;
  gp_plain : Forall K ks;
  gp_coh : coherent root (pp_parts p)
}.

Lemma walk_parts_ext R1 R2 ps : (forall c k, R1 c k = R2 c k) -> forall cur, walk_parts R1 cur ps = walk_parts R2 cur ps.
Proof.
  intros H. induction ps as [|p ps IH]; intros cur; cbn [walk_parts]; [reflexivity|]. rewrite H.
  destruct (R2 cur (pk p)) as [v|e]; [|reflexivity]. rewrite IH. reflexivity.
Qed.

Lemma pp_value_spec p ks : good_path p ks -> (absorbs \/ inside_ok root ks) ->
  snd (pp_value E ents p) = fold_r root ks /\ good_path (fst (pp_value E ents p)) ks.
Proof.
  intros [Gs Gr Gk Gp Gc] HC. unfold pp_value.
  assert (PL : Forall K (map pk (rev (pp_parts p)))).
  { rewrite map_rev. apply Forall_rev. unfold pp_keys in Gk. now rewrite Gk. }
  destruct (last_cached_spec _ (Forall_impl _ KP PL)) as (o & Ho & Hs). rewrite Ho.
  assert (SP : exists a b cur, pp_parts p = a ++ b /\ Forall (fun q => pc q = None) b /\
             match o with Some (n, v) => (n, v) | None => (length (pp_parts p), pp_root p) end = (length b, cur) /\
             fold_r root (map pk a) = Ok cur).
  { destruct o as [[n v]|].
    - destruct Hs as (a & q & b & Er & L & F & C). apply (f_equal (@rev part)) in Er. rewrite rev_involutive in Er.
      rewrite rev_app_distr in Er. cbn [rev] in Er.
      exists (rev b ++ [q]), (rev a), v. split; [exact Er|]. split; [now apply Forall_rev|].
      split; [now rewrite rev_length, L|]. rewrite map_app. cbn [map].
      apply (Gc (rev b) q (rev a) v); [|exact C]. rewrite Er, <- app_assoc. reflexivity.
    - exists [], (pp_parts p), root. split; [reflexivity|]. split; [now rewrite <- (rev_involutive (pp_parts p)); apply Forall_rev|].
      split; [now rewrite Gr|reflexivity]. }
  destruct SP as (a & b & cur & Ep & Fb & -> & Fc). cbn [fst snd].
  assert (Li : (length (pp_parts p) - length b)%nat = length a) by (rewrite Ep, app_length; lia). rewrite Li.
  assert (Sk : skipn (length a) (pp_parts p) = b) by (rewrite Ep, skipn_app, Nat.sub_diag, skipn_all; reflexivity).
  assert (Fn : firstn (length a) (pp_parts p) = a) by (rewrite Ep, firstn_app, Nat.sub_diag, firstn_all; apply app_nil_r).
  rewrite Sk, Fn, Gs, Gk.
  rewrite (walk_parts_ext _ R b (fun c k => IND ks c k)).
  unfold pp_keys in Gk. rewrite Ep, map_app in Gk.
  assert (Pb : Forall K (map pk b)) by (rewrite <- Gk in Gp; apply Forall_app in Gp; tauto).
  destruct (walk_parts_spec b cur Fb Pb) as (A1 & A2 & A3).
  { destruct HC as [A|I]; [now left|right]. intros pre k post Eb NE H.
    apply (I (map pk a ++ pre) k post).
    - rewrite <- Gk, Eb, app_assoc. reflexivity.
    - intros Z. apply app_eq_nil in Z. tauto.
    - now rewrite fold_r_app, Fc. }
  destruct (walk_parts R cur b) as [rest r]. cbn [fst snd] in *.
  split; [rewrite A1, <- Gk, fold_r_app, Fc; reflexivity|].
  split; cbn [pp_src pp_root pp_parts]; auto.
  - unfold pp_keys. cbn [pp_parts]. now rewrite map_app, A2, Gk.
  - apply (coherent_app _ _ _ cur); auto. rewrite Ep in Gc. now apply coherent_prefix in Gc.
Qed.

Lemma good_untouched ks : Forall K ks -> good_path (Source.PPath src root (map (fun k => Part k None) ks)) ks.
Proof.
  intros H. split; cbn [pp_src pp_root pp_parts]; auto.
  - unfold pp_keys. cbn [pp_parts]. rewrite map_map. apply map_id.
  - apply coherent_uncached. apply Forall_forall. intros q Hq. apply in_map_iff in Hq. destruct Hq as (k & <- & _). reflexivity.
Qed.

Lemma do_read_spec op p q ks : good_path p ks -> good_path q ks -> (absorbs \/ inside_ok root ks) ->
  snd (do_read E ents op (PBase (BP p))) = snd (do_read E ents op (PBase (BP q))) /\
  exists p', fst (do_read E ents op (PBase (BP p))) = PBase (BP p') /\ good_path p' ks.
Proof.
  intros Gp Gq HC.
  destruct (pp_value_spec p ks Gp HC) as (A1 & A2). destruct (pp_value_spec q ks Gq HC) as (B1 & _).
  assert (Lp : length (pp_parts p) = length ks) by (rewrite <- (gp_keys _ _ Gp); unfold pp_keys; now rewrite map_length).
  assert (Lq : length (pp_parts q) = length ks) by (rewrite <- (gp_keys _ _ Gq); unfold pp_keys; now rewrite map_length).
  destruct op; cbn [do_read p_value p_exists p_is_null p_primitive p_sequence p_mapping
      bp_value bp_exists bp_is_null bp_primitive bp_sequence bp_mapping on_bp];
    unfold bp_value, bp_exists, bp_is_null, bp_primitive, bp_sequence, bp_mapping, on_bp,
           pp_exists, pp_is_null, pp_primitive, pp_sequence, pp_mapping;
    destruct (pp_value E ents p) as [p' rp]; destruct (pp_value E ents q) as [q' rq];
    cbn [fst snd] in *; subst rp rq; rewrite ?(gp_src _ _ Gp), ?(gp_src _ _ Gq), ?Lp, ?Lq;
    (split; [reflexivity|]); eexists; split; try reflexivity; exact A2.
Qed.

Lemma drive_spec l : forall p ks, good_path p ks -> Forall cmd_in l ->
  (absorbs \/ (fix ok (l : list pathcmd) (ks : list key) : Prop :=
     match l with
     | [] => True
     | Down k :: rest => ok rest (ks ++ [k])
     | Up :: rest => ok rest (removelast ks)
     | Read _ :: rest => inside_ok root ks /\ ok rest ks
     end) l ks) ->
  drive E ents l (PBase (BP p)) = afresh E ents src root l ks.
Proof.
  induction l as [|c l IH]; intros p ks G HP HC; [reflexivity|].
  inversion HP as [|? ? Hc HP']; subst. destruct c as [k| |op]; cbn [drive do_cmd afresh].
  - cbn [p_append bp_append]. f_equal. apply IH; auto. destruct G as [Gs Gr Gk Gp Gc].
    split; cbn [pp_append pp_src pp_root pp_parts]; auto.
    + unfold pp_append, pp_keys in *. cbn [pp_parts]. rewrite map_app. now rewrite Gk.
    + apply Forall_app; split; [exact Gp|now repeat constructor].
    + unfold pp_append. cbn [pp_parts]. intros pre q post v E0 Hv.
      destruct post as [|x post] using rev_ind.
      * apply app_inj_tail in E0. destruct E0 as [_ <-]. discriminate.
      * clear IHpost. rewrite app_comm_cons, app_assoc in E0. apply app_inj_tail in E0. destruct E0 as [E0 _].
        eapply Gc; eauto.
  - cbn [p_pop bp_pop]. unfold bp_pop, on_bp, pp_pop. destruct G as [Gs Gr Gk Gp Gc]. unfold pp_keys in Gk.
    destruct (pp_parts p) as [|q ps] eqn:Ep.
    + cbn in Gk. subst ks. f_equal. cbn [removelast]. apply IH; auto. split; auto; [unfold pp_keys; now rewrite Ep|now rewrite Ep].
    + f_equal; [destruct ks; [discriminate|reflexivity]|]. apply IH; auto.
      destruct (exists_last (l := q :: ps) ltac:(discriminate)) as (ps' & q' & E1).
      split; cbn [pp_src pp_root pp_parts]; auto.
      * unfold pp_keys. cbn [pp_parts]. rewrite E1 in Gk |- *. rewrite removelast_last. rewrite <- Gk, map_app. cbn. now rewrite removelast_last.
      * rewrite <- Gk, E1, map_app. cbn. rewrite removelast_last. rewrite <- Gk, E1, map_app in Gp.
        apply Forall_app in Gp. tauto.
      * rewrite E1, removelast_last. rewrite E1 in Gc. now apply coherent_prefix in Gc.
  - assert (C1 : absorbs \/ inside_ok root ks) by (destruct HC as [A|[I _]]; auto).
    destruct (do_read_spec op p (Source.PPath src root (map (fun k => Part k None) ks)) ks G
                (good_untouched ks (gp_plain _ _ G)) C1) as (A & p' & B & G').
    destruct (do_read E ents op (PBase (BP p))) as [pp o]. cbn [fst snd] in *. subst pp. rewrite A. unfold untouched. f_equal.
    apply IH; auto. destruct HC as [A0|[_ I]]; auto.
Qed.

Lemma value_at_spec ks : Forall K ks -> (absorbs \/ inside_ok root ks) -> value_at E ents src root ks = fold_r root ks.
Proof.
  intros HP HC. unfold value_at, untouched. cbn [p_value]. unfold bp_value, on_bp.
  destruct (pp_value_spec _ ks (good_untouched ks HP) HC) as (A & _).
  destruct (pp_value E ents _) as [p' r]. exact A.
Qed.

Lemma above_inside ks : Forall K ks -> above_exist E ents src root ks -> inside_ok root ks.
Proof.
  intros HP H. 
  assert (KK : forall n pre k post, (length pre <= n)%nat -> ks = pre ++ k :: post -> fold_r root pre <> Ok (VConst NONE) \/ pre = []).
  { induction n as [|n IH]; intros pre k post L E0.
    - destruct pre; [now right|cbn in L; lia].
    - destruct pre as [|k0 pre0] eqn:Ep; [now right|]. left. rewrite <- Ep in *.
      rewrite <- (value_at_spec pre); [apply (H pre k post E0)| |].
      + rewrite E0 in HP. apply Forall_app in HP. tauto.
      + right. intros pre' k' post' E1 NE Hn.
        destruct (IH pre' k' (post' ++ k :: post)) as [Z|Z]; auto.
        * rewrite E1 in L. rewrite app_length in L. cbn in L. lia.
        * rewrite E0, E1, <- app_assoc. reflexivity. }
  intros pre k post E0 NE Hn. destruct (KK (length pre) pre k post) as [Z|Z]; auto.
Qed.

Lemma drive_below l : forall p ks, good_path p ks -> Forall cmd_in l ->
  reads_below_existing E ents src root l ks ->
  drive E ents l (PBase (BP p)) = afresh E ents src root l ks.
Proof.
  intros p ks G HP H. apply drive_spec; auto. right.
  pose proof (gp_plain _ _ G) as HK. clear G p. revert ks HK H. induction l as [|c l IH]; intros ks HK H; [exact I|].
  inversion HP as [|? ? Hc HP']; subst. destruct c as [k| |op]; cbn in *.
  - apply IH; auto. apply Forall_app; split; auto.
  - apply IH; auto. destruct ks as [|k ks]; [exact HK|].
    destruct (exists_last (l := k :: ks) ltac:(discriminate)) as (ks' & k' & E1). rewrite E1 in *.
    rewrite removelast_last. apply Forall_app in HK. tauto.
  - destruct H as [H1 H2]. split; [now apply above_inside|]. now apply IH.
Qed.
End Drive.

(** ** JSON *)
Lemma json_ind E ents d st loc ks c k :
  psource_resolve E ents (SJson d st loc) ks c k = psource_resolve E ents (SJson d st loc) [] c k.
Proof. reflexivity. Qed.
Lemma config_ind E ents cfg sec d loc ks c k :
  psource_resolve E ents (SConfig cfg sec d loc) ks c k = psource_resolve E ents (SConfig cfg sec d loc) [] c k.
Proof. reflexivity. Qed.
Lemma json_absorbs E ents d st loc : absorbs E ents (SJson d st loc) plain_key.
Proof.
  intros k _. cbn [psource_resolve]. unfold json_resolve. destruct k as [s|z|v]; try reflexivity.
  destruct (has_char dot s); [|reflexivity].
  assert (N : split_on dot s <> []).
  { destruct s as [|c s]; cbn; [discriminate|]. destruct (Ascii.eqb c dot); [discriminate|]. now destruct (split_on dot s). }
  destruct (split_on dot s); [congruence|reflexivity].
Qed.
Lemma config_absorbs E ents cfg sec d loc : absorbs E ents (SConfig cfg sec d loc) plain_key.
Proof. intros k _. reflexivity. Qed.

Lemma C07_json_lem E ents d st loc l : Forall plain_cmd l ->
  drive E ents l (untouched (SJson d st loc) d []) = afresh E ents (SJson d st loc) d l [].
Proof.
  intros HP. apply (drive_spec E ents (SJson d st loc) d (json_ind E ents d st loc) plain_key (fun _ H => H) l _ []); auto.
  - apply good_untouched; constructor.
  - left. apply json_absorbs.
Qed.
Lemma C07_config_lem E ents cfg sec d loc root l : Forall plain_cmd l ->
  drive E ents l (untouched (SConfig cfg sec d loc) root []) = afresh E ents (SConfig cfg sec d loc) root l [].
Proof.
  intros HP. apply (drive_spec E ents (SConfig cfg sec d loc) root (config_ind E ents cfg sec d loc) plain_key (fun _ H => H) l _ []); auto.
  - apply good_untouched; constructor.
  - left. apply config_absorbs.
Qed.

(** ** Native *)
Lemma step_ind E ents ks c k : default_resolve1 E ents [] [] ks c k = default_resolve1 E ents [] [] [] c k.
Proof.
  unfold default_resolve1. cbn [is_ignored existsb]. destruct (as_item E ents c k) as [v|e]; [|reflexivity].
  destruct (negb (is_NONE v)); [reflexivity|]. unfold as_alias. destruct k; reflexivity.
Qed.
Lemma walk_atoms_ext f g : (forall c a, f c a = g c a) -> forall l c, walk_atoms f c l = walk_atoms g c l.
Proof.
  intros H. induction l as [|a l IH]; intros c; cbn; [reflexivity|]. rewrite H. destruct (g c a); [|reflexivity].
  destruct (is_NONE a0); auto.
Qed.
Lemma default_ind_aux E ents fuel : forall ks c k,
  default_resolve fuel E ents [] [] ks c k = default_resolve fuel E ents [] [] [] c k.
Proof.
  induction fuel as [|n IH]; intros ks c k; cbn [default_resolve]; destruct k as [s|z|v]; try apply step_ind.
  - rewrite step_ind. destruct (default_resolve1 E ents [] [] [] c (KStr s)) as [v|e];
      destruct (strip_call s); try reflexivity; destruct (is_NONE v); try reflexivity;
      apply walk_atoms_ext; intros; apply step_ind.
  - rewrite step_ind. destruct (strip_call s) as [s'|].
    + rewrite IH. reflexivity.
    + destruct (default_resolve1 E ents [] [] [] c (KStr s)) as [v|e]; [|reflexivity].
      destruct (is_NONE v); [|reflexivity]. apply walk_atoms_ext; intros; apply step_ind.
Qed.
Lemma default_ind E ents d loc ks c k :
  psource_resolve E ents (SDefault d [] [] loc) ks c k = psource_resolve E ents (SDefault d [] [] loc) [] c k.
Proof. apply default_ind_aux. Qed.

Lemma C07_native_lem E ents d loc l : Forall plain_cmd l ->
  reads_below_existing E ents (SDefault d [] [] loc) d l [] ->
  drive E ents l (untouched (SDefault d [] [] loc) d []) = afresh E ents (SDefault d [] [] loc) d l [].
Proof.
  intros HP HR. apply (drive_below E ents (SDefault d [] [] loc) d (default_ind E ents d loc) plain_key (fun _ H => H) l _ []); auto.
  apply good_untouched; constructor.
Qed.

(** What a fresh read of a JSON document gives *)
Definition none_or (o : option val) : val := match o with Some v => v | None => VConst NONE end.
Lemma split_no_dot s : has_char dot s = false -> split_on dot s = [s].
Proof.
  induction s as [|c s IH]; [reflexivity|]. unfold has_char in *. cbn [chars existsb split_on].
  rewrite (Ascii.eqb_sym dot c). destruct (Ascii.eqb c dot); cbn [orb]; [discriminate|]. intros H. now rewrite IH.
Qed.
Lemma json_getitem_step E ents v k : json_val v = true -> plain_key k ->
  match json_step v k with
  | Some w => py_getitem E ents v k = Ok w /\ json_val w = true
  | None => exists e, py_getitem E ents v k = Exn e /\ is_lookup_or_type e = true
  end.
Proof.
  intros J K. destruct v; try discriminate; cbn [json_step py_getitem]; try (eexists; split; reflexivity).
  - destruct k as [s0|z|v]; try (eexists; split; reflexivity). destruct (py_index (chars s) z) as [c|]; cbn;
      [split; reflexivity|eexists; split; reflexivity].
  - destruct k as [s0|z|v]; try (eexists; split; reflexivity). destruct (py_index l z) as [w|] eqn:Hi;
      [|eexists; split; reflexivity]. split; [reflexivity|]. unfold py_index in Hi.
    destruct ((_ <? 0) || _)%bool; [discriminate|]. apply nth_error_In in Hi. cbn in J. rewrite forallb_forall in J. auto.
  - destruct (dict_get l (val_of_key k)) as [w|] eqn:Hg; [|eexists; split; reflexivity]. split; [reflexivity|].
    unfold dict_get in Hg. destruct (find _ l) as [[a b]|] eqn:Hf; [|discriminate]. cbn in Hg. injection Hg as ->.
    apply find_some in Hf. destruct Hf as [Hf _]. cbn in J. rewrite forallb_forall in J. specialize (J _ Hf). cbn in J.
    destruct a; try discriminate. exact J.
Qed.
Lemma json_walk_steps E ents atoms : forall v, json_val v = true ->
  match json_steps v (map KStr atoms) with
  | Some w => json_walk E ents v atoms = Ok w /\ json_val w = true
  | None => exists e, json_walk E ents v atoms = Exn e /\ is_lookup_or_type e = true
  end.
Proof.
  induction atoms as [|a atoms IH]; intros v J; cbn [map json_steps json_walk]; [auto|].
  pose proof (json_getitem_step E ents v (KStr a) J I) as G. destruct (json_step v (KStr a)) as [w|].
  - destruct G as [-> J']. apply IH, J'.
  - destruct G as (e & -> & He). eauto.
Qed.
Lemma json_resolve_steps E ents v k : json_val v = true -> plain_key k ->
  json_resolve E ents v k = Ok (none_or (json_steps v (key_steps k))) /\
  (forall w, json_steps v (key_steps k) = Some w -> json_val w = true).
Proof.
  intros J K. unfold json_resolve. destruct k as [s|z|x]; [| |contradiction].
  - destruct (has_char dot s) eqn:D; cbn [key_steps].
    + pose proof (json_walk_steps E ents (split_on dot s) v J) as G.
      destruct (json_steps v (map KStr (split_on dot s))) as [w|].
      * destruct G as [-> Jw]. split; [reflexivity|]. now intros ? [= <-].
      * destruct G as (e & -> & He). cbn. rewrite He. split; [reflexivity|discriminate].
    + rewrite (split_no_dot s D). cbn [map json_steps].
      pose proof (json_getitem_step E ents v (KStr s) J I) as G. destruct (json_step v (KStr s)) as [w|].
      * destruct G as [-> Jw]. split; [reflexivity|]. now intros ? [= <-].
      * destruct G as (e & -> & He). cbn. rewrite He. split; [reflexivity|discriminate].
  - cbn [key_steps json_steps]. pose proof (json_getitem_step E ents v (KInt z) J I) as G. destruct (json_step v (KInt z)) as [w|].
    + destruct G as [-> Jw]. split; [reflexivity|]. now intros ? [= <-].
    + destruct G as (e & -> & He). cbn. rewrite He. split; [reflexivity|discriminate].
Qed.
Lemma json_steps_app a : forall v b, json_steps v (a ++ b) = match json_steps v a with Some w => json_steps w b | None => None end.
Proof. induction a as [|k a IH]; intros v b; cbn; [reflexivity|]. destruct (json_step v k); auto. Qed.
Lemma C07_json_value_lem E ents d st loc ks : json_val d = true -> Forall plain_key ks ->
  value_at E ents (SJson d st loc) d ks = Ok (none_or (json_at d ks)).
Proof.
  intros J HP. rewrite (value_at_spec E ents _ d (json_ind E ents d st loc) plain_key (fun _ H => H)); auto; [|left; apply json_absorbs].
  assert (G : forall v, json_val v = true -> fold_r E ents (SJson d st loc) v ks = Ok (none_or (json_at v ks)));
    [|apply G, J]. clear J.
  induction HP as [|k ks K HP IH]; intros v J; [reflexivity|].
  cbn [fold_r psource_resolve]. destruct (json_resolve_steps E ents v k J K) as [-> G].
  unfold json_at. cbn [flat_map]. rewrite json_steps_app. destruct (json_steps v (key_steps k)) as [w|]; cbn [none_or].
  - apply IH. now apply G.
  - apply (fold_none _ _ _ plain_key); [apply json_absorbs|exact HP].
Qed.

(** ** C08 *)
(** The key that would be tried first on the sentinel *)
Fixpoint strip_calls (fuel : nat) (s : string) : string :=
  match fuel, strip_call s with S n, Some s' => strip_calls n s' | _, _ => s end.
Definition first_atom (s : string) : string := hd "" (split_on dot s).
Definition not_name (k : key) : Prop :=
  match k with
  | KStr s => let s' := strip_calls (String.length s) s in s' <> "name" /\ first_atom s' <> "name"
  | _ => True
  end.
Lemma none_step E ents ks k : (forall s, e_attr E (VConst NONE) s = None) ->
  k <> KStr "name" -> default_resolve1 E ents [] [] ks (VConst NONE) k = Ok (VConst NONE).
Proof.
  intros H K. unfold default_resolve1. cbn [is_ignored existsb]. cbn [as_item py_getitem or_NONE is_lookup_or_type].
  unfold as_item. cbn. unfold as_alias, as_attr, py_getattr. destruct k as [s|z|v]; cbn; try reflexivity.
  destruct (String.eqb_spec s "name"); [congruence|]. now rewrite H.
Qed.
Lemma none_resolve E ents ks : (forall s, e_attr E (VConst NONE) s = None) -> forall fuel s,
  (let s' := strip_calls fuel s in s' <> "name" /\ first_atom s' <> "name") ->
  default_resolve fuel E ents [] [] ks (VConst NONE) (KStr s) = Ok (VConst NONE).
Proof.
  intros H. induction fuel as [|n IH]; intros s HS; cbn [default_resolve strip_calls] in *.
  - assert (Z : default_resolve1 E ents [] [] ks (VConst NONE) (KStr s) = Ok (VConst NONE)) by (apply none_step; [exact H|destruct HS; congruence]).
    rewrite Z. cbn [is_NONE]. unfold first_atom in HS.
    destruct (split_on dot s) as [|a l] eqn:Sp.
    + now destruct (strip_call s).
    + cbn [hd] in HS. cbn [walk_atoms]. rewrite (none_step E ents ks (KStr a) H) by (destruct HS; congruence). cbn. now destruct (strip_call s).
  - destruct (strip_call s) as [s'|].
    + rewrite (IH s' HS). reflexivity.
    + rewrite (none_step E ents ks (KStr s) H) by (destruct HS; congruence). cbn [is_NONE]. unfold first_atom in HS.
      destruct (split_on dot s) as [|a l]; [reflexivity|]. cbn [hd] in HS. cbn [walk_atoms].
      rewrite (none_step E ents ks (KStr a) H) by (destruct HS; congruence). reflexivity.
Qed.

Definition tame_key (k : key) : Prop := plain_key k /\ not_name k.
Lemma C08_lem E ents d loc l :
  (forall s, e_attr E (VConst NONE) s = None) ->
  Forall (cmd_in tame_key) l ->
  drive E ents l (untouched (SDefault d [] [] loc) d []) = afresh E ents (SDefault d [] [] loc) d l [].
Proof.
  intros HA HP.
  apply (drive_spec E ents (SDefault d [] [] loc) d (default_ind E ents d loc) tame_key (fun _ H => proj1 H) l _ []); auto.
  - apply good_untouched; constructor.
  - left. intros k [Hk Hn]. cbn [psource_resolve]. destruct k as [s|z|v]; [|reflexivity|contradiction].
    apply none_resolve; [exact HA|exact Hn].
Qed.

(** ** The text of paths, exactly (C09) *)
Lemma str_assoc a b c : ((a ++ b) ++ c = a ++ (b ++ c))%string.
Proof. induction a as [|x a IH]; [reflexivity|]. cbn. now rewrite IH. Qed.
Lemma rest_spelled ks : forall t, rest_str ks = Ok t <-> spelled_rest ks t.
Proof.
  induction ks as [|k ks IH]; intros t; cbn [rest_str].
  - split; [intros [= <-]; constructor|inversion 1; reflexivity].
  - destruct k as [s|z|v].
    + split; [destruct (rest_str ks) as [r|e] eqn:R; [|discriminate]; intros [= <-]|].
      * apply (sr_name s ks r). now apply IH.
      * inversion 1 as [|s' ks' r H1 E1 E2|]; subst. apply IH in H1. rewrite H1. reflexivity.
    + split; [destruct (rest_str ks) as [r|e] eqn:R; [|discriminate]; intros [= <-]|].
      * rewrite !str_assoc. apply (sr_index z ks r). now apply IH.
      * inversion 1 as [| |z' ks' r H1 E1 E2]; subst. apply IH in H1. rewrite H1. rewrite !str_assoc. reflexivity.
    + split; [discriminate|inversion 1].
Qed.
Lemma keys_spelled E ks t : keys_str E ks = Ok t <-> spelled E ks t.
Proof.
  destruct ks as [|k ks]; cbn [keys_str].
  - split; [intros [= <-]; constructor|inversion 1; reflexivity].
  - split.
    + destruct (rest_str ks) as [r|e] eqn:R; [|discriminate]. intros [= <-]. apply rest_spelled in R. destruct k; now constructor.
    + inversion 1; subst; (match goal with X : spelled_rest _ _ |- _ => apply rest_spelled in X; rewrite X end); reflexivity.
Qed.
Lemma lead_one o l r x t : lead o l r x -> String.concat ":" (map (fun s => l ++ s ++ r)%string (opt_str o) ++ [t]) = (x ++ t)%string.
Proof.
  intros [ | |s l0 r0 N]; [reflexivity|reflexivity|]. unfold opt_str. apply String.eqb_neq in N. rewrite N. cbn [map app String.concat]. now rewrite !str_assoc.
Qed.
Lemma plain_opt o : map (fun s => "" ++ s ++ "")%string (opt_str o) = opt_str o.
Proof.
  destruct o as [s|]; [|reflexivity]. cbn [opt_str]. destruct (String.eqb s ""); [reflexivity|]. cbn [map append]. f_equal. induction s as [|c s IH]; [reflexivity|]. cbn. now rewrite IH.
Qed.
Lemma lead_total o l r : exists x, lead o l r x.
Proof. destruct o as [s|]; [|eexists; constructor]. destruct (String.eqb s "") eqn:Q; [apply String.eqb_eq in Q as ->; eexists; constructor|]. apply String.eqb_neq in Q. eexists. now constructor. Qed.
Lemma leading_concat src x t : leading src x -> String.concat ":" (psource_prefix src ++ [t]) = (x ++ t)%string.
Proof.
  intros [d al ig loc y L|d st loc y L|c sec df loc y z L M]; cbn [psource_prefix].
  - rewrite <- plain_opt. exact (lead_one _ _ _ _ _ L).
  - rewrite <- plain_opt. exact (lead_one _ _ _ _ _ L).
  - pose proof (lead_one _ _ _ _ t M) as Mz. rewrite <- app_assoc.
    pose proof (lead_one _ _ _ _ (String.concat ":" (map (fun s => ("[" ++ s ++ "]")%string) (opt_str sec) ++ [t])) L) as Ly. rewrite plain_opt in Ly.
    rewrite str_assoc, <- Mz, <- Ly.
    generalize (map (fun s => ("[" ++ s ++ "]")%string) (opt_str sec)) as m. intros m. destruct L as [ | |s l r N]; [reflexivity|reflexivity|].
    unfold opt_str. apply String.eqb_neq in N. rewrite N. cbn [app]. destruct m as [|a m]; reflexivity.
Qed.
Lemma leading_total src : exists x, leading src x.
Proof.
  destruct src as [d al ig loc|d st loc|c sec df loc].
  - destruct (lead_total loc "" "") as (x & L). exists x. now constructor.
  - destruct (lead_total loc "" "") as (x & L). exists x. now constructor.
  - destruct (lead_total loc "" "") as (x & L). destruct (lead_total sec "[" "]") as (y & M). eexists. econstructor; eassumption.
Qed.
Lemma C09_text_lem E src ks t : pkeys_str E src ks = Ok t <-> exists b r, leading src b /\ spelled E ks r /\ t = (b ++ r)%string.
Proof.
  unfold pkeys_str. split.
  - destruct (keys_str E ks) as [r|e] eqn:K; [|discriminate]. intros [= <-]. destruct (leading_total src) as (b & L). exists b, r.
    split; [exact L|]. split; [now apply keys_spelled|]. now apply leading_concat.
  - intros (b & r & L & S0 & ->). apply keys_spelled in S0. rewrite S0. f_equal. now apply leading_concat.
Qed.
Lemma C09_none_lem E src k ks : Exists (fun k => exists v, k = KRaw v) ks -> pkeys_str E src (k :: ks) = Exn (EAttr "no attribute 'key'").
Proof.
  intros X. assert (R : rest_str ks = Exn (EAttr "no attribute 'key'")).
  { induction X as [a l (v & ->)|a l _ IH]; cbn [rest_str]; [reflexivity|]. rewrite IH. destruct a; reflexivity. }
  unfold pkeys_str. cbn [keys_str]. now rewrite R.
Qed.
