(** * Why62: below a key that names no mount (C62). *)
From Verif Require Import PyBase PyStr Source Shape Field Context Fields SpecCtx SpecField SpecMount SpecWhy SrcProofs FormProofs MountProofs Run FieldProofs FieldLemmas.
From Coq Require Import Lia.
Open Scope Z_scope.

Definition rooted (d : ppath) : Prop := pp_src d = SDefault (VDict []) [] [] None /\ pp_root d = VDict [].
Lemma rooted_value E ents d : rooted d -> rooted (fst (pp_value E ents d)).
Proof.
  unfold pp_value. destruct (last_cached (rev (pp_parts d))) as [[[n v]|]|e]; [| |exact (fun H => H)]; destruct (walk_parts _ _ _) as [a b]; exact (fun H => H).
Qed.
Lemma rooted_prim E ents t d : rooted d -> rooted (fst (pp_primitive E ents t d)).
Proof. intros R. apply (rooted_value E ents) in R. unfold pp_primitive. destruct (pp_value E ents d) as [a b]. exact R. Qed.
Lemma rooted_seq E ents d : rooted d -> rooted (fst (pp_sequence E ents d)).
Proof. intros R. apply (rooted_value E ents) in R. unfold pp_sequence. destruct (pp_value E ents d) as [a b]. exact R. Qed.
Lemma rooted_map E ents d : rooted d -> rooted (fst (pp_mapping E ents d)).
Proof. intros R. apply (rooted_value E ents) in R. unfold pp_mapping. destruct (pp_value E ents d) as [a b]. exact R. Qed.
Lemma rooted_pop d : rooted d -> rooted (fst (pp_pop d)).
Proof. unfold pp_pop. destruct (pp_parts d); exact (fun H => H). Qed.
Lemma rooted_app k d : rooted d -> rooted (pp_append k d).
Proof. exact (fun H => H). Qed.

Definition mount_inv (l : list (string * bsource)) (p : path) : Prop := exists sel dne ps, p = PMount sel dne ps /\
  (forall j, alookup ps j = None <-> alookup l j = None) /\ rooted dne /\
  match sel with None => pp_parts dne = [] | Some k => mount_has k ps = true -> pp_parts dne = [] end.
Lemma put_none n b ps j : alookup (put n b ps) j = None <-> alookup ps j = None.
Proof.
  rewrite alookup_put. destruct (String.eqb n j) eqn:Q; [|reflexivity]. apply String.eqb_eq in Q. subst. destruct (alookup ps j); [split; discriminate|split; reflexivity].
Qed.
Lemma on_inv {A} l k dne ps (fb : bpath -> bpath * A) (fp : ppath -> ppath * A) :
  (forall j, alookup ps j = None <-> alookup l j = None) -> rooted dne -> (mount_has k ps = true -> pp_parts dne = []) ->
  (rooted dne -> rooted (fst (fp dne))) -> mount_inv l (fst (on_mount fb fp k dne ps)).
Proof.
  intros N R P F. destruct (mount_has k ps) eqn:H.
  - destruct k as [x|z|x]; try discriminate. pose proof H as H2. cbn [mount_has] in H. destruct (alookup ps x) as [b|] eqn:L; [|discriminate].
    rewrite (on_mount_has fb fp x dne ps b L). exists (Some (KStr x)), dne, (put x (fst (fb b)) ps). split; [reflexivity|].
    split; [intros j; rewrite put_none; apply N|]. split; [exact R|]. intros _. exact (P eq_refl).
  - rewrite (on_mount_miss fb fp k dne ps H). exists (Some k), (fst (fp dne)), ps. split; [reflexivity|]. split; [exact N|]. split; [exact (F R)|]. rewrite H. discriminate.
Qed.
Lemma act_inv E ents l a p : mount_inv l p -> mount_inv l (fst (act_path E ents a p)).
Proof.
  intros H. pose proof H as H0. destruct H as (sel & dne & ps & -> & N & R & P). destruct sel as [k|].
  - destruct a; unfold act_path, replied; cbn [fst p_append p_pop p_value p_exists p_is_null p_mapping p_sequence p_primitive].
    + apply on_inv; auto; intros; apply rooted_app; auto.
    + destruct (p_keys (PMount (Some k) dne ps)) as [|x [|y r]] eqn:K.
      * discriminate.
      * exists None, dne, ps. repeat split; auto; try apply N; try apply R. cbn [p_keys] in K. injection K as _ K. destruct (mount_has k ps) eqn:M; [now apply P|].
        unfold pp_keys in K. now apply map_eq_nil in K.
      * apply on_inv; auto. apply rooted_pop.
    + apply on_inv; auto. apply rooted_value.
    + pose proof (on_inv l k dne ps (bp_value E ents) (pp_value E ents) N R P (rooted_value E ents dne)) as G. destruct (on_mount _ _ _ _ _). exact G.
    + pose proof (on_inv l k dne ps (bp_value E ents) (pp_value E ents) N R P (rooted_value E ents dne)) as G. destruct (on_mount _ _ _ _ _). exact G.
    + apply on_inv; auto. apply rooted_map.
    + destruct (mount_has k ps) eqn:M; [|exact H0]. apply on_inv; auto; apply rooted_seq.
    + destruct (mount_has k ps) eqn:M; [|exact H0]. apply on_inv; auto; apply rooted_prim.
  - destruct a; try exact H0. exists (Some k), dne, ps. split; [reflexivity|]. split; [exact N|]. split; [exact R|]. auto.
Qed.
Lemma acts_inv E ents l acts : forall p, mount_inv l p -> mount_inv l (after_acts E ents acts p).
Proof. induction acts as [|a acts IH]; intros p H; [exact H|]. apply IH, act_inv, H. Qed.
Lemma paths_names E ents : forall l ps, mount_paths E ents l = Ok ps -> forall j, alookup ps j = None <-> alookup l j = None.
Proof.
  induction l as [|[k b] l IH]; intros ps H j; cbn [mount_paths] in H; [injection H as <-; split; reflexivity|].
  destruct (bsource_path E ents b) as [p|]; [|discriminate]. destruct (mount_paths E ents l) as [ps'|]; [|discriminate]. injection H as <-. cbn [alookup]. destruct (String.eqb k j); [split; discriminate|]. now apply IH.
Qed.
Lemma root_inv E ents l p : source_path E ents (SMount l) = Ok p -> mount_inv l p.
Proof.
  unfold source_path. destruct (py3 E); [discriminate|]. destruct (mount_paths E ents l) as [ps|] eqn:M; [|discriminate]. intros [= <-].
  exists None, empty_path, ps. split; [reflexivity|]. split; [exact (paths_names E ents l ps M)|]. split; [split; reflexivity|reflexivity].
Qed.
Lemma missing_shape E ents l p k : at_mounts E ents l p -> alookup l k = None ->
  exists ps, p_append (KStr k) p = PMount (Some (KStr k)) empty_path ps /\ mount_has (KStr k) ps = false.
Proof.
  intros (acts & p0 & S0 & EQ & K) NO. pose proof (acts_inv E ents l acts p0 (root_inv _ _ _ _ S0)) as (sel & dne & ps & Q & N & (RS & RR) & P). rewrite <- EQ in Q. subst p. rewrite Q in K |- *.
  destruct sel as [x|]; [discriminate|]. exists ps. assert (dne = empty_path) as -> by (destruct dne; cbn in *; subst; reflexivity). split; [reflexivity|]. cbn [mount_has]. apply N in NO. now rewrite NO.
Qed.
Lemma C62_paths_lem E ents l p k t : at_mounts E ents l p -> alookup l k = None ->
  let q := p_append (KStr k) p in
  p_value E ents q = (q, Ok (VDict [])) /\ p_exists E ents q = (q, Ok true) /\ p_is_null E ents q = (q, Ok false) /\
  p_mapping E ents q = (q, Ok (Ok [])) /\ p_sequence E ents q = (q, Exn EKey) /\ p_primitive E ents t q = (q, Exn EKey).
Proof.
  intros A NO. destruct (missing_shape E ents l p k A NO) as (ps & Q & M). cbv zeta. rewrite Q.
  cbn [p_value p_exists p_is_null p_mapping p_sequence p_primitive]. rewrite !M, !(on_mount_miss _ _ _ _ _ M). repeat split; reflexivity.
Qed.
Lemma C62_field_lem W n f s eid m es pid p igd igm l k t : mapping W s eid m es pid p igd igm -> at_mounts (w_env W) (entries s) l p -> alookup l k = None ->
  hook_free f -> own_key f = Some (KStr k) -> primitive_kind (f_kind f) = Some t ->
  exists s', field_map W (S n) f NONEv s = (Exn EKey, s') /\ stk s' = stk s /\ forms s' = forms s /\ errs s' = errs s.
Proof.
  intros MP A NO HF OK K. destruct (C62_paths_lem (w_env W) (entries s) l p k t A NO) as (_ & X1 & X2 & _ & _ & X3). cbv zeta in *.
  assert (PL : place f p = p_append (KStr k) p) by (unfold place; now rewrite OK). rewrite <- PL in *.
  assert (PK : forall ss, parse_kind W (field_map W n) (f_kind f) pid ss = path_primitive W t pid ss).
  { intros ss. destruct (f_kind f); try discriminate; injection K as <-; reflexivity. }
  assert (B : field_body W (field_map W n) f NONEv (entered f NONEv s pid p) = (Exn EKey, after_read f NONEv s pid p (place f p))).
  { apply (body_parsed W n f NONEv s eid m es pid p igd igm MP (hf_read _ HF) HF _ _ (place f p) (Exn EKey) eq_refl X1 X2); [|reflexivity].
    rewrite PK. apply (prim_run W f NONEv s eid m es pid p igd igm MP t _ _ _ X3). }
  destruct (field_run W n f NONEv s eid m es pid p igd igm MP (dr_resolve _ (hf_read _ HF)) (dr_parent _ (hf_read _ HF))) as (_ & s' & A1 & A2 & A3 & A4).
  rewrite B in *. exists s'. auto.
Qed.
