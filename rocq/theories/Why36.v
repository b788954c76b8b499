(** * Why36: where an entry of a Group that is a bare field reads (C36). *)
From Verif Require Import PyBase PyStr Source Field Context Fields SpecCtx SpecField SpecBox Shape Reads Balance CtxProofs Run FieldProofs FieldLemmas BoxProofs BoxLemmas.
From Coq Require Import Lia.
Open Scope Z_scope.

(** Reading keeps a mapping a mapping. *)
Lemma reading_maps W op s eid m es pid p igd igm q : mapping W s eid m es pid p igd igm ->
  snd (run_pathop W op s) = St (stk s) (forms s) (replace_nth pid q (paths s)) (errs s) ->
  mapping W (St (stk s) (forms s) (replace_nth pid q (paths s)) (errs s)) eid m es pid q igd igm.
Proof.
  intros [A B C D F G H] R. split; auto.
  - rewrite <- R. pose proof (reach_run W O (PPath op (fun _ => PRet VNone)) s A) as X. cbn [run] in X. unfold catch in X.
    destruct (run_pathop W op s) as [r s1]. exact X.
  - cbn [paths]. apply nth_replace_eq. apply nth_error_Some. congruence.
Qed.
Lemma push_key_maps W k s eid m es pid p igd igm : mapping W s eid m es pid p igd igm ->
  mapping W (St ([("src", CKey k)] :: stk s) (forms s) (replace_nth pid (p_append k p) (paths s)) (errs s)) eid m es pid (p_append k p) igd igm.
Proof.
  intros [A B C D F G H].
  assert (PU : push W [("src", CKey k)] s = (Ok tt, St ([("src", CKey k)] :: stk s) (forms s) (replace_nth pid (p_append k p) (paths s)) (errs s))).
  { unfold push. change (alookup [("src", CKey k)] "src") with (Some (CKey k)). cbv beta iota. unfold cur_path, ctx_get, ctx_get_opt, bind, get. rewrite D. cbn [ret].
    unfold on_path. rewrite F. reflexivity. }
  split; cbn [stk errs paths lookup alookup String.eqb Ascii.eqb Bool.eqb]; auto.
  - eapply reach_open; [exact A| |exact PU]. reflexivity.
  - apply nth_replace_eq. apply nth_error_Some. congruence.
Qed.
Lemma field_frame_maps W f s eid m es pid p igd igm : mapping W s eid m es pid p igd igm ->
  mapping W (St (field_frame f :: stk s) (forms s) (paths s) (errs s)) eid m es pid p igd igm.
Proof.
  intros [A B C D F G H]. split; cbn [stk errs paths lookup alookup field_frame String.eqb Ascii.eqb Bool.eqb]; auto.
  apply (reach_open W (field_frame f) s); [exact A|reflexivity|reflexivity].
Qed.
Lemma entered_maps W f s eid m es pid p igd igm : mapping W s eid m es pid p igd igm ->
  mapping W (entered f NONEv s pid p) eid m es pid (place f p) igd igm.
Proof.
  intros MP. pose proof (field_frame_maps W f _ _ _ _ _ _ _ _ MP) as M1. unfold entered, spot, place. change (step_key f NONEv) with (own_key f).
  change (is_NONE NONEv) with true. cbv beta iota. destruct (own_key f) as [k|].
  - exact (push_key_maps W k _ _ _ _ _ _ _ _ M1).
  - cbn [key_frames app]. rewrite replace_same; [exact M1|]. exact (mp_path _ _ _ _ _ _ _ _ _ MP).
Qed.
(** Inside a container after its keys were read. *)
Lemma within_maps W f s eid m es pid p igd igm keys q : mapping W s eid m es pid p igd igm -> mapping_at W s f p keys q ->
  mapping W (within f s pid q) eid m es pid q igd igm.
Proof.
  intros MP (q2 & (q1 & X & N) & K). pose proof (entered_maps W f _ _ _ _ _ _ _ _ MP) as M0.
  pose proof (pid_lt _ _ _ _ _ _ _ _ _ MP) as L.
  assert (ST : forall op a b r, run_pathop W op (after_read f NONEv s pid p a) = (r, after_read f NONEv s pid p b) ->
     mapping W (after_read f NONEv s pid p a) eid m es pid a igd igm -> mapping W (after_read f NONEv s pid p b) eid m es pid b igd igm).
  { intros op a b r R MA. assert (Q : after_read f NONEv s pid p b = St (stk (after_read f NONEv s pid p a)) (forms (after_read f NONEv s pid p a)) (replace_nth pid b (paths (after_read f NONEv s pid p a))) (errs (after_read f NONEv s pid p a))).
    { unfold after_read. cbn [stk forms paths errs]. now rewrite replace_twice. }
    rewrite Q. apply (reading_maps W op _ _ _ _ _ a); [exact MA|]. rewrite R. exact Q. }
  assert (RD : forall op a b r, (pid0 <- cur_path; match op with OpExists => x <- path_exists W pid0; ret (VBool x) | OpIsNull => x <- path_is_null W pid0; ret (VBool x)
      | OpMapping => v <- path_mapping W pid0; l <- lift v; ret (VList l) | _ => ret VNone end) (after_read f NONEv s pid p a) = (r, after_read f NONEv s pid p b) ->
      match op with OpExists | OpIsNull | OpMapping => True | _ => False end -> run_pathop W op (after_read f NONEv s pid p a) = (r, after_read f NONEv s pid p b)).
  { intros [] a b r R O; try contradiction; exact R. }
  assert (M1 : mapping W (after_read f NONEv s pid p q1) eid m es pid q1 igd igm).
  { eapply (ST OpExists (place f p)); [|exact M0]. apply RD; [|exact I]. rewrite bind_run, (ar_cur W f NONEv s eid m es pid p igd igm MP). unfold path_exists.
    rewrite bind_run, (ar_on W f NONEv s eid m es pid p igd igm MP p_exists _ _ _ X). reflexivity. }
  assert (M2 : mapping W (after_read f NONEv s pid p q2) eid m es pid q2 igd igm).
  { eapply (ST OpIsNull q1); [|exact M1]. apply RD; [|exact I]. rewrite bind_run, (ar_cur W f NONEv s eid m es pid p igd igm MP). unfold path_is_null.
    rewrite bind_run, (ar_on W f NONEv s eid m es pid p igd igm MP p_is_null _ _ _ N). reflexivity. }
  change (within f s pid q) with (after_read f NONEv s pid p q).
  eapply (ST OpMapping q2); [|exact M2]. apply RD; [|exact I]. rewrite bind_run, (ar_cur W f NONEv s eid m es pid p igd igm MP). unfold path_mapping.
  rewrite bind_run, (ar_on W f NONEv s eid m es pid p igd igm MP p_mapping _ _ _ K). reflexivity.
Qed.

(** What the entry gives one key further down is what the group keeps. *)
Lemma entry_run W n g k s eid es pid p igd igm v new : mapping W s eid Collect es pid p igd igm ->
  yields W n g NONEv (St ([("src", CKey k)] :: stk s) (forms s) (replace_nth pid (p_append k p) (paths s)) (errs s)) eid Collect es v new ->
  exists s', with_ctx W [("src", CKey k)] (field_map W n g NONEv) s = (Ok v, s') /\ stk s' = stk s /\ forms s' = forms s /\
    errs s' = replace_nth eid (Collect, es ++ new) (errs s).
Proof.
  intros MP (s2 & Y & _ & Y3 & Y4). destruct MP as [A B C D F G H].
  pose proof (block_key W [("src", CKey k)] k (field_map W n g NONEv) s pid p (reach_wf _ _ A) (good_field_map _ _ _ _) eq_refl eq_refl D F) as BK.
  cbv zeta in BK. destruct BK as (_ & s' & R & S1 & S2 & S3).
  match type of R with _ = (fst ?b, _) => assert (Y' : b = (Ok v, s2)) by exact Y end. rewrite Y' in R, S2, S3. cbn [fst snd] in *. exists s'. repeat split; [exact R|exact S1|now rewrite S2, Y3|now rewrite S3, Y4].
Qed.
Lemma name_miss E k x : py_eq (VStr k) x = false -> miss E x (GName k).
Proof. intros. now constructor. Qed.
Lemma skip_unmatched W n l ks : forall ks' s ts c s1, Forall (fun x => Forall (fun mg => miss (w_env W) x (fst mg)) l) ks -> grouped W n l ks' s ts c s1 -> grouped W n l (ks ++ ks') s ts c s1.
Proof. induction ks as [|x ks IH]; intros ks' s ts c s1 F G; [exact G|]. inversion F; subst. cbn [app]. apply gr_unmatched; auto. Qed.
Lemma one_entry W n k g s eid es pid p igd igm ks1 ks2 v new : mapping W s eid Collect es pid p igd igm ->
  Forall (fun x => py_eq (VStr k) x = false) (ks1 ++ ks2) ->
  yields W n g NONEv (St ([("src", CKey (KStr k))] :: stk s) (forms s) (replace_nth pid (p_append (KStr k) p) (paths s)) (errs s)) eid Collect es v new ->
  exists s1, grouped W n [(GName k, g)] (ks1 ++ VStr k :: ks2) s (if ignored v then [] else [VTuple [VStr k; VNone; v]]) 1 s1 /\
    stk s1 = stk s /\ forms s1 = forms s /\ errs s1 = replace_nth eid (Collect, es ++ new) (errs s).
Proof.
  intros MP F Y. destruct (entry_run W n g (KStr k) s eid es pid p igd igm v new MP Y) as (s1 & R & S1 & S2 & S3). exists s1. split; [|auto].
  apply Forall_app in F. destruct F as [F1 F2].
  assert (T : forall ks, Forall (fun x => py_eq (VStr k) x = false) ks -> Forall (fun x => Forall (fun mg => miss (w_env W) x (fst mg)) [(GName k, g)]) ks).
  { intros ks X. eapply Forall_impl; [|exact X]. intros x Q. constructor; [|constructor]. now apply name_miss. }
  apply skip_unmatched; [exact (T _ F1)|].
  assert (FH : first_hit (w_env W) [(GName k, g)] (VStr k) g VNone).
  { exists [], (GName k), []. split; [reflexivity|]. split; [|constructor]. constructor. cbn. apply String.eqb_refl. }
  assert (G : grouped W n [(GName k, g)] ks2 s1 [] 0 s1).
  { rewrite <- (app_nil_r ks2). apply skip_unmatched; [exact (T _ F2)|]. constructor. }
  destruct (ignored v) eqn:Q.
  - eapply gr_dropped; eauto.
  - eapply gr_kept; eauto.
Qed.

Lemma C36_entry_lem W n f g s eid es pid p igd igm k ks1 ks2 q t0 v new :
  mapping W s eid Collect es pid p igd igm -> plain_steps f -> f_kind f = KGroup [(GName k, g)] -> p_str (w_env W) (place f p) = Ok t0 ->
  mapping_at W s f p (ks1 ++ VStr k :: ks2) q -> Forall (fun x => py_eq (VStr k) x = false) (ks1 ++ ks2) ->
  (forall s1, forms s1 = forms s -> mapping W s1 eid Collect es pid (p_append (KStr k) q) igd igm -> yields W n g NONEv s1 eid Collect es v new) ->
  untouched f (VList (if ignored v then [] else [VTuple [VStr k; VNone; v]])) ->
  exists s', field_map W (S n) f NONEv s = (Ok (VList (if ignored v then [] else [VTuple [VStr k; VNone; v]])), s') /\
    stk s' = stk s /\ forms s' = forms s /\ errs s' = replace_nth eid (Collect, es ++ new) (errs s).
Proof.
  intros MP PS K T MA F Y U. pose proof (within_maps W f s _ _ _ _ _ _ _ _ _ MP MA) as MW.
  destruct (one_entry W n k g _ eid es pid q igd igm ks1 ks2 v new MW F) as (s1 & G & _ & G2 & G3).
  { apply Y; [reflexivity|]. apply (push_key_maps W (KStr k) _ _ _ _ _ _ _ _ MW). }
  destruct (C35_group W n f s eid Collect es pid p igd igm _ _ q _ _ s1 t0 MP PS K T MA G ltac:(discriminate) U) as (s' & R & S1 & S2 & S3).
  exists s'. split; [exact R|]. split; [exact S1|]. split; [now rewrite S2, G2|now rewrite S3, G3].
Qed.

Lemma C36_absent_lem W n f g s eid es pid p igd k ks1 ks2 q q2 t0 t :
  mapping W s eid Collect es pid p igd false -> plain_steps f -> f_kind f = KGroup [(GName k, g)] -> p_str (w_env W) (place f p) = Ok t0 ->
  mapping_at W s f p (ks1 ++ VStr k :: ks2) q -> Forall (fun x => py_eq (VStr k) x = false) (ks1 ++ ks2) ->
  direct_read g -> required g -> own_key g = Some (KStr k) ->
  p_exists (w_env W) (entries s) (p_append (KStr k) (p_append (KStr k) q)) = (q2, Ok false) ->
  p_str (w_env W) (p_append (KStr k) (p_append (KStr k) q)) = Ok t -> untouched f (VList []) ->
  exists s', field_map W (S (S n)) f NONEv s = (Ok (VList []), s') /\
    stk s' = stk s /\ forms s' = forms s /\ errs s' = replace_nth eid (Collect, es ++ [missing_at g pid t]) (errs s).
Proof.
  intros MP PS K T MA F DR RQ OK X TX U.
  apply (C36_entry_lem W (S n) f g s eid es pid p igd false k ks1 ks2 q t0 NOTSETv [missing_at g pid t]); auto.
  intros s1 FS M1. apply (C17_missing_lem W n g s1 eid Collect es pid (p_append (KStr k) q) igd t); auto.
  - exists q2. unfold place. rewrite OK. replace (entries s1) with (entries s) by (unfold entries; now rewrite FS). exact X.
  - unfold place. now rewrite OK.
Qed.
Lemma C36_below_lem W n f g s eid es pid p igd igm k ks1 ks2 q q1 q2 q3 ty w t0 t :
  mapping W s eid Collect es pid p igd igm -> plain_steps f -> f_kind f = KGroup [(GName k, g)] -> p_str (w_env W) (place f p) = Ok t0 ->
  mapping_at W s f p (ks1 ++ VStr k :: ks2) q -> Forall (fun x => py_eq (VStr k) x = false) (ks1 ++ ks2) ->
  hook_free g -> own_key g = Some (KStr k) -> primitive_kind (f_kind g) = Some ty ->
  let qq := p_append (KStr k) (p_append (KStr k) q) in
  p_exists (w_env W) (entries s) qq = (q1, Ok true) -> p_is_null (w_env W) (entries s) q1 = (q2, Ok false) ->
  p_primitive (w_env W) (entries s) ty q2 = (q3, Ok w) -> ignored w = false -> untouched g w -> field_violation (w_env W) (entries s) g w = Ok None ->
  p_str (w_env W) qq = Ok t -> untouched f (VList [VTuple [VStr k; VNone; w]]) ->
  exists s', field_map W (S (S n)) f NONEv s = (Ok (VList [VTuple [VStr k; VNone; w]]), s') /\
    stk s' = stk s /\ forms s' = forms s /\ errs s' = errs s.
Proof.
  intros MP PS K T MA F HF OK PK qq X N R IW UW V TX U.
  destruct (C36_entry_lem W (S n) f g s eid es pid p igd igm k ks1 ks2 q t0 w []) as (s' & A & B & C & D); auto.
  - intros s1 FS M1. assert (EN : entries s1 = entries s) by (unfold entries; now rewrite FS).
    pose proof (value_checked W n g NONEv s1 eid Collect es pid (p_append (KStr k) q) igd igm M1 (hf_read _ HF) HF w w t None) as VC. apply VC; clear VC.
    + unfold spot, place. rewrite OK. exact TX.
    + apply (ob_read W s1 g _ ty q1 q2 q3 w PK); unfold place; rewrite ?OK, EN; assumption.
    + exact IW.
    + exact (proj1 UW).
    + apply untouched_tr. exact UW.
    + exact IW.
    + apply UW.
    + unfold violated. rewrite EN. exact V.
  - rewrite IW. exact U.
  - rewrite IW in A. exists s'. rewrite app_nil_r in D. repeat split; auto. rewrite D. apply replace_same. exact (mp_errs _ _ _ _ _ _ _ _ _ MP).
Qed.
