(** * Run: opening a block, running something balanced, closing it. *)
From Verif Require Import PyBase PyStr Source Field Context Fields SpecCtx SpecField Shape Reads Balance CtxProofs.
From Coq Require Import Lia.

Lemma block_plain {A} W (kw : frame) (body : M A) s :
  wf s -> good body -> alookup kw "src" = None -> blk_ok kw ->
  let s1 := St (kw :: stk s) (forms s) (paths s) (errs s) in
  wf s1 /\
  exists s', with_ctx W kw body s = (fst (body s1), s') /\ stk s' = stk s /\
             forms s' = forms (snd (body s1)) /\ errs s' = errs (snd (body s1)) /\
             paths s' = paths (snd (body s1)).
Proof.
  intros WF HG HS HB s1.
  assert (W1 : wf s1).
  { split; [|exact (wf_paths _ WF)]. cbn [s1 stk wfs]. rewrite HB, HS. exact (wf_stk _ WF). }
  split; [exact W1|]. unfold with_ctx, closing, push. rewrite HS. unfold push_frame. cbv beta iota.
  match goal with |- context [body ?x] => change x with s1 end.
  pose proof (stable_stk _ _ (HG s1 W1)) as GA. destruct (body s1) as [r s2]. cbn [fst snd] in *.
  unfold restore. rewrite GA. cbn [s1 stk]. unfold bind, set_stk, has_key. rewrite HS. cbn [andb ret fst snd].
  eexists. repeat split.
Qed.

Lemma block_key {A} W (kw : frame) k (body : M A) s pid p :
  wf s -> good body -> alookup kw "src" = Some (CKey k) -> blk_ok kw ->
  lookup "src_path" (stk s) = Some (CPath pid) -> nth_error (paths s) pid = Some p ->
  let s1 := St (kw :: stk s) (forms s) (replace_nth pid (p_append k p) (paths s)) (errs s) in
  wf s1 /\
  exists s', with_ctx W kw body s = (fst (body s1), s') /\ stk s' = stk s /\
             forms s' = forms (snd (body s1)) /\ errs s' = errs (snd (body s1)).
Proof.
  intros WF HG HS HB C2 Hq s1.
  assert (Hq' : nth_error (shapes s) pid = Some (pshape p)) by (unfold shapes; now rewrite nth_error_map, Hq).
  assert (WQ : wf_shape (pshape p)).
  { pose proof (wf_paths _ WF) as F. rewrite Forall_forall in F. apply F. eapply nth_error_In; eauto. }
  assert (S1 : shapes s1 = replace_nth pid (sh_append k (pshape p)) (shapes s)).
  { unfold s1, shapes. cbn. rewrite map_replace. now rewrite p_append_shape. }
  assert (Lp : (pid < length (shapes s))%nat) by (apply nth_error_Some; congruence).
  assert (W1 : wf s1).
  { split.
    - rewrite S1. cbn [s1 stk wfs]. rewrite HB, HS. exists pid, (pshape p). repeat split; auto.
      + cbn [key_of_cval]. now rewrite nth_replace_eq.
      + rewrite replace_twice, replace_same by exact Hq'. exact (wf_stk _ WF).
    - rewrite S1. apply Forall_replace; [now apply wf_append|exact (wf_paths _ WF)]. }
  split; [exact W1|]. unfold with_ctx, closing, push. rewrite HS. cbn [key_of_cval].
  assert (PU : (pid0 <- cur_path; on_path W pid0 (fun _ _ p0 => (p_append k p0, Ok tt));; push_frame kw) s = (Ok tt, s1)).
  { unfold cur_path, ctx_get, ctx_get_opt, bind, get. rewrite C2. cbn [ret]. unfold on_path. rewrite Hq. reflexivity. }
  rewrite PU.
  destruct (HG s1 W1) as [GA (more & GB & GC) GF GE]. destruct (body s1) as [r s2]. cbn [fst snd] in *.
  unfold restore. rewrite GA. cbn [s1 stk]. unfold has_key. rewrite HS, HB. cbn [andb negb].
  set (s2' := St (stk s) (forms s2) (paths s2) (errs s2)). unfold bind, set_stk. fold s2'.
  assert (C2' : cur_path s2' = (Ok pid, s2')).
  { unfold cur_path, ctx_get, ctx_get_opt, bind, get. cbn [s2' stk]. rewrite C2. reflexivity. }
  rewrite C2'. unfold on_path. cbn [s2' paths].
  assert (N2 : nth_error (shapes s2) pid = Some (sh_append k (pshape p))).
  { rewrite GB, S1. rewrite nth_error_app1 by (rewrite replace_nth_length; exact Lp). now apply nth_replace_eq. }
  unfold shapes in N2. rewrite nth_error_map in N2.
  destruct (nth_error (paths s2) pid) as [q2|] eqn:Hq2; [|discriminate]. cbn in N2.
  injection N2 as N2. destruct (pop_append _ _ _ WQ N2) as (q3 & Q1 & Q2). rewrite Q1.
  eexists. repeat split.
Qed.

(** The state in which the steps of a field run. *)
Definition field_frame (f : field) : frame := [("field", CField f); ("parent", CField f)].
Definition key_frames (o : option key) : list frame := match o with Some k => [[("src", CKey k)]] | None => [] end.
Definition step_key (f : field) (v : val) : option key := if is_NONE v then own_key f else None.
Definition entered (f : field) (v : val) (s : st) (pid : nat) (p : path) : st :=
  St (key_frames (step_key f v) ++ field_frame f :: stk s) (forms s) (replace_nth pid (spot f v p) (paths s)) (errs s).

Lemma field_run W n f v s eid m es pid p igd igm :
  mapping W s eid m es pid p igd igm -> o_resolve (f_opts f) = None -> o_attach_parent (f_opts f) = false ->
  let b := field_body W (field_map W n) f v (entered f v s pid p) in
  wf (entered f v s pid p) /\
  exists s', field_map W (S n) f v s = (fst b, s') /\ stk s' = stk s /\ forms s' = forms (snd b) /\ errs s' = errs (snd b).
Proof.
  intros [R _ _ C2 Hq _ _] HR HP. cbv zeta. pose proof (reach_wf _ _ R) as WF. cbn [field_map]. unfold field_map_body. rewrite HP. cbn [andb].
  assert (GF : good (field__map W (field_map W n) f v)) by (apply good_field__map; intros; apply good_field_map).
  assert (GB : good (field_body W (field_map W n) f v)) by (apply good_field_body; intros; apply good_field_map).
  destruct (block_plain W (field_frame f) (field__map W (field_map W n) f v) s WF GF eq_refl eq_refl) as (W1 & s1' & E1 & E2 & E3 & E4 & _).
  set (s1 := St (field_frame f :: stk s) (forms s) (paths s) (errs s)) in *.
  assert (FM : field__map W (field_map W n) f v s1 = match step_key f v with
                 | None => field_body W (field_map W n) f v s1
                 | Some k => with_ctx W [("src", CKey k)] (field_body W (field_map W n) f v) s1 end).
  { unfold field__map, bind, field_resolve, step_key, own_key. rewrite HR. destruct (is_NONE v); [|reflexivity].
    destruct (f_kind f); cbn [ret]; try (destruct (o_src (f_opts f)); reflexivity); reflexivity. }
  rewrite FM in E1, E3, E4. clear FM.
  change [("field", CField f); ("parent", CField f)] with (field_frame f). unfold bind. rewrite E1. clear E1.
  unfold entered, spot, place, step_key in *. destruct (is_NONE v); [destruct (own_key f) as [k|]|].
  - destruct (block_key W [("src", CKey k)] k (field_body W (field_map W n) f v) s1 pid p W1 GB eq_refl eq_refl C2 Hq) as (W2 & s2' & F1 & F2 & F3 & F4).
    rewrite F1 in E3, E4 |- *. cbn [key_frames app]. cbn [stk forms paths errs s1 fst snd] in *. split; [exact W2|].
    set (b := field_body W (field_map W n) f v _) in *. destruct (fst b) as [x|e]; cbn [ret]; exists s1'; repeat split; congruence.
  - cbn [key_frames app]. rewrite replace_same by exact Hq. split; [exact W1|].
    change (St (field_frame f :: stk s) (forms s) (paths s) (errs s)) with s1.
    destruct (fst (field_body W (field_map W n) f v s1)) as [x|e]; cbn [ret]; exists s1'; repeat split; congruence.
  - cbn [key_frames app]. rewrite replace_same by exact Hq. split; [exact W1|].
    change (St (field_frame f :: stk s) (forms s) (paths s) (errs s)) with s1.
    destruct (fst (field_body W (field_map W n) f v s1)) as [x|e]; cbn [ret]; exists s1'; repeat split; congruence.
Qed.

(** What is visible inside. *)
Lemma key_frames_lookup o k l : k <> "src" -> lookup k (key_frames o ++ l) = lookup k l.
Proof.
  intros N. destruct o as [x|]; cbn [key_frames app lookup alookup]; [|reflexivity].
  destruct (String.eqb "src" k) eqn:H; [|reflexivity]. apply String.eqb_eq in H. congruence.
Qed.
Lemma entered_lookup f v s pid p k : k <> "src" -> k <> "field" -> k <> "parent" ->
  lookup k (stk (entered f v s pid p)) = lookup k (stk s).
Proof.
  intros A B C. unfold entered. cbn [stk]. rewrite key_frames_lookup by exact A. unfold field_frame. cbn [lookup alookup].
  destruct (String.eqb "field" k) eqn:H; [apply String.eqb_eq in H; congruence|].
  destruct (String.eqb "parent" k) eqn:H2; [apply String.eqb_eq in H2; congruence|]. reflexivity.
Qed.
Lemma entered_field f v s pid p : lookup "field" (stk (entered f v s pid p)) = Some (CField f).
Proof. unfold entered. cbn [stk]. rewrite key_frames_lookup by discriminate. reflexivity. Qed.

(** A state that differs from [s0] only in what reading caches and in errors. *)
Lemma report_run W kd s eid m es f pid p t :
  lookup "errors" (stk s) = Some (CErrs eid) -> nth_error (errs s) eid = Some (m, es) ->
  lookup "field" (stk s) = Some (CField f) -> lookup "src_path" (stk s) = Some (CPath pid) ->
  nth_error (paths s) pid = Some p -> p_str (w_env W) p = Ok t ->
  report W kd s = (match m with Raise => Exn (EForm (es ++ [MkErr kd t (f_name f) (Some pid)])) | Collect => Ok tt end,
                   St (stk s) (forms s) (paths s) (replace_nth eid (m, es ++ [MkErr kd t (f_name f) (Some pid)]) (errs s))).
Proof.
  intros A B C D F G. unfold report, path_text, call_errs, extend_errs, ctx_get, ctx_get_opt, bind, get. rewrite A. cbn [ret].
  rewrite C. cbn [ret]. rewrite D. cbn [ret]. unfold on_path. rewrite F, G. cbn [stk forms paths errs ret fst snd].
  rewrite replace_same by exact F. rewrite B.
  assert (L : (eid < length (errs s))%nat) by (apply nth_error_Some; congruence).
  cbn [errs]. rewrite nth_replace_eq by exact L. destruct m; reflexivity.
Qed.
Lemma report_text_fail W kd s eid m es f pid p e :
  lookup "errors" (stk s) = Some (CErrs eid) -> nth_error (errs s) eid = Some (m, es) ->
  lookup "field" (stk s) = Some (CField f) -> lookup "src_path" (stk s) = Some (CPath pid) ->
  nth_error (paths s) pid = Some p -> p_str (w_env W) p = Exn e ->
  report W kd s = (Exn e, s).
Proof.
  intros A B C D F G. unfold report, path_text, ctx_get, ctx_get_opt, bind, get. rewrite A. cbn [ret].
  rewrite C. cbn [ret]. rewrite D. cbn [ret]. unfold on_path. rewrite F, G. rewrite replace_same by exact F. now destruct s.
Qed.
