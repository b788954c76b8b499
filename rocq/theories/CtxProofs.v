(** * CtxProofs: context properties (C01-C06). *)
From Verif Require Import PyBase PyStr Source Field Context Fields Shape Balance Threads SpecCtx.
From Coq Require Import Lia.

Lemma push_run W kw s s1 : wf s -> block kw -> push W kw s = (Ok tt, s1) ->
  wf s1 /\ exists f, stk s1 = f :: stk s /\ forms s1 = forms s /\ errs s1 = errs s /\
  ((f = kw /\ alookup kw "src" = None /\ shapes s1 = shapes s) \/
   (f = kw /\ exists c p sh0, alookup kw "src" = Some c /\ lookup "src_path" (stk s) = Some (CPath p) /\
      nth_error (shapes s) p = Some sh0 /\ wf_shape sh0 /\
      shapes s1 = replace_nth p (sh_append (key_of_cval c) sh0) (shapes s)) \/
   (f = ("src_path", CPath (length (shapes s))) :: kw /\ exists sh, shapes s1 = shapes s ++ [sh])).
Proof.
  intros WF HB HP. unfold block in HB. unfold push in HP. destruct (alookup kw "src") as [c|] eqn:HS.
  - assert (K : forall k, key_of_cval c = k -> (bind cur_path (fun pid =>
        bind (on_path W pid (fun _ _ p => (p_append k p, Ok tt))) (fun _ => push_frame kw))) s = (Ok tt, s1)
        -> wf s1 /\ exists f, stk s1 = f :: stk s /\ forms s1 = forms s /\ errs s1 = errs s /\
           ((f = kw /\ Some c = None /\ shapes s1 = shapes s) \/
            (f = kw /\ exists c0 p sh0, Some c = Some c0 /\ lookup "src_path" (stk s) = Some (CPath p) /\
              nth_error (shapes s) p = Some sh0 /\ wf_shape sh0 /\
              shapes s1 = replace_nth p (sh_append (key_of_cval c0) sh0) (shapes s)) \/
            (f = ("src_path", CPath (length (shapes s))) :: kw /\ exists sh, shapes s1 = shapes s ++ [sh]))).
    { clear HP. intros k Hk HP. unfold bind in HP.
      destruct (cur_path_run s WF) as [(p & C1 & C2 & C3)|(C1 & e & C2)];
        [|rewrite C2 in HP; discriminate].
      rewrite C1 in HP. unfold on_path in HP.
      destruct (nth_error (paths s) p) as [q|] eqn:Hq; [|apply nth_error_None in Hq; lia].
      cbn in HP. inversion HP; subst s1; clear HP.
      assert (Hq' : nth_error (shapes s) p = Some (pshape q)) by (unfold shapes; now rewrite nth_error_map, Hq).
      assert (WQ : wf_shape (pshape q)).
      { pose proof (wf_paths _ WF) as F. rewrite Forall_forall in F. apply F. eapply nth_error_In; eauto. }
      set (s1 := St (kw :: stk s) (forms s) (replace_nth p (p_append k q) (paths s)) (errs s)).
      assert (S1 : shapes s1 = replace_nth p (sh_append k (pshape q)) (shapes s)).
      { unfold s1, shapes. cbn. rewrite map_replace. now rewrite p_append_shape. }
      assert (Lp : (p < length (shapes s))%nat) by (apply nth_error_Some; congruence).
      split.
      - split.
        + rewrite S1. cbn [s1 stk wfs]. rewrite HB, HS. exists p, (pshape q). repeat split; auto.
          * rewrite Hk. now rewrite nth_replace_eq.
          * rewrite replace_twice, replace_same by exact Hq'. exact (wf_stk _ WF).
        + rewrite S1. apply Forall_replace; [now apply wf_append|exact (wf_paths _ WF)].
      - exists kw. repeat split; auto. right; left. split; [reflexivity|].
        exists c, p, (pshape q). rewrite Hk. repeat split; auto. }
    destruct c as [|v|k|sr|pi|ei|fi|fd|tg]; try (eapply K; [|exact HP]; reflexivity).
    clear K. unfold bind in HP. destruct (source_path (w_env W) (entries s) sr) as [p|e] eqn:Hsp; [|discriminate].
    cbn in HP. inversion HP; subst s1; clear HP.
    set (s1 := St ((("src_path", CPath (length (paths s))) :: kw) :: stk s) (forms s) (paths s ++ [p]) (errs s)).
    assert (S1 : shapes s1 = shapes s ++ [pshape p]) by (unfold shapes; cbn; now rewrite map_app).
    match goal with |- wf ?x /\ _ => change x with s1 end.
    assert (WP : wf_shape (pshape p)) by exact (source_path_wf _ _ _ _ Hsp).
    split.
    + split.
      * rewrite S1. cbn [s1 stk wfs alookup]. cbn. split; [|right; now apply wfs_extend, wf_stk].
        right. eexists; split; [reflexivity|]. split.
        -- rewrite app_length. unfold shapes. rewrite map_length. cbn. lia.
        -- intros I. pose proof (wfs_installs_bound _ _ _ (wf_stk _ WF) I) as L. unfold shapes in L.
           rewrite map_length in L. lia.
      * rewrite S1. apply Forall_app; split; [exact (wf_paths _ WF)|auto].
    + eexists. split; [reflexivity|]. split; [reflexivity|]. split; [reflexivity|]. right; right. split; [|exists (pshape p); exact S1].
      unfold shapes. now rewrite map_length.
  - cbn in HP. inversion HP; subst s1; clear HP.
    split.
    + split; [|exact (wf_paths _ WF)]. cbn [stk wfs]. rewrite HB, HS. exact (wf_stk _ WF).
    + exists kw. repeat split; auto.
Qed.

Lemma reset_wf s : wf s -> wf (snd (push_frame [("src", CNone); ("src_path", CNone)] s)).
Proof. intros WF. split; [|exact (wf_paths _ WF)]. cbn. split; [now left|]. right. exact (wf_stk _ WF). Qed.

Lemma restore_wf W s : wf s -> (1 < length (stk s))%nat -> wf (snd (restore W s)).
Proof.
  intros WF L. unfold restore. destruct (stk s) as [|f rest] eqn:HS; [cbn in L; lia|].
  pose proof (wf_stk _ WF) as WS. rewrite HS in WS. cbn [wfs] in WS.
  assert (NR : rest <> []) by (intros ->; cbn in L; lia).
  unfold bind at 1, set_stk. unfold has_key. destruct (alookup f "src_path") as [c|].
  - rewrite andb_false_r. cbn. destruct WS as [_ [HN|WS]]; [contradiction|]. split; [exact WS|exact (wf_paths _ WF)].
  - destruct (alookup f "src") as [c|]; cbn [andb negb].
    + destruct WS as (p & s0 & P1 & P2 & P3 & P4).
      set (s' := St rest (forms s) (paths s) (errs s)). unfold bind.
      rewrite (cur_path_at s' p P1). unfold on_path. cbn [s' paths].
      assert (P2' := P2). unfold shapes in P2. rewrite nth_error_map in P2.
      destruct (nth_error (paths s) p) as [q|] eqn:Hq; [|discriminate]. cbn in P2. injection P2 as P2.
      destruct (pop_append _ _ _ P3 P2) as (q' & Q1 & Q2). rewrite Q1. cbn [snd stk forms errs].
      split; unfold shapes; cbn [stk paths]; rewrite map_replace, Q2; fold (shapes s).
      * exact P4.
      * apply Forall_replace; [exact P3|exact (wf_paths _ WF)].
    + cbn. split; [exact WS|exact (wf_paths _ WF)].
Qed.

Lemma rewind_run W stop s i : wf s -> find_frame stop (stk s) = Some (S i) ->
  exists s1, rewind W stop s = (Ok (rev (firstn (S i) (stk s))), s1) /\ wf s1 /\
    stk s1 = skipn (S i) (stk s) /\ forms s1 = forms s /\ errs s1 = errs s /\
    ((lookup "src_path" (stk s1) = Some CNone /\ shapes s1 = shapes s) \/
     exists p sh0, lookup "src_path" (stk s1) = Some (CPath p) /\
       nth_error (shapes s) p = Some (apps (src_frames (rev (firstn (S i) (stk s)))) sh0) /\ wf_shape sh0 /\
       shapes s1 = replace_nth p sh0 (shapes s)).
Proof.
  intros WF Hi. unfold rewind. rewrite Hi.
  destruct (find_frame_split _ _ _ Hi) as (a & f & b & Ea & La).
  assert (FS : firstn (S i) (stk s) = a).
  { rewrite Ea, <- La, firstn_app, Nat.sub_diag, firstn_all. apply app_nil_r. }
  assert (SS : skipn (S i) (stk s) = f :: b).
  { rewrite Ea, <- La, skipn_app, Nat.sub_diag, skipn_all. reflexivity. }
  rewrite FS, SS. set (rest := f :: b) in *.
  set (s1 := St rest (forms s) (paths s) (errs s)).
  pose proof (wf_stk _ WF) as WS. rewrite Ea in WS.
  unfold bind at 1, set_stk at 1. fold s1.
  destruct (wfs_suffix a rest ltac:(discriminate) _ WS) as (sh' & _ & WR).
  destruct (wfs_lookup _ _ WR) as (c & Hc & PC).
  unfold bind at 1. rewrite (ctx_get_at s1 _ _ Hc).
  destruct PC as [->|[p ->]]; cbn [is_none_c].
  - unfold bind at 1, ret at 1. exists s1. repeat split; auto.
    + cbn [s1 stk]. eapply unwind_none; eauto.
    + exact (wf_paths _ WF).
  - destruct (unwind_path _ _ _ _ Hc WS) as (s0 & U1 & U2 & U3).
    assert (W0 : wf_shape s0) by (apply U2; eapply shapes_wf_unwind; [exact (wf_paths _ WF)|exact U1]).
    destruct (pops_run W p (src_frames (rev a)) s0 s1 Hc U1 W0) as (ps & P1 & P2).
    unfold bind at 1. rewrite P1. unfold ret at 1. cbn [s1 stk forms errs] in *.
    eexists. split; [reflexivity|]. repeat split; auto.
    + unfold shapes. cbn [paths stk]. rewrite P2. exact U3.
    + unfold shapes. cbn [paths stk]. rewrite P2. apply Forall_replace; [exact W0|exact (wf_paths _ WF)].
    + right. exists p, s0. repeat split; auto.
Qed.

Lemma reach_wf W s : reach W s -> wf s.
Proof.
  induction 1.
  - apply wf_init.
  - eapply push_run; eauto.
  - now apply restore_wf.
  - now apply reset_wf.
  - destruct (find_frame stop (stk s)) as [[|i]|] eqn:Hf.
    + congruence.
    + destruct (rewind_run W stop s i IHreach Hf) as (s1 & R & W1 & _). rewrite R in H1.
      inversion H1; subst. exact W1.
    + unfold rewind in H1. rewrite Hf in H1. discriminate.
  - split; [exact (wf_stk _ IHreach)|exact (wf_paths _ IHreach)].
  - eapply stable_wf; [exact IHreach|]. now apply good_new_form.
  - eapply stable_wf; [exact IHreach|]. now apply good_run; [apply good_field_map|].
  - eapply stable_wf; [exact IHreach|]. now apply good_field_map.
  - eapply stable_wf; [exact IHreach|]. now apply good_Form_map.
Qed.

Lemma stable_same s s' : stable s s' -> same_context s s'.
Proof.
  intros [A (more & B & _) _ _]. split; [exact A|]. intros i p H.
  assert (N : nth_error (shapes s') i = Some (pshape p)).
  { rewrite B, nth_error_app1.
    - unfold shapes. now rewrite nth_error_map, H.
    - unfold shapes. rewrite map_length. apply nth_error_Some. congruence. }
  unfold shapes in N. rewrite nth_error_map in N. destruct (nth_error (paths s') i) as [p'|]; [|discriminate].
  exists p'. split; [reflexivity|]. cbn in N. injection N as N. now rewrite !p_keys_shape, N.
Qed.

(** C01 *)
Lemma C01_form_map_lem W fuel s id a tags rst u m :
  reach W s -> same_context s (snd (Form_map W fuel id a tags rst u m s)).
Proof. intros R. apply stable_same. apply good_Form_map. eapply reach_wf; eauto. Qed.
Lemma C01_field_map_lem W fuel s f v :
  reach W s -> same_context s (snd (field_map W fuel f v s)).
Proof. intros R. apply stable_same. apply good_field_map. eapply reach_wf; eauto. Qed.
Lemma C01_attribute_lem W fuel s id a :
  reach W s -> same_context s (snd (form_getattr W (field_map W fuel) id a s)).
Proof. intros R. apply stable_same. apply good_form_getattr; [apply good_field_map|]. eapply reach_wf; eauto. Qed.
Lemma C01_hook_lem W fuel s p :
  reach W s -> same_context s (snd (run W (field_map W fuel) p s)).
Proof. intros R. apply stable_same. apply good_run; [apply good_field_map|]. eapply reach_wf; eauto. Qed.

(** C02 *)
Lemma push_stack W kw s s1 : push W kw s = (Ok tt, s1) ->
  exists f, stk s1 = f :: stk s /\
    forall k, k <> "src_path" -> alookup f k = alookup kw k.
Proof.
  unfold push. destruct (alookup kw "src") as [c|].
  - assert (K : forall k, (bind cur_path (fun pid =>
        bind (on_path W pid (fun _ _ p => (p_append k p, Ok tt))) (fun _ => push_frame kw))) s = (Ok tt, s1)
        -> exists f, stk s1 = f :: stk s /\
             forall k, k <> "src_path" -> alookup f k = alookup kw k).
    { intros k H. unfold bind in H. unfold cur_path, ctx_get, ctx_get_opt, bind, get in H.
      destruct (lookup "src_path" (stk s)) as [[]|]; cbn in H; try discriminate.
      unfold on_path in H. destruct (nth_error (paths s) pid); cbn in H; inversion H; subst; cbn; eauto. }
    destruct c as [|v|k|sr|pi|ei|fi|fd|tg]; try apply K. intros H. unfold bind in H.
    destruct (source_path (w_env W) (entries s) sr); [|discriminate]. cbn in H. inversion H; subst. cbn.
    eexists; split; [reflexivity|]. intros k Hk. cbn [alookup]. destruct (String.eqb_spec "src_path" k); [congruence|reflexivity].
  - intros H. cbn in H. inversion H; subst. cbn. eauto.
Qed.
Lemma C02_inside_lem W kw s s1 k : push W kw s = (Ok tt, s1) -> k <> "src_path" ->
  lookup k (stk s1) = match alookup kw k with Some c => Some c | None => lookup k (stk s) end.
Proof.
  intros H Hk. destruct (push_stack _ _ _ _ H) as (f & E & L). rewrite E. cbn. now rewrite L.
Qed.
Lemma C02_nest_lem W blocks : forall s s1 k, open_all W blocks s = (Ok tt, s1) -> k <> "src_path" ->
  lookup k (stk s1) = latest k blocks (lookup k (stk s)).
Proof.
  induction blocks as [|kw blocks IH]; intros s s1 k H Hk; cbn in *.
  - now inversion H.
  - unfold bind in H. destruct (push W kw s) as [[[]|e] s'] eqn:HP; [|discriminate].
    rewrite (IH _ _ _ H Hk). now rewrite (C02_inside_lem _ _ _ _ _ HP Hk).
Qed.
Lemma on_path_stk {A} W pid op s : stk (snd (@on_path A W pid op s)) = stk s.
Proof. unfold on_path. destruct (nth_error (paths s) pid); [|reflexivity]. now destruct (op (w_env W) (entries s) p). Qed.
Lemma cur_path_snd s : snd (cur_path s) = s.
Proof.
  unfold cur_path, ctx_get, ctx_get_opt, bind, get. destruct (lookup "src_path" (stk s)) as [[]|]; reflexivity.
Qed.
Lemma push_fail_stk W kw s e s1 : push W kw s = (Exn e, s1) -> stk s1 = stk s.
Proof.
  unfold push. destruct (alookup kw "src") as [c|]; [|discriminate].
  assert (K : forall k, (bind cur_path (fun pid =>
        bind (on_path W pid (fun _ _ p => (p_append k p, Ok tt))) (fun _ => push_frame kw))) s = (Exn e, s1)
        -> stk s1 = stk s).
  { intros k H. unfold bind in H. pose proof (cur_path_snd s) as C. destruct (cur_path s) as [[p|e'] s'].
    - cbn in C. subst s'. unfold on_path in H. destruct (nth_error (paths s) p); cbn in H; [discriminate|].
      now inversion H.
    - cbn in C. subst. now inversion H; subst. }
  destruct c as [|v|k|sr|pi|ei|fi|fd|tg]; try apply K. unfold bind. destruct (source_path (w_env W) (entries s) sr); [discriminate|].
  now inversion 1.
Qed.
Lemma restore_stk W f rest s : stk s = f :: rest -> stk (snd (restore W s)) = rest.
Proof.
  intros H. unfold restore. rewrite H. unfold bind at 1, set_stk.
  destruct (has_key "src" f && negb (has_key "src_path" f)); [|reflexivity].
  unfold bind. set (s' := St rest (forms s) (paths s) (errs s)).
  pose proof (cur_path_snd s') as C. destruct (cur_path s') as [[p|e] s2]; cbn in C; subst s2; [|reflexivity].
  now rewrite on_path_stk.
Qed.
Lemma C02_after_lem {A} W kw (body : M A) s k :
  (forall s, stk (snd (body s)) = stk s) ->
  lookup k (stk (snd (with_ctx W kw body s))) = lookup k (stk s).
Proof.
  intros HB. f_equal. unfold with_ctx, closing. destruct (push W kw s) as [[[]|e] s1] eqn:HP.
  - destruct (push_stack _ _ _ _ HP) as (f & E & _).
    pose proof (HB s1) as B. destruct (body s1) as [r s2]. cbn in B. rewrite E in B.
    pose proof (restore_stk W f (stk s) s2 B) as R. destruct (restore W s2) as [[]s3]; exact R.
  - eapply push_fail_stk; eauto.
Qed.
Lemma C02_after_map_lem W fuel kw p s k : reach W s -> block kw ->
  lookup k (stk (snd (with_ctx W kw (run W (field_map W fuel) p) s))) = lookup k (stk s).
Proof.
  intros R HB. f_equal. apply stable_stk. apply with_ctx_good; [exact HB| |eapply reach_wf; eauto].
  apply good_run, good_field_map.
Qed.

(** C03 *)
Lemma later_inv W s0 s l : wf s0 -> later W s0 s l ->
  wf s /\ stk s = l ++ stk s0 /\
  forall p sh0, lookup "src_path" (stk s0) = Some (CPath p) -> nth_error (shapes s0) p = Some sh0 ->
    nth_error (shapes s) p = Some (apps (src_frames (rev l)) sh0).
Proof.
  intros W0. induction 1 as [|kw s s' l HL IH HB HP|s l HL IH|fuel pr s l HL IH].
  - repeat split; auto; apply W0.
  - destruct IH as (WF & E & K). destruct (push_run _ _ _ _ WF HB HP) as (W1 & f & E1 & _ & _ & D).
    split; [exact W1|]. rewrite E1. cbn [firstn app]. split; [now rewrite E|].
    intros p sh0 Hp Hn. specialize (K p sh0 Hp Hn).
    assert (Lp : (p < length (shapes s))%nat) by (apply nth_error_Some; congruence).
    cbn [rev]. rewrite src_frames_app.
    assert (Ef : forall b : bool, (if b then src_frames (rev l) else src_frames (rev l)) = src_frames (rev l)) by now intros [].
    destruct D as [(-> & N & S)|[(-> & c & q & sh1 & N & Hq & Nq & Wq & S)|(-> & sh & S)]].
    + assert (Z : src_frames [kw] = []) by (cbn; unfold has_key; now rewrite HB, N).
      rewrite Z, app_nil_r, Ef, S. exact K.
    + assert (Z : src_frames [kw] = [c]) by (cbn; unfold has_key; now rewrite HB, N).
      rewrite Z. rewrite E in Hq.
      destruct (no_install_dec l) as [[I1 I2]|(I1 & a & g & b & d & El & J1 & J2)].
      * rewrite I2. rewrite lookup_app_none in Hq by exact I1. rewrite Hp in Hq. injection Hq as <-.
        rewrite S, nth_replace_eq by exact Lp. rewrite apps_app. cbn. congruence.
      * rewrite I1, S. rewrite nth_replace_neq; [exact K|].
        intros ->. subst l. rewrite <- app_assoc, lookup_app_none in Hq by exact J1. cbn in Hq.
        rewrite J2 in Hq. injection Hq as ->.
        assert (NR : stk s0 <> []) by (intros Z0; rewrite Z0 in Hp; discriminate).
        pose proof (wf_stk _ WF) as WS. rewrite E in WS.
        eapply (wfs_fresh p _ _ _ NR WS); [exists g; split; [apply in_or_app; right; now left|exact J2]|].
        now apply installs_lookup.
    + match goal with |- context [src_frames [?x]] => change (src_frames [x]) with (@nil cval) end.
      rewrite app_nil_r, Ef, S. rewrite nth_error_app1 by exact Lp. exact K.
  - destruct IH as (WF & E & K). split; [now apply reset_wf|]. cbn [push_frame snd stk].
    split; [cbn; now rewrite E|]. intros p sh0 Hp Hn. cbn [rev]. rewrite src_frames_app.
    match goal with |- context [src_frames [?x]] => change (src_frames [x]) with (@nil cval) end.
    rewrite app_nil_r. specialize (K p sh0 Hp Hn).
    assert (Ef : forall b : bool, (if b then src_frames (rev l) else src_frames (rev l)) = src_frames (rev l)) by now intros [].
    rewrite Ef. exact K.
  - destruct IH as (WF & E & K).
    assert (G : stable s (snd (run W (field_map W fuel) pr s))) by (apply good_run; [apply good_field_map|exact WF]).
    split; [eapply stable_wf; eauto|]. destruct G as [GA (more & GB & _) _ _]. split; [now rewrite GA|].
    intros p sh0 Hp Hn. specialize (K p sh0 Hp Hn). rewrite GB, nth_error_app1; [exact K|].
    apply nth_error_Some. congruence.
Qed.

Lemma find_frame_app stop a l : Forall (fun f => stop f = false) a ->
  find_frame stop (a ++ l) = option_map (fun n => (length a + n)%nat) (find_frame stop l).
Proof.
  induction 1 as [|f a H _ IH]; cbn; [now destruct (find_frame stop l)|].
  rewrite H, IH. now destruct (find_frame stop l).
Qed.

(** Every shape is the shape of a path. *)
Lemma shape_of_path s : exists p, pshape p = s.
Proof.
  pose (sub := fun n => Source.PPath (SJson VNone false None) VNone (repeat (Part (KInt 0) None) n)).
  pose (mk := fun b : bsh => match snd b with
                | inl ns => BU (UPath (USource [] MFirst MFirst None) VNone (map (fun k => Part k None) (fst b)) (map sub ns))
                | inr src => BP (Source.PPath src VNone (map (fun k => Part k None) (fst b))) end).
  assert (M1 : forall b, bshape (mk b) = b).
  { intros [ks [ns|src]]; unfold mk; cbn [bshape fst snd]; f_equal.
    - unfold up_keys. cbn [up_parts]. rewrite map_map. cbn. apply map_id.
    - f_equal. cbn [up_paths]. rewrite map_map. rewrite <- (map_id ns) at 2. apply map_ext. intros n.
      unfold sub. cbn [pp_parts]. apply repeat_length.
    - unfold pp_keys. cbn [pp_parts]. rewrite map_map. cbn. apply map_id. }
  destruct s as [b|sel dne l].
  - exists (PBase (mk b)). cbn [pshape]. now rewrite M1.
  - exists (PMount sel (Source.PPath (snd dne) VNone (map (fun k => Part k None) (fst dne)))
                   (map (fun kb => (fst kb, mk (snd kb))) l)).
    cbn [pshape]. f_equal.
    + destruct dne as [dk ds]. f_equal. unfold pp_keys. cbn [pp_parts fst]. rewrite map_map. cbn. apply map_id.
    + unfold named_shapes. rewrite map_map. rewrite <- (map_id l) at 2. apply map_ext.
      intros [n x]. cbn [fst snd]. now rewrite M1.
Qed.

Lemma apps_inj : forall ks s s', wf_shape s -> wf_shape s' -> apps ks s = apps ks s' -> s = s'.
Proof.
  induction ks as [|c ks IH]; intros s s' W1 W2 H; [exact H|]. cbn [apps] in H.
  apply IH in H; auto using wf_append.
  destruct (shape_of_path (sh_append (key_of_cval c) s)) as [p P].
  destruct (pop_append _ _ _ W1 P) as (p1 & A1 & A2).
  rewrite H in P. destruct (pop_append _ _ _ W2 P) as (p2 & B1 & B2). congruence.
Qed.

Lemma shapes_cur s s' : stk s = stk s' -> (forall p, lookup "src_path" (stk s) = Some (CPath p) ->
  nth_error (shapes s) p = nth_error (shapes s') p) -> cur_keys s = cur_keys s'.
Proof.
  intros E H. unfold cur_keys. rewrite <- E. destruct (lookup "src_path" (stk s)) as [[]|]; try reflexivity.
  specialize (H _ eq_refl). unfold shapes in H. rewrite !nth_error_map in H.
  destruct (nth_error (paths s) pid) as [a|], (nth_error (paths s') pid) as [b|]; try discriminate; [|reflexivity].
  cbn in *. injection H as H. now rewrite !p_keys_shape, H.
Qed.

Lemma C03_rewind_lem {A} W s0 s l stop (f0 : frame) rest0 :
  reach W s0 -> later W s0 s l -> l <> [] -> stk s0 = f0 :: rest0 ->
  Forall (fun f => stop f = false) l -> stop f0 = true ->
  exists s1, rewind W stop s = (Ok (rev l), s1) /\
    stk s1 = stk s0 /\ cur_keys s1 = cur_keys s0 /\
    forall (body : M A), (forall s, stable s (snd (body s))) ->
      same_context s (snd (with_rewind W stop body s)).
Proof.
  intros R0 HL NE E0 HF HT. pose proof (reach_wf _ _ R0) as W0.
  destruct (later_inv _ _ _ _ W0 HL) as (WF & E & K).
  assert (Hi : find_frame stop (stk s) = Some (length l)).
  { rewrite E, find_frame_app by exact HF. rewrite E0. cbn. rewrite HT. cbn. f_equal. lia. }
  destruct l as [|f1 l]; [congruence|]. set (n := length l).
  destruct (rewind_run W stop s n WF Hi) as (s1 & R1 & W1 & S1 & _ & _ & D).
  assert (Fn : firstn (S n) (stk s) = f1 :: l).
  { rewrite E. change (S n) with (length (f1 :: l)). rewrite firstn_app, Nat.sub_diag, firstn_all. apply app_nil_r. }
  assert (Sn : skipn (S n) (stk s) = stk s0).
  { rewrite E. change (S n) with (length (f1 :: l)). now rewrite skipn_app, Nat.sub_diag, skipn_all. }
  exists s1. rewrite R1, Fn. split; [reflexivity|]. rewrite Sn in S1. split; [exact S1|]. split.
  - apply shapes_cur; [exact S1|]. intros p Hp. destruct D as [(D & _)|(q & sh & D1 & D2 & D3 & D4)].
    + congruence.
    + rewrite Hp in D1. injection D1 as <-. rewrite S1 in Hp.
      assert (N0 : exists sh0, nth_error (shapes s0) p = Some sh0).
      { destruct (nth_error (shapes s0) p) eqn:N; [eauto|]. apply nth_error_None in N.
        pose proof (wfs_installs_bound _ _ _ (wf_stk _ W0) (installs_lookup _ _ Hp)). lia. }
      destruct N0 as [sh0 N0]. pose proof (K _ _ Hp N0) as K'. rewrite Fn in D2.
      assert (WS0 : wf_shape sh0).
      { pose proof (wf_paths _ W0) as F. rewrite Forall_forall in F. apply F. eapply nth_error_In; eauto. }
      rewrite K' in D2. injection D2 as D2. apply apps_inj in D2; auto. subst sh.
      rewrite N0, D4. apply nth_replace_eq. apply nth_error_Some. congruence.
  - intros body HB. apply stable_same. apply with_rewind_goodat; [exact WF| |].
    + intros s' _. apply HB.
    + rewrite Hi. discriminate.
Qed.

Lemma C03_rewind_prog_lem W fuel p s0 s l stop (f0 : frame) rest0 :
  reach W s0 -> later W s0 s l -> l <> [] -> stk s0 = f0 :: rest0 ->
  Forall (fun f => stop f = false) l -> stop f0 = true ->
  exists s1, rewind W stop s = (Ok (rev l), s1) /\
    stk s1 = stk s0 /\ cur_keys s1 = cur_keys s0 /\
    same_context s (snd (with_rewind W stop (run W (field_map W fuel) p) s)).
Proof.
  intros R0 HL NE E0 HF HT.
  destruct (@C03_rewind_lem unit W s0 s l stop f0 rest0 R0 HL NE E0 HF HT) as (s1 & A1 & A2 & A3 & _).
  exists s1. repeat split; auto.
  - destruct (later_inv _ _ _ _ (reach_wf _ _ R0) HL) as (WF & E & _).
    apply stable_same. apply with_rewind_goodat; [exact WF|apply good_run, good_field_map|].
    rewrite E, find_frame_app by exact HF. rewrite E0. cbn. rewrite HT. cbn.
    destruct l; [congruence|discriminate].
  - destruct (later_inv _ _ _ _ (reach_wf _ _ R0) HL) as (WF & E & _).
    apply stable_same. apply with_rewind_goodat; [exact WF|apply good_run, good_field_map|].
    rewrite E, find_frame_app by exact HF. rewrite E0. cbn. rewrite HT. cbn.
    destruct l; [congruence|discriminate].
Qed.

(** C04 *)
Lemma C04_empties_lem W stop s f rest : stk s = f :: rest -> stop f = true ->
  stk (snd (rewind W stop s)) = [] /\
  fst (rewind W stop s) = Exn (EAttr "'Context' object has no attribute 'src_path'").
Proof.
  intros E H. unfold rewind. rewrite E. cbn [find_frame]. rewrite H.
  rewrite skipn_all, firstn_all. split; reflexivity.
Qed.

(** C05 *)
Lemma C05_lem W stop s : Forall (fun f => stop f = false) (stk s) ->
  rewind W stop s = (Exn ERewind, s).
Proof.
  intros H. unfold rewind. replace (find_frame stop (stk s)) with (@None nat); [reflexivity|].
  symmetry. induction H as [|f l Hf _ IH]; [reflexivity|]. cbn. rewrite Hf. now rewrite IH.
Qed.
Lemma C05_with_lem {A} W stop (body : M A) s : Forall (fun f => stop f = false) (stk s) ->
  with_rewind W stop body s = (Exn ERewind, s).
Proof. intros H. unfold with_rewind, bind. now rewrite (C05_lem W stop s H). Qed.

(** C06 *)
Lemma alone_upd {A} (l : list (thread * M A)) : forall c t,
  of_thread t (schedule c l) = alone (c t) (of_thread t l).
Proof.
  induction l as [|[u op] l IH]; intros c t; cbn [schedule]; [reflexivity|].
  unfold tstep. destruct (op (c u)) as [r s'] eqn:Ho. unfold of_thread in *. cbn [filter fst].
  destruct (Nat.eqb_spec u t) as [->|N].
  - cbn [map snd alone]. rewrite Ho. f_equal. rewrite IH. unfold upd. now rewrite Nat.eqb_refl.
  - rewrite IH. unfold upd. destruct (Nat.eqb_spec t u); [congruence|reflexivity].
Qed.
Lemma C06_lem {A} (l : list (thread * M A)) t :
  of_thread t (schedule cells0 l) = alone init (of_thread t l).
Proof. apply alone_upd. Qed.
