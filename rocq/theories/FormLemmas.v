(** * FormLemmas: whole runs of [Form.map] (C37, C39, C43, C44). *)
From Verif Require Import PyBase PyStr Source Field Context Fields SpecCtx SpecField SpecBox SpecLocal SpecDrop SpecForm Shape Reads Balance CtxProofs Run FieldProofs FieldLemmas BoxProofs LocalProofs StillProofs DropProofs FormProofs.
From Coq Require Import Lia.

(** A block with a source of its own. *)
Lemma block_src {A} W src e (body : M A) s p : wf s -> good body -> source_path (w_env W) (entries s) src = Ok p ->
  let s1 := St ([("src_path", CPath (length (paths s))); ("src", CSrc src); ("errors", CErrs e)] :: stk s) (forms s) (paths s ++ [p]) (errs s) in
  wf s1 /\ with_ctx W [("src", CSrc src); ("errors", CErrs e)] body s =
    (fst (body s1), St (stk s) (forms (snd (body s1))) (paths (snd (body s1))) (errs (snd (body s1)))).
Proof.
  intros WF G SP s1.
  assert (WFp : wf_shape (pshape p)) by exact (source_path_wf _ _ _ _ SP).
  assert (WF1 : wf s1).
  { split; cbn [s1 stk paths]; unfold shapes; cbn [s1 paths]; rewrite map_app; cbn [map].
    - cbn [wfs]. cbn [alookup fst snd]. change (alookup (("src_path", CPath (length (paths s))) :: [("src", CSrc src); ("errors", CErrs e)]) "src_path") with (Some (CPath (length (paths s)))).
      cbv beta iota. split.
      + right. exists (length (paths s)). split; [reflexivity|]. split; [rewrite app_length, map_length; cbn [length]; lia|].
        intros I. apply (wfs_installs_bound _ _ _ (wf_stk _ WF)) in I. unfold shapes in I. rewrite map_length in I. lia.
      + right. apply wfs_extend. exact (wf_stk _ WF).
    - apply Forall_app. split; [exact (wf_paths _ WF)|constructor; [exact WFp|constructor]]. }
  split; [exact WF1|]. unfold with_ctx, closing.
  assert (PU : push W [("src", CSrc src); ("errors", CErrs e)] s = (Ok tt, s1)).
  { unfold push. change (alookup [("src", CSrc src); ("errors", CErrs e)] "src") with (Some (CSrc src)). cbv beta iota.
    rewrite bind_run, SP. reflexivity. }
  rewrite PU. specialize (G s1 WF1). unfold goodat in G. destruct (body s1) as [r s2]. cbn [fst snd] in *.
  unfold restore. rewrite (stable_stk _ _ G). cbn [s1 stk]. unfold bind, set_stk, has_key. cbn [alookup fst snd]. reflexivity.
Qed.

Section Map.
Variables (W : world) (n id : nat) (t : formty).
Let E := w_env W.
Let rec := field_map W n.

Definition fp_frame : frame := [("form", CForm id); ("parent", CForm id)].
Lemma good_rec f v : good (rec f v).
Proof. apply good_field_map. Qed.
Lemma body_run tg u s pid p l : wf s -> ignoring u -> nth_error (forms s) id = Some (t, l) ->
  lookup "src_path" (stk s) = Some (CPath pid) -> nth_error (paths s) pid = Some p ->
  forall q r, p_mapping E (entries s) p = (q, r) ->
  match r with
  | Exn x => form__map W rec id tg u s = (Exn x, St (stk s) (forms s) (replace_nth pid q (paths s)) (errs s))
  | Ok _ =>
    let s1 := St (fp_frame :: stk s) (forms s) (replace_nth pid q (paths s)) (errs s) in
    wf s1 /\ exists s', form__map W rec id tg u s = (fst (map_fields rec id tg (ft_fields t) s1), s') /\ stk s' = stk s /\
      forms s' = forms (snd (map_fields rec id tg (ft_fields t) s1)) /\ errs s' = errs (snd (map_fields rec id tg (ft_fields t) s1)) /\
      paths s' = paths (snd (map_fields rec id tg (ft_fields t) s1))
  end.
Proof.
  intros WF U F P1 P2 q r PM. unfold form__map. rewrite bind_run. unfold cur_path. rewrite (bind_run (ctx_get "src_path")), (ctx_get_at s "src_path" _ P1), ret_run.
  rewrite bind_run. unfold path_mapping, on_path. rewrite P2. fold E. rewrite PM. destruct r as [vw|x]; [|reflexivity]. cbv beta iota.
  set (s1 := St (fp_frame :: stk s) (forms s) (replace_nth pid q (paths s)) (errs s)).
  rewrite bind_run. unfold form_type, get. cbn [forms]. rewrite F. rewrite bind_run.
  set (s0 := St (stk s) (forms s) (replace_nth pid q (paths s)) (errs s)).
  assert (WF0 : wf s0).
  { assert (SH : shapes s0 = shapes s).
    { unfold shapes, s0. cbn [paths]. rewrite map_replace. apply replace_same. rewrite nth_error_map, P2. cbn [option_map]. f_equal.
      pose proof (preads_mapping E (entries s) p) as X. rewrite PM in X. cbn [fst] in X. congruence. }
    destruct WF as [A B]. split; rewrite SH; [exact A|exact B]. }
  assert (GM : good (map_fields rec id tg (ft_fields t))) by (apply good_map_fields; apply good_rec).
  destruct (block_plain W fp_frame (map_fields rec id tg (ft_fields t)) s0 WF0 GM eq_refl eq_refl) as (WF1 & s' & R & R1 & R2 & R3 & R4).
  split; [exact WF1|]. unfold fp_frame in R, R1, R2, R3, R4. cbn [s0 stk forms paths errs] in R, R1, R2, R3, R4. change (St ([("form", CForm id); ("parent", CForm id)] :: stk s) (forms s) (replace_nth pid q (paths s)) (errs s)) with s1 in R, R1, R2, R3, R4. rewrite R.
  exists s'. split; [|auto]. destruct (fst (map_fields rec id tg (ft_fields t) s1)) as [[]|x]; [|reflexivity].
  rewrite bind_run. destruct U as [-> | ->]; reflexivity.
Qed.

(** The prefix of [form.map]: tags and reset. *)
Lemma prefix_run (a : srcarg) (tags : list string) (rs : bool) (u : unm) (m : mode) (s : st) l : nth_error (forms s) id = Some (t, l) ->
  exists (tg : list string) (s0 : st), in_force s tags tg /\
    stk s0 = stk s /\ paths s0 = paths s /\ errs s0 = errs s /\
    (forall i, i <> id -> nth_error (forms s0) i = nth_error (forms s) i) /\
    nth_error (forms s0) id = Some (t, if rs then without (filter (selected tg) (ft_fields t)) l else l) /\
    form_map W rec id a tags rs u m s =
    (c <- ctx_get "src";
     eid <- (if is_anone a && negb (is_none_c c) then nested_map W rec id tg u m else root_map W rec id a tg u m);
     es <- errs_of eid;
     match m, es with Raise, _ :: _ => raise (EForm es) | _, _ => ret es end) s0.
Proof.
  intros N. destruct (effective_run tags s) as (tg & T & IF). exists tg. unfold form_map. rewrite bind_run, T.
  rewrite bind_run. unfold form_type, get. rewrite N. rewrite bind_run. destruct rs.
  - destruct (form_reset_run id tg (ft_fields t) s t l N) as (s0 & R & A1 & A2 & A3 & A4 & A5). rewrite R. exists s0. auto 10.
  - exists s. rewrite ret_run. auto 10.
Qed.

(** Either all fields map, or one raises. *)
Lemma loop_cases tg fs s m es eid : wf s -> nth_error (errs s) eid = Some (m, es) ->
  match map_fields rec id tg fs s with
  | (Ok _, s2) => exists vs news, maps W n id eid (filter (selected tg) fs) s vs news s2 /\ nth_error (errs s2) eid = Some (m, es ++ concat news)
  | (Exn x, s2) => maps_raise W n id eid (filter (selected tg) fs) s x s2
  end.
Proof.
  intros WF N. destruct (map_fields rec id tg fs s) as [[[]|x] s2] eqn:R; [now apply loop_inv|].
  revert s WF es N R. induction fs as [|f fs IH]; intros s WF es N R; cbn [map_fields filter] in *; [discriminate|].
  rewrite bind_run in R. destruct (selected tg f); [|rewrite ret_run in R; now apply (IH s WF es)].
  rewrite bind_run in R. change (VConst NONE) with NONEv in R. unfold rec at 1 in R. destruct (field_map W n f NONEv s) as [[v|y] s1] eqn:F.
  - assert (R' : map_fields rec id tg fs (if ignored v then s1 else stored id f v s1) = (Exn x, s2)).
    { destruct (ignored v); [rewrite ret_run in R|rewrite form_set_stored in R]; exact R. }
    pose proof (good_stable _ _ _ _ (good_field_map W n f NONEv) WF F) as S1.
    assert (S1' : stable s (if ignored v then s1 else stored id f v s1)).
    { destruct (ignored v); [exact S1|]. eapply stable_trans; [exact S1|apply stored_stable]. }
    destruct (stable_errs _ _ S1' _ _ _ N) as (mo & N1).
    eapply mr_later; [exact F|]. eapply IH; [eapply stable_wf; eauto|exact N1|exact R'].
  - injection R as <- <-. now apply mr_here.
Qed.

(** [form.map] with a source of its own. *)
Lemma root_run a src tags rs u m s l : wf s -> ignoring u -> nth_error (forms s) id = Some (t, l) -> at_top s a -> root_source t a = Ok src ->
  exists tg, in_force s tags tg /\
    outcome W n id src m rs (filter (selected tg) (ft_fields t)) s (fst (form_map W rec id a tags rs u m s)) (snd (form_map W rec id a tags rs u m s)).
Proof.
  intros WF U N AT RS. destruct (prefix_run a tags rs u m s l N) as (tg & s0 & IF & A1 & A2 & A3 & A4 & A5 & R). exists tg. split; [exact IF|].
  rewrite R. clear R. set (l0 := if rs then _ else _) in A5. set (gs := filter (selected tg) (ft_fields t)) in *.
  assert (WF0 : wf s0). { destruct WF as [B C]. split; unfold shapes in *; rewrite ?A1, ?A2; [exact B|exact C]. }
  assert (C : exists c, lookup "src" (stk s0) = Some c /\ is_anone a && negb (is_none_c c) = false).
  { rewrite A1. unfold at_top in AT. destruct a as [|v|s'].
    - destruct AT as (c & C1 & C2). exists c. split; [exact C1|]. cbn [is_anone andb]. now rewrite C2.
    - destruct v; try (destruct AT as (c' & C1); exists c'; split; [exact C1|reflexivity]).
      destruct AT as (c & C1 & C2). exists c. split; [exact C1|]. cbn [is_anone andb]. now rewrite C2.
    - destruct AT as (c & C1). exists c. split; [exact C1|reflexivity]. }
  destruct C as (c & C1 & C2). rewrite bind_run, (ctx_get_at s0 "src" c C1). rewrite bind_run, C2.
  set (k := length (errs s0)). set (s6 := St (stk s0) (forms s0) (paths s0) (errs s0 ++ [(m, [])])).
  assert (RM : root_map W rec id a tg u m s0 =
     match with_ctx W [("src", CSrc src); ("errors", CErrs k)] (form__map W rec id tg u) s6 with
     | (Ok _, s') => (Ok k, s') | (Exn e, s') => (Exn e, s') end).
  { unfold root_map. rewrite bind_run. unfold form_type, get. rewrite A5. rewrite bind_run, RS. reflexivity. }
  rewrite RM. clear RM.
  assert (WF6 : wf s6) by now apply new_errs_wf.
  destruct (source_path (w_env W) (entries s6) src) as [p|x] eqn:SP.
  2:{ assert (X : with_ctx W [("src", CSrc src); ("errors", CErrs k)] (form__map W rec id tg u) s6 = (Exn x, s6)).
      { unfold with_ctx, closing, push. change (alookup [("src", CSrc src); ("errors", CErrs k)] "src") with (Some (CSrc src)). cbv beta iota.
        now rewrite bind_run, SP. }
      rewrite X. cbn [fst snd]. eapply oc_unreadable. left. exact SP. }
  assert (GF : good (form__map W rec id tg u)) by (apply good_form__map; apply good_rec).
  destruct (block_src W src k (form__map W rec id tg u) s6 p WF6 GF SP) as (WF7 & R7). rewrite R7. clear R7.
  set (s7 := St _ (forms s6) _ _) in *.
  assert (N7 : nth_error (forms s7) id = Some (t, l0)) by exact A5.
  assert (P7 : nth_error (paths s7) (length (paths s6)) = Some p) by (cbn [s7 paths]; now rewrite nth_error_app2, Nat.sub_diag by lia).
  destruct (p_mapping E (entries s7) p) as [q [vw|x]] eqn:PM.
  2:{ pose proof (body_run tg u s7 (length (paths s6)) p l0 WF7 U N7 eq_refl P7 q _ PM) as X. cbv beta iota in X. rewrite X. cbn [fst snd].
      eapply oc_unreadable. right. exists p, q. split; [exact SP|exact PM]. }
  destruct (body_run tg u s7 (length (paths s6)) p l0 WF7 U N7 eq_refl P7 q _ PM) as (WF8 & s9 & R & B1 & B2 & B3 & B4).
  set (s8 := St (fp_frame :: stk s7) _ _ _) in *. rewrite R. cbn [fst snd].
  assert (N8 : nth_error (errs s8) k = Some (m, [])) by (cbn [s8 s7 s6 errs]; unfold k; now rewrite nth_error_app2, Nat.sub_diag by lia).
  assert (BG : begins W id src m rs gs s s8).
  { split; cbn [s8 s7 s6 stk errs forms paths].
    - unfold fp_frame, k. now rewrite A1, A2, A3.
    - exists (entries s7), p, q, vw. split; [exact SP|]. split; [exact PM|]. rewrite A2. clear.
      unfold replace_nth. rewrite nth_error_app2, Nat.sub_diag by lia. cbn [nth_error].
      rewrite firstn_app, Nat.sub_diag, firstn_O, app_nil_r, firstn_all. f_equal. rewrite skipn_all2; [reflexivity|]. rewrite app_length. cbn [length]. lia.
    - now rewrite A3.
    - exact A4.
    - now rewrite A5, N.
    - unfold entries_at. change (forms s8) with (forms s0). rewrite A5, N. reflexivity. }
  pose proof (loop_cases tg (ft_fields t) s8 m [] k WF8 N8) as L. assert (K : k = length (errs s)) by (unfold k; now rewrite A3).
  destruct (map_fields rec id tg (ft_fields t) s8) as [[u9|x] s10]; cbn [fst snd] in *.
  - destruct L as (vs & news & M & N10). cbn [app] in N10. rewrite bind_run. unfold errs_of, get. cbn [errs].
    rewrite B3, N10.
    assert (LB : left_by s s10 (St (stk s6) (forms s9) (paths s9) (errs s9))).
    { unfold left_by. cbn [stk forms paths errs s6]. auto. }
    rewrite B3 in LB. rewrite K in M. destruct m.
    + cbn [fst snd ret]. eapply oc_returns; [exact BG|exact M|exact LB|now left].
    + destruct (concat news) as [|e es] eqn:CN.
      * cbn [fst snd ret]. rewrite <- CN. eapply oc_returns; [exact BG|exact M|exact LB|now right].
      * cbn [fst snd raise]. rewrite <- CN. eapply oc_reports; [exact BG|exact M|exact LB|reflexivity|congruence].
  - rewrite K in L. eapply oc_raises; [exact BG|exact L|]. unfold left_by. cbn [stk forms paths errs s6]. auto.
Qed.
End Map.

(** ** Sub-forms *)
Lemma list_ext {A} : forall a b : list A, (forall i, nth_error a i = nth_error b i) -> a = b.
Proof.
  induction a as [|x a IH]; intros [|y b] H; [reflexivity|specialize (H 0%nat); discriminate|specialize (H 0%nat); discriminate|].
  pose proof (H 0%nat) as H0. cbn in H0. injection H0 as ->. f_equal. apply IH. intros i. exact (H (S i)).
Qed.
Section Sub.
Variables (W : world) (n : nat) (t : formty) (rs : bool) (u : unm).
Let E := w_env W.
Let rec := field_map W n.
Hypothesis U : ignoring u.

(** Mapping a new form at the current location. *)
Lemma parse_form_run w eid m es pid q0 q vw c tg :
  wf w -> lookup "errors" (stk w) = Some (CErrs eid) -> nth_error (errs w) eid = Some (m, es) ->
  lookup "src_path" (stk w) = Some (CPath pid) -> nth_error (paths w) pid = Some q0 ->
  lookup "src" (stk w) = Some c -> is_none_c c = false -> in_force w [] tg ->
  p_mapping E (entries (snd (new_form t w))) q0 = (q, Ok vw) ->
  let id := length (forms w) in
  let s1 := St ([("form", CForm id); ("parent", CForm id)] :: [("errors", CErrs (length (errs w)))] :: stk w)
               (forms w ++ [(t, [])]) (replace_nth pid q (paths w)) (errs w ++ [(Collect, [])]) in
  wf s1 /\
  (forall vs news s2 es2, maps W n id (length (errs w)) (filter (selected tg) (ft_fields t)) s1 vs news s2 ->
     nth_error (errs s2) eid = Some (m, es2) ->
     exists s', parse_form W rec t rs u w = (Ok (match concat news with [] => VForm id | _ => ERRORv end), s') /\
       stk s' = stk w /\ forms s' = forms s2 /\ errs s' = replace_nth eid (m, es2 ++ concat news) (errs s2)) /\
  (forall x s2, maps_raise W n id (length (errs w)) (filter (selected tg) (ft_fields t)) s1 x s2 ->
     exists s', parse_form W rec t rs u w = (Exn x, s') /\ stk s' = stk w /\ forms s' = forms s2 /\ errs s' = errs s2).
Proof.
  intros WF HE N P1 P2 C1 C2 IF PM id s1.
  set (w1 := St (stk w) (forms w ++ [(t, [])]) (paths w) (errs w)).
  assert (F1 : nth_error (forms w1) id = Some (t, [])) by (cbn [w1 forms]; unfold id; now rewrite nth_error_app2, Nat.sub_diag by lia).
  destruct (prefix_run W n id t ANone [] rs u Collect w1 [] F1) as (tg' & s0 & IF' & A1 & A2 & A3 & A4 & A5 & R). fold rec in R.
  assert (tg' = tg) by (eapply (in_force_fun w); [exact IF'|exact IF]). subst tg'.
  assert (F0 : forms s0 = forms w ++ [(t, [])]).
  { apply list_ext. intros i. destruct (Nat.eq_dec i id) as [->|D]; [|now rewrite A4].
    rewrite A5. change (forms w ++ [(t, [])]) with (forms w1). rewrite F1. now destruct rs. }
  assert (SK : stk w1 = stk w) by reflexivity.
  set (k := length (errs w)). set (s6 := St (stk w) (forms w ++ [(t, [])]) (paths w) (errs w ++ [(Collect, [])])).
  assert (WF6 : wf s6). { destruct WF as [B C]. split; [exact B|exact C]. }
  assert (GF : good (form__map W rec id tg u)) by (apply good_form__map; intros; apply good_field_map).
  destruct (block_plain W [("errors", CErrs k)] (form__map W rec id tg u) s6 WF6 GF eq_refl eq_refl) as (WF7 & s9 & R9 & D1 & D2 & D3 & D4).
  cbn [s6 stk forms paths errs] in WF7, R9, D1, D2, D3, D4. match type of WF7 with wf ?x => set (s7 := x) in * end.
  assert (EN : p_mapping E (entries s7) q0 = (q, Ok vw)) by exact PM.
  destruct (body_run W n id t tg u s7 pid q0 [] WF7 U F1 P1 P2 q _ EN) as (WF8 & s10 & R10 & B1 & B2 & B3 & B4). fold rec in R10, B2, B3, B4.
  change (St (fp_frame id :: stk s7) (forms s7) (replace_nth pid q (paths s7)) (errs s7)) with s1 in *.
  split; [exact WF8|].
  assert (NM : forall v2 s2, map_fields rec id tg (ft_fields t) s1 = (v2, s2) -> 
     nested_map W rec id tg u Collect s0 = match v2 with Exn x => (Exn x, s9) | Ok _ =>
        (c <- ctx_get "errors"; match c with CErrs outer => es0 <- errs_of k; extend_errs outer es0 ;; ret k | _ => raise (EAttr "no attribute 'extend'") end) s9 end).
  { intros v2 s2 MF. unfold nested_map. rewrite bind_run. unfold new_errs. rewrite A3. change (errs w1) with (errs w). fold k.
    rewrite bind_run. rewrite A1, A2, F0. change (stk w1) with (stk w). change (paths w1) with (paths w).
    fold s6. rewrite R9.
    assert (X10 : form__map W rec id tg u s7 = (fst (map_fields rec id tg (ft_fields t) s1), s10)) by exact R10.
    rewrite X10, MF. cbn [fst]. destruct v2; reflexivity. }
  unfold parse_form. rewrite bind_run. unfold new_form. fold id. change (St (stk w) (forms w ++ [(t, [])]) (paths w) (errs w)) with w1.
  rewrite bind_run, R. rewrite bind_run, (ctx_get_at s0 "src" c) by (rewrite A1; exact C1). rewrite C2. cbn [is_anone negb andb].
  rewrite bind_run.
  split.
  - intros vs news s2 es2 M N2. pose proof (loop_ok W n id k tg (ft_fields t) s1 vs news s2 M) as MF.
    rewrite (NM _ _ MF). rewrite bind_run, (ctx_get_at s9 "errors" (CErrs eid)) by (rewrite D1; exact HE).
    assert (N1 : nth_error (errs s1) k = Some (Collect, [])) by (cbn [s1 errs]; unfold k; now rewrite nth_error_app2, Nat.sub_diag by lia).
    pose proof (maps_errs W n id k _ _ _ _ _ _ _ M N1) as N3. cbn [app] in N3.
    assert (X10 : form__map W rec id tg u s7 = (fst (map_fields rec id tg (ft_fields t) s1), s10)) by exact R10.
    rewrite X10 in D2, D3. cbn [snd] in D2, D3. fold rec in MF. rewrite MF in B2, B3. cbn [snd] in B2, B3.
    assert (E9 : errs s9 = errs s2) by congruence. assert (Fo9 : forms s9 = forms s2) by congruence.
    assert (KE : (eid < k)%nat) by (apply nth_error_Some; congruence).
    rewrite bind_run. unfold errs_of, get. rewrite E9, N3. rewrite bind_run. unfold extend_errs. rewrite E9, N2. rewrite ret_run. rewrite bind_run.
    cbn [errs]. rewrite nth_replace_neq by lia. rewrite N3.
    exists (St (stk s9) (forms s9) (paths s9) (replace_nth eid (m, es2 ++ concat news) (errs s2))).
    split; [|cbn [stk forms errs]; auto]. destruct (concat news); reflexivity.
  - intros x s2 M. pose proof (loop_raises W n id k tg (ft_fields t) s1 x s2 M) as MF. rewrite (NM _ _ MF).
    assert (X10 : form__map W rec id tg u s7 = (fst (map_fields rec id tg (ft_fields t) s1), s10)) by exact R10.
    rewrite X10 in D2, D3. cbn [snd] in D2, D3. fold rec in MF. rewrite MF in B2, B3. cbn [snd] in B2, B3.
    exists s9. split; [reflexivity|]. split; [exact D1|]. split; congruence.
Qed.
End Sub.

(** Only the current error list grows. *)
Lemma maps_outer W n id eid gs : (forall g, In g gs -> local g) -> forall s vs news s2 pid, wf s ->
  lookup "errors" (stk s) = Some (CErrs eid) -> lookup "src_path" (stk s) = Some (CPath pid) -> (exists p, nth_error (paths s) pid = Some p) ->
  maps W n id eid gs s vs news s2 ->
  forall i x, i <> eid -> nth_error (errs s) i = Some x -> nth_error (errs s2) i = Some x.
Proof.
  induction gs as [|g gs IH]; intros L s vs news s2 pid WF HE HP (p & PP) H i x D N;
    inversion H as [|? ? ? v s1 m1 es1 new vs' news' ? R N1 N2 M]; subst; [exact N|].
  pose proof (good_stable _ _ _ _ (good_field_map W n g NONEv) WF R) as S1.
  pose proof (loc_field_map W n g NONEv (L g (or_introl eq_refl)) s WF) as X. rewrite R in X. cbn [snd] in X.
  destruct x as [mi ei]. destruct (X pid p HP PP i mi ei N) as (new' & X1 & _ & X3).
  rewrite X3, app_nil_r in X1 by (unfold error_list; rewrite HE; congruence).
  assert (S2 : stable s (if ignored v then s1 else stored id g v s1)).
  { destruct (ignored v); [exact S1|]. eapply stable_trans; [exact S1|apply stored_stable]. }
  assert (X2 : nth_error (errs (if ignored v then s1 else stored id g v s1)) i = Some (mi, ei)).
  { destruct (ignored v); [exact X1|]. now rewrite stored_errs. }
  assert (SK : stk (if ignored v then s1 else stored id g v s1) = stk s) by exact (stable_stk _ _ S2).
  eapply (IH (fun g' I => L g' (or_intror I)) _ vs' news' s2 pid); [eapply stable_wf; eauto|now rewrite SK|now rewrite SK| |exact M|exact D|exact X2].
  destruct (stable_path _ _ _ _ S2 PP) as (p' & P' & _). eauto.
Qed.

Lemma maps_stable W n id eid gs : forall s vs news s2, wf s -> maps W n id eid gs s vs news s2 -> stable s s2.
Proof.
  induction gs as [|g gs IH]; intros s vs news s2 WF H; inversion H as [|? ? ? v s1 m1 es1 new vs' news' ? R N1 N2 M]; subst; [apply stable_refl|].
  pose proof (good_stable _ _ _ _ (good_field_map W n g NONEv) WF R) as S1.
  assert (S2 : stable s (if ignored v then s1 else stored id g v s1)).
  { destruct (ignored v); [exact S1|]. eapply stable_trans; [exact S1|apply stored_stable]. }
  eapply stable_trans; [exact S2|]. eapply IH; [|exact M]. eapply stable_wf; eauto.
Qed.

Section SubField.
Variables (W : world) (n : nat) (f : field) (t : formty) (rs : bool) (u : unm).
Variables (s : st) (eid : nat) (m : mode) (es : list err) (pid : nat) (p : path) (igd igm : bool).
Hypothesis MP : mapping W s eid m es pid p igd igm.
Hypothesis PS : plain_steps f.
Hypothesis KD : f_kind f = KSubForm t rs u.
Hypothesis U : ignoring u.
Hypothesis SS : src_set s f.

Lemma sub_run tg gs q tx : in_force s [] tg -> choice tg (ft_fields t) gs -> sub_at W s f t p q -> p_str (w_env W) (place f p) = Ok tx ->
  wf (inside_sub f t s pid q) /\
  (forall vs news s2, maps W n (length (forms s)) (length (errs s)) gs (inside_sub f t s pid q) vs news s2 ->
     untouched f (VForm (length (forms s))) ->
     exists more, nth_error (errs s2) eid = Some (m, es ++ more) /\ (local_form t -> more = []) /\
     exists s', field_map W (S n) f NONEv s = (Ok (match concat news with [] => VForm (length (forms s)) | _ => ERRORv end), s') /\
       stk s' = stk s /\ forms s' = forms s2 /\ errs s' = replace_nth eid (m, (es ++ more) ++ concat news) (errs s2)) /\
  (forall x s2, maps_raise W n (length (forms s)) (length (errs s)) gs (inside_sub f t s pid q) x s2 ->
     if caught_by_compute x then rejects W (S n) f s s2 eid (invalid_at f pid (VioExn (spoken x)) tx) else fails W (S n) f s s2 x).
Proof.
  intros IF CH (q2 & vw & X & PM) T. apply choice_is in CH. subst gs.
  set (w := within f s pid q2).
  pose proof (present_shape W f s p q2 X) as SH.
  assert (WFw : wf w) by exact (in_shape_wf W n f s eid m es pid p igd igm MP PS q2 SH).
  assert (LK : forall k, k <> "src" -> k <> "field" -> k <> "parent" -> lookup k (stk w) = lookup k (stk s)).
  { intros k A B C. exact (in_lookup f s pid p k A B C). }
  assert (SR : exists c, lookup "src" (stk w) = Some c /\ is_none_c c = false).
  { destruct SS as (c & C1 & C2). exists c. split; [|exact C2]. unfold w, within. cbn [stk]. destruct (own_key f); exact C1. }
  destruct SR as (c & C1 & C2).
  assert (IFw : in_force w [] tg).
  { destruct IF as [[N _]|[_ A]]; [congruence|]. right. split; [reflexivity|]. rewrite LK by discriminate. exact A. }
  assert (P2 : nth_error (paths w) pid = Some q2).
  { unfold w, within. cbn [paths]. apply nth_replace_eq. exact (pid_lt W s eid m es pid p igd igm MP). }
  assert (HE : lookup "errors" (stk w) = Some (CErrs eid)) by (rewrite LK by discriminate; exact (mp_eid _ _ _ _ _ _ _ _ _ MP)).
  assert (HP : lookup "src_path" (stk w) = Some (CPath pid)) by (rewrite LK by discriminate; exact (mp_pid _ _ _ _ _ _ _ _ _ MP)).
  destruct (parse_form_run W n t rs u U w eid m es pid q2 q vw c tg WFw HE (mp_errs _ _ _ _ _ _ _ _ _ MP) HP P2 C1 C2 IFw PM) as (WF1 & ROK & REX).
  assert (S1 : St ([("form", CForm (length (forms w))); ("parent", CForm (length (forms w)))] :: [("errors", CErrs (length (errs w)))] :: stk w)
     (forms w ++ [(t, [])]) (replace_nth pid q (paths w)) (errs w ++ [(Collect, [])]) = inside_sub f t s pid q).
  { unfold inside_sub, w, within. cbn [stk forms paths errs]. now rewrite replace_twice. }
  rewrite S1 in WF1, ROK, REX. change (length (forms w)) with (length (forms s)) in ROK, REX. change (length (errs w)) with (length (errs s)) in ROK, REX.
  split; [exact WF1|]. split.
  - intros vs news s2 M UT.
    assert (Le : (eid < length (errs s))%nat) by (apply nth_error_Some; rewrite (mp_errs _ _ _ _ _ _ _ _ _ MP); discriminate).
    assert (N0 : nth_error (errs (inside_sub f t s pid q)) eid = Some (m, es)).
    { cbn [inside_sub errs]. rewrite nth_error_app1 by exact Le. exact (mp_errs _ _ _ _ _ _ _ _ _ MP). }
    destruct (stable_errs _ _ (maps_stable W n _ _ _ _ _ _ _ WF1 M) eid m es N0) as (more & N2).
    assert (N3 : local_form t -> more = []).
    { intros LT. enough (Q : nth_error (errs s2) eid = Some (m, es)).
      { rewrite N2 in Q. injection Q as Q. rewrite <- (app_nil_r es) in Q at 2. exact (app_inv_head _ _ _ Q). }
      eapply maps_outer with (pid := pid); [|exact WF1|reflexivity| | |exact M| |].
      - intros g I. apply filter_In in I. destruct LT as [nm fs H]. apply H. exact (proj1 I).
      - cbn [inside_sub stk lookup alookup fst snd]. exact HP.
      - exists q. cbn [inside_sub within paths]. apply nth_replace_eq. exact (pid_lt W s eid m es pid p igd igm MP).
      - lia.
      - exact N0. }
    exists more. split; [exact N2|]. split; [exact N3|]. destruct (ROK vs news s2 (es ++ more) M N2) as (s3 & R & R1 & R2 & R3).
    assert (PK : parse_kind W (field_map W n) (f_kind f) pid (within f s pid q2) = (Ok (match concat news with [] => VForm (length (forms s)) | _ => ERRORv end), s3)).
    { rewrite KD. exact R. }
    destruct (concat news) as [|e l] eqn:CN.
    + pose proof (box_ok W n f s eid m es pid p igd igm MP PS q2 (VForm (length (forms s))) s3 X PK eq_refl UT tx T) as B.
      unfold field_violation, vio_null, vio_kind in B. rewrite KD in B. destruct B as (s' & B1 & B2 & B3 & B4).
      exists s'. split; [exact B1|]. split; [exact B2|]. split; congruence.
    + pose proof (box_body W n f s eid m es pid p igd igm MP PS q2 _ _ X PK) as B. cbv beta iota in B. cbn [ERRORv is_NONE ignored] in B.
      destruct (box_finish W n f s eid m es pid p igd igm MP PS _ B) as (s' & A1 & A2 & A3 & A4). cbn [fst snd ret] in *.
      exists s'. split; [exact A1|]. split; [exact A2|]. split; congruence.
  - intros x s2 M. destruct (REX x s2 M) as (s3 & R & R1 & R2 & R3).
    assert (PK : parse_kind W (field_map W n) (f_kind f) pid (within f s pid q2) = (Exn x, s3)) by (rewrite KD; exact R).
    pose proof (box_exn W n f s eid m es pid p igd igm MP PS q2 x s3 X PK tx T) as B. destruct (caught_by_compute x).
    + destruct B as (m' & es' & s' & B1 & B2 & B3 & B4 & B5). exists m', es', s'. rewrite <- R2, <- R3. auto.
    + destruct B as (s' & B1 & B2 & B3 & B4). exists s'. rewrite <- R2, <- R3. auto.
Qed.
End SubField.

(** ** The statements *)
Lemma as_source_root t a src : as_source a src -> root_source t a = Ok src.
Proof. destruct 1; reflexivity. Qed.
Lemma C39_lem W n id t l a src tags rs u m s tg gs : reach W s -> nth_error (forms s) id = Some (t, l) -> at_top s a -> as_source a src ->
  ignoring u -> in_force s tags tg -> choice tg (ft_fields t) gs ->
  outcome W n id src m rs gs s (fst (Form_map W n id a tags rs u m s)) (snd (Form_map W n id a tags rs u m s)).
Proof.
  intros R N AT AS U IF CH. apply choice_is in CH. subst gs.
  destruct (root_run W n id t a src tags rs u m s l (reach_wf _ _ R) U N AT (as_source_root t a src AS)) as (tg' & IF' & O).
  rewrite (in_force_fun s tags tg tg' IF IF'). exact O.
Qed.
Lemma choice_sub tags fs gs g : choice tags fs gs -> In g gs -> In g fs.
Proof. intros C I. apply choice_is in C. subst gs. apply filter_In in I. exact (proj1 I). Qed.
Lemma C44_lem W C n id t l a src tags rs u m s tg gs es s' : reach W s -> nth_error (forms s) id = Some (t, l) -> at_top s a -> as_source a src ->
  ignoring u -> in_force s tags tg -> choice tg (ft_fields t) gs -> still_classes C W -> still_form C t ->
  Form_map W n id a tags rs u m s = (Ok es, s') ->
  exists s1 vs news s2, begins W id src m rs gs s s1 /\ maps W n id (length (errs s)) gs s1 vs news s2 /\ es = concat news /\
    nth_error (forms s') id = Some (t, assigned gs vs (if rs then without gs l else l)) /\
    forall i x, i <> id -> nth_error (forms s) i = Some x -> nth_error (forms s') i = Some x.
Proof.
  intros R N AT AS U IF CH SC ST FM. pose proof (C39_lem W n id t l a src tags rs u m s tg gs R N AT AS U IF CH) as O.
  rewrite FM in O. cbn [fst snd] in O. inversion O as [s1 vs news s2 s'' BG M LB MD Q1 Q2| | |]; subst.
  exists s1, vs, news, s2. split; [exact BG|]. split; [exact M|]. split; [reflexivity|].
  destruct LB as (_ & L2 & _ & _). rewrite L2.
  assert (N1 : nth_error (forms s1) id = Some (t, if rs then without gs l else l)).
  { pose proof (bg_type _ _ _ _ _ _ _ _ BG) as T. pose proof (bg_entries _ _ _ _ _ _ _ _ BG) as EN. unfold entries_at in EN. rewrite N in T, EN.
    destruct (nth_error (forms s1) id) as [[t1 l1]|]; [|discriminate]. injection T as ->. now rewrite EN. }
  destruct ST as [nm fs HS].
  destruct (maps_entries W n id (length (errs s)) C SC gs (fun g I => HS g (choice_sub _ _ _ _ CH I)) s1 vs news s2 _ _ M N1) as [A B].
  split; [exact A|]. intros i x D X. apply B; [exact D|]. rewrite (bg_others _ _ _ _ _ _ _ _ BG i D). exact X.
Qed.
Lemma C43_lem W C n id t l a src tags rs u m s tg gs es s' k : reach W s -> nth_error (forms s) id = Some (t, l) -> at_top s a -> as_source a src ->
  ignoring u -> in_force s tags tg -> choice tg (ft_fields t) gs -> still_classes C W -> still_form C t ->
  Form_map W n id a tags rs u m s = (Ok es, s') -> (forall g, In g gs -> k <> VStr (fname g)) ->
  dict_get (entries_at s' id) k = dict_get (entries_at s id) k.
Proof.
  intros R N AT AS U IF CH SC ST FM NK. destruct (C44_lem W C n id t l a src tags rs u m s tg gs es s' R N AT AS U IF CH SC ST FM) as (s1 & vs & news & s2 & BG & M & _ & F & _).
  unfold entries_at. rewrite F, N, assigned_get.
  assert (B : dict_get (if rs then without gs l else l) k = dict_get l k).
  { destruct rs; [|reflexivity]. rewrite without_get. destruct (named gs k) eqn:Q; [|reflexivity]. apply named_in in Q. destruct Q as (g & I & ->).
    exfalso. now apply (NK g I). }
  rewrite B. destruct k; try reflexivity. apply latest_out. intros g I Q. apply (NK g I). now rewrite Q.
Qed.
Lemma C44_stale_lem W C n id t l a src tags rs u m s tg gs es s' : reach W s -> nth_error (forms s) id = Some (t, l) -> at_top s a -> as_source a src ->
  ignoring u -> in_force s tags tg -> choice tg (ft_fields t) gs -> still_classes C W -> still_form C t ->
  Form_map W n id a tags rs u m s = (Ok es, s') ->
  exists s1 vs news s2, begins W id src m rs gs s s1 /\ maps W n id (length (errs s)) gs s1 vs news s2 /\ es = concat news /\
    forall b, dict_get (entries_at s' id) (VStr b) =
      latest gs vs b (if rs && named gs (VStr b) then None else dict_get (entries_at s id) (VStr b)).
Proof.
  intros R N AT AS U IF CH SC ST FM. destruct (C44_lem W C n id t l a src tags rs u m s tg gs es s' R N AT AS U IF CH SC ST FM) as (s1 & vs & news & s2 & BG & M & CN & F & _).
  exists s1, vs, news, s2. split; [exact BG|]. split; [exact M|]. split; [exact CN|]. intros b. unfold entries_at. rewrite F, N, assigned_get.
  f_equal. destruct rs; [|reflexivity]. now rewrite without_get.
Qed.
Lemma C37_lem W n f t rs u s eid m es pid p igd igm tg gs q tx vs news s2 :
  mapping W s eid m es pid p igd igm -> plain_steps f -> f_kind f = KSubForm t rs u -> ignoring u ->
  src_set s f -> in_force s [] tg -> choice tg (ft_fields t) gs ->
  sub_at W s f t p q -> p_str (w_env W) (place f p) = Ok tx ->
  maps W n (length (forms s)) (length (errs s)) gs (inside_sub f t s pid q) vs news s2 ->
  untouched f (VForm (length (forms s))) ->
  exists more, nth_error (errs s2) eid = Some (m, es ++ more) /\ (local_form t -> more = []) /\
  exists s', field_map W (S n) f NONEv s = (Ok (match concat news with [] => VForm (length (forms s)) | _ => ERRORv end), s') /\
    stk s' = stk s /\ forms s' = forms s2 /\ errs s' = replace_nth eid (m, (es ++ more) ++ concat news) (errs s2).
Proof.
  intros MP PS KD U SS IF CH SA TX M UT.
  exact (proj1 (proj2 (sub_run W n f t rs u s eid m es pid p igd igm MP PS KD U SS tg gs q tx IF CH SA TX)) vs news s2 M UT).
Qed.
Lemma C37_raise_lem W n f t rs u s eid m es pid p igd igm tg gs q tx x s2 :
  mapping W s eid m es pid p igd igm -> plain_steps f -> f_kind f = KSubForm t rs u -> ignoring u ->
  src_set s f -> in_force s [] tg -> choice tg (ft_fields t) gs ->
  sub_at W s f t p q -> p_str (w_env W) (place f p) = Ok tx ->
  maps_raise W n (length (forms s)) (length (errs s)) gs (inside_sub f t s pid q) x s2 ->
  if caught_by_compute x then rejects W (S n) f s s2 eid (invalid_at f pid (VioExn (spoken x)) tx) else fails W (S n) f s s2 x.
Proof.
  intros MP PS KD U SS IF CH SA TX M.
  exact (proj2 (proj2 (sub_run W n f t rs u s eid m es pid p igd igm MP PS KD U SS tg gs q tx IF CH SA TX)) x s2 M).
Qed.
