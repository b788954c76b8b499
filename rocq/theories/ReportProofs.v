(** * ReportProofs: lemmas for C98. *)
From Verif Require Import PyBase PyStr Source Field Context Fields Reports Balance SpecCtx SpecReport CtxProofs.
From Coq Require Import Lia.

Lemma gives_alookup k x fr : gives k x fr <-> alookup fr k = Some x.
Proof.
  induction fr as [|[k' y] fr IH]; cbn.
  - split; [intros H; inversion H|discriminate].
  - destruct (String.eqb_spec k' k) as [->|N].
    + split; [intros H; inversion H; subst; [reflexivity|congruence]|intros [= ->]; constructor].
    + rewrite <- IH. split; [intros H; inversion H; subst; [congruence|assumption]|now constructor].
Qed.

Lemma in_force_lookup k x l : in_force k x l <-> lookup k l = Some x.
Proof.
  induction l as [|fr l IH]; cbn.
  - split; [intros H; inversion H|discriminate].
  - destruct (alookup fr k) as [c|] eqn:A.
    + split.
      * intros H. inversion H as [? ? G|? ? G F]; subst; [apply gives_alookup in G; congruence|].
        destruct (G c). now apply gives_alookup.
      * intros [= <-]. apply if_here. now apply gives_alookup.
    + rewrite <- IH. split.
      * intros H. inversion H as [? ? G|? ? G F]; subst; [apply gives_alookup in G; congruence|assumption].
      * intros H. apply if_below; [|assumption]. intros y G. apply gives_alookup in G. congruence.
Qed.

Lemma is_field_error_iff i : is_field_error i = true <-> field_error i.
Proof.
  unfold field_error. split.
  - destruct i as [e|c e|x|v]; cbn; [eauto|eauto 6| |discriminate]. destruct x; try discriminate. eauto 6.
  - now intros [[e ->]|[(c & e & ->)|(e & ->)]].
Qed.

Lemma field_errors_filter l fs : field_errors_of l fs <-> filter is_field_error l = fs.
Proof.
  split.
  - induction 1 as [|i l fs F _ IH|i l fs F _ IH]; cbn; [reflexivity| |].
    + apply is_field_error_iff in F. now rewrite F, IH.
    + destruct (is_field_error i) eqn:E; [|exact IH]. destruct F. now apply is_field_error_iff.
  - revert fs. induction l as [|i l IH]; cbn; intros fs <-; [constructor|].
    destruct (is_field_error i) eqn:E.
    + constructor; [now apply is_field_error_iff|now apply IH].
    + constructor; [rewrite <- is_field_error_iff; congruence|now apply IH].
Qed.

Lemma call_list_raise l new : exists o, call_list Raise l new = (o, l ++ new) /\ raises (l ++ new) o.
Proof.
  unfold call_list. remember (l ++ new) as all eqn:A. destruct (filter is_field_error all) as [|f fs] eqn:F.
  - destruct all as [|i all]; [eexists; split; [reflexivity|constructor]|].
    eexists; split; [reflexivity|]. apply field_errors_filter in F.
    destruct i; cbn; constructor; try assumption; discriminate.
  - eexists; split; [reflexivity|]. constructor. now apply field_errors_filter.
Qed.

Lemma raises_det all o o' : raises all o -> raises all o' -> o = o'.
Proof.
  intros A B. inversion A as [a f fs F|i a F N|v a F|]; inversion B as [a' f' fs' F'|i' a' F' N'|v' a' F'|]; subst; try congruence;
    try (apply field_errors_filter in F); try (apply field_errors_filter in F'); try congruence.
  all: try (match goal with H : _ :: _ = _ :: _ |- _ => injection H as -> -> end); try congruence;
       try (exfalso; eapply N; reflexivity); try (exfalso; eapply N'; reflexivity).
  all: try discriminate.
Qed.

Lemma C98_replaced_lem W calls kd s f x l :
  in_force "field" (CField f) (stk s) -> in_force (match kd with Missing => "Missing" | Invalid _ => "Invalid" end) x (stk s) ->
  let made := calls x s f (match kd with Missing => None | Invalid v => Some v end) in
  (forall i, made = Ok i ->
     errors_report W calls Collect l kd s = (Ok Quiet, l ++ [i], s) /\
     exists o, errors_report W calls Raise l kd s = (Ok o, l ++ [i], s) /\ raises (l ++ [i]) o) /\
  (forall e m, made = Exn e -> errors_report W calls m l kd s = (Exn e, l, s)).
Proof.
  intros F X made. apply in_force_lookup in F, X.
  assert (M : make_error W calls kd s = (made, s)).
  { unfold make_error. rewrite F. change (match kd with Missing => "Missing" | Invalid _ => "Invalid" end) with (class_name kd) in X.
    rewrite X. reflexivity. }
  unfold errors_report. rewrite M. split.
  - intros i ->. split; [reflexivity|]. destruct (call_list_raise l [i]) as (o & C & R). rewrite C. eauto.
  - intros e m ->. reflexivity.
Qed.

Lemma filter_stock es : filter is_field_error (map Stock es) = map Stock es.
Proof. induction es as [|e es IH]; cbn; congruence. Qed.

Lemma nth_replace_same {A} n (x : A) l y : nth_error l n = Some y -> nth_error (replace_nth n x l) n = Some x.
Proof. intros H. apply nth_replace_eq. apply nth_error_Some. congruence. Qed.

Lemma C98_stock_lem W calls kd s f eid m es :
  in_force "field" (CField f) (stk s) -> (forall x, ~ in_force (match kd with Missing => "Missing" | Invalid _ => "Invalid" end) x (stk s)) ->
  in_force "errors" (CErrs eid) (stk s) -> nth_error (errs s) eid = Some (m, es) ->
  (exists e s1, errors_report W calls m (map Stock es) kd s =
       (Ok (match m with Collect => Quiet | Raise => RaisedForm (map Stock (es ++ [e])) end), map Stock (es ++ [e]), s1) /\
     (exists text live, e = MkErr kd text (f_name f) live) /\
     report W kd s = (match m with Collect => Ok tt | Raise => Exn (EForm (es ++ [e])) end,
                      St (stk s1) (forms s1) (paths s1) (replace_nth eid (m, es ++ [e]) (errs s1)))) \/
  (exists x s1, errors_report W calls m (map Stock es) kd s = (Exn x, map Stock es, s1) /\ report W kd s = (Exn x, s1)).
Proof.
  intros F N E L. apply in_force_lookup in F, E.
  assert (NL : lookup (class_name kd) (stk s) = None).
  { destruct (lookup (class_name kd) (stk s)) as [c|] eqn:A; [|reflexivity]. destruct (N c). now apply in_force_lookup. }
  unfold errors_report, make_error, report, stock_error. rewrite F, NL.
  unfold bind, ctx_get, ctx_get_opt, get, bind, ret, raise. rewrite E. cbv beta iota. rewrite ?F. cbv beta iota.
  destruct (path_text W s) as [r s1] eqn:P.
  assert (S1 : errs s1 = errs s).
  { revert P. unfold path_text, bind, ctx_get, ctx_get_opt, get, bind, ret, raise, on_path.
    destruct (lookup "src_path" (stk s)) as [c|]; [|now intros [= <- <-]].
    destruct c; try (now intros [= <- <-]). destruct (nth_error (paths s) pid) as [p|]; [|now intros [= <- <-]].
    destruct (p_str (w_env W) p); now intros [= <- <-]. }
  destruct r as [tl|x].
  - left. exists (MkErr kd (fst tl) (f_name f) (snd tl)), s1.
    unfold call_list. rewrite map_app. cbn [map].
    unfold call_errs, extend_errs, bind, get. rewrite S1, L. cbn [errs].
    rewrite (nth_replace_same eid _ _ _ L).
    split; [|split; [eauto|]].
    + destruct m; [reflexivity|]. rewrite filter_app, filter_stock. cbn [filter is_field_error].
      destruct (map Stock es) eqn:ME; reflexivity.
    + destruct m; reflexivity.
  - right. eauto.
Qed.

Lemma C98_calls_lem m l news os l' : call_all m l news = (os, l') ->
  l' = l ++ concat news /\ length os = length news /\
  forall k o, nth_error os k = Some o ->
    match m with Collect => o = Quiet | Raise => raises (l ++ concat (firstn (S k) news)) o end.
Proof.
  revert l os l'. induction news as [|new news IH]; intros l os l'.
  - cbn. intros [= <- <-]. rewrite app_nil_r. split; [reflexivity|split; [reflexivity|]]. intros [|k] o; discriminate.
  - cbn [call_all]. destruct (call_list m l new) as [o l1] eqn:C. destruct (call_all m l1 news) as [os1 l2] eqn:R. intros [= <- <-].
    assert (HC : l1 = l ++ new /\ match m with Collect => o = Quiet | Raise => raises (l ++ new) o end).
    { destruct m; [cbn in C; injection C as <- <-; auto|]. destruct (call_list_raise l new) as (o' & C' & R'). rewrite C in C'.
      injection C' as -> ->. auto. }
    destruct HC as [-> HO]. destruct (IH _ _ _ R) as (-> & LE & HS).
    split; [cbn [concat]; now rewrite app_assoc|]. split; [cbn; now rewrite LE|].
    intros [|k] x NE.
    + cbn in NE. injection NE as <-. cbn [firstn concat]. now rewrite app_nil_r.
    + cbn in NE. specialize (HS k x NE). cbn [firstn concat]. destruct m; [exact HS|]. now rewrite app_assoc.
Qed.

Lemma push_frames W kw s s' : push W kw s = (Ok tt, s') -> stk s' = kw :: stk s \/ exists pid, stk s' = (("src_path", CPath pid) :: kw) :: stk s.
Proof.
  unfold push. destruct (alookup kw "src") as [c|].
  - assert (G : forall c, (pid <- cur_path; on_path W pid (fun _ _ p => (p_append (key_of_cval c) p, Ok tt));; push_frame kw)%m s = (Ok tt, s') -> stk s' = kw :: stk s).
    { intros c0. unfold cur_path, bind, ctx_get, ctx_get_opt, get, bind, ret, raise, on_path, push_frame.
      destruct (lookup "src_path" (stk s)) as [d|]; [|discriminate]. destruct d; try discriminate.
      destruct (nth_error (paths s) pid); [|discriminate]. now intros [= <-]. }
    destruct c as [| | |x| | | | |]; try (intros H; left; now apply (G _ H)).
    all: try (intros H; left; exact (G _ H)).
    all: unfold bind, new_path, push_frame; try (destruct (source_path _ _ _); [|discriminate]; intros [= <-]; right; eexists; reflexivity).
  - unfold push_frame. intros [= <-]. now left.
Qed.

Lemma C98_block_lem W kw s s' : push W kw s = (Ok tt, s') -> forall k x, k <> "src_path" ->
  (gives k x kw -> in_force k x (stk s')) /\
  ((forall y, ~ gives k y kw) -> in_force k x (stk s) -> in_force k x (stk s')).
Proof.
  intros P k x NK. destruct (push_frames _ _ _ _ P) as [->|[pid ->]]; split.
  - intros G. now apply if_here.
  - intros G I. now apply if_below.
  - intros G. apply if_here. constructor; [congruence|assumption].
  - intros G I. apply if_below; [|assumption]. intros y H. inversion H; subst; [congruence|]. now apply (G y).
Qed.

Lemma raises_form_once all o : raises all o -> (exists i, In i all /\ field_error i) ->
  exists fs, o = RaisedForm fs /\ forall i, In i fs <-> In i all /\ field_error i.
Proof.
  intros R (i & I & FE).
  assert (NN : filter is_field_error all <> []).
  { intros N. apply is_field_error_iff in FE. assert (In i (filter is_field_error all)) by (apply filter_In; auto). now rewrite N in *. }
  inversion R as [a f fs F|j a F N|v a F|]; subst; try (apply field_errors_filter in F; contradiction); [|contradiction].
  apply field_errors_filter in F. eexists. split; [reflexivity|]. intros j. rewrite <- F, filter_In, is_field_error_iff. reflexivity.
Qed.

Lemma C98_masked_lem l new o l' : call_list Raise l new = (o, l') -> (exists i, In i (l ++ new) /\ field_error i) ->
  exists fs, o = RaisedForm fs /\ forall i, In i fs <-> In i (l ++ new) /\ field_error i.
Proof.
  intros C H. destruct (call_list_raise l new) as (o' & C' & R). rewrite C in C'. injection C' as -> ->. exact (raises_form_once _ _ R H).
Qed.

Lemma C98_mapping_keeps_lem W n f v s k x : reach W s ->
  in_force k x (stk s) <-> in_force k x (stk (snd (field_map W n f v s))).
Proof. intros R. destruct (C01_field_map_lem W n s f v R) as [-> _]. reflexivity. Qed.
