(** * LocalProofs: errors are reported at or below the current location (C69). *)
From Verif Require Import PyBase PyStr Source Field Context Fields SpecCtx SpecLocal Shape Reads Balance CtxProofs Run FieldLemmas.
From Coq Require Import Lia.

(** ** Locations *)
Lemma below_shape ks : forall p p', pshape p = pshape p' -> pshape (below ks p) = pshape (below ks p').
Proof.
  induction ks as [|k ks IH]; intros p p' H; cbn [below fold_left]; [exact H|]. apply IH. now rewrite !p_append_shape, H.
Qed.
Lemma located_shape W pid p p' e : pshape p = pshape p' -> located W pid p e -> located W pid p' e.
Proof.
  intros H (kd & t & nm & ks & E & T). exists kd, t, nm, ks. split; [exact E|]. rewrite <- T. apply pshape_text. now apply below_shape.
Qed.
Lemma located_append W pid k p e : located W pid (p_append k p) e -> located W pid p e.
Proof. intros (kd & t & nm & ks & E & T). exists kd, t, nm, (k :: ks). auto. Qed.

(** ** The relation, with the error list explicit *)
Definition ext (W : world) (c : option nat) (s s' : st) : Prop :=
  forall pid p, lookup "src_path" (stk s) = Some (CPath pid) -> nth_error (paths s) pid = Some p ->
  forall i m es, nth_error (errs s) i = Some (m, es) ->
  exists new, nth_error (errs s') i = Some (m, es ++ new) /\
    Forall (located W pid p) new /\ (c <> Some i -> new = []).

Lemma ext_same W c s s' : errs s' = errs s -> ext W c s s'.
Proof. intros E pid p A B i m es H. exists []. rewrite app_nil_r, E. auto. Qed.
Lemma ext_none W c s s' : ext W None s s' -> ext W c s s'.
Proof.
  intros H pid p A B i m es N. destruct (H pid p A B i m es N) as (new & X & Y & Z). exists new. split; [exact X|]. split; [exact Y|].
  intros _. apply Z. discriminate.
Qed.
Lemma stable_path s s' pid p : stable s s' -> nth_error (paths s) pid = Some p ->
  exists p', nth_error (paths s') pid = Some p' /\ pshape p' = pshape p.
Proof.
  intros [_ (more & B & _) _ _] N. assert (X : nth_error (shapes s') pid = Some (pshape p)).
  { rewrite B, nth_error_app1; unfold shapes; [now rewrite nth_error_map, N|]. rewrite map_length. apply nth_error_Some. congruence. }
  unfold shapes in X. rewrite nth_error_map in X. destruct (nth_error (paths s') pid) as [p'|]; [|discriminate]. injection X as X. eauto.
Qed.
Lemma ext_trans W c s1 s2 s3 : stable s1 s2 -> ext W c s1 s2 -> ext W c s2 s3 -> ext W c s1 s3.
Proof.
  intros S H K pid p A B i m es N. destruct (H pid p A B i m es N) as (n1 & X1 & Y1 & Z1).
  destruct (stable_path _ _ _ _ S B) as (p' & B' & Hs). rewrite <- (stable_stk _ _ S) in A.
  destruct (K pid p' A B' i m _ X1) as (n2 & X2 & Y2 & Z2). exists (n1 ++ n2). rewrite app_assoc. split; [exact X2|]. split.
  - apply Forall_app. split; [exact Y1|]. eapply Forall_impl; [|exact Y2]. intros e. now apply located_shape.
  - intros D. now rewrite Z1, Z2.
Qed.
Lemma error_list_stk s s' : stk s' = stk s -> error_list s' = error_list s.
Proof. unfold error_list. now intros ->. Qed.

(** ** Computations *)
Definition loc {A} (W : world) (x : M A) : Prop := forall s, wf s -> ext W (error_list s) s (snd (x s)).
Definition typed (id : nat) (t : formty) (s : st) : Prop := exists l, nth_error (forms s) id = Some (t, l).
Definition loct {A} (W : world) (id : nat) (t : formty) (x : M A) : Prop :=
  forall s, wf s -> typed id t s -> ext W (error_list s) s (snd (x s)).

Lemma typed_stable id t s s' : stable s s' -> typed id t s -> typed id t s'.
Proof. intros S (l & H). exact (stable_forms _ _ S _ _ _ H). Qed.
Lemma loc_loct {A} W id t (x : M A) : loc W x -> loct W id t x.
Proof. intros H s WF _. now apply H. Qed.

Section Steps.
Variables (W : world) (id : nat) (t : formty).
Lemma loct_bind {A B} (x : M A) (f : A -> M B) : good x -> loct W id t x -> (forall a, loct W id t (f a)) -> loct W id t (bind x f).
Proof.
  intros G H K s WF T. specialize (G s WF). unfold goodat in G. specialize (H s WF T). unfold bind.
  destruct (x s) as [[a|e] s1]; cbn [snd] in *; [|exact H].
  eapply ext_trans; [exact G|exact H|]. rewrite <- (error_list_stk _ _ (stable_stk _ _ G)). apply K; [eapply stable_wf; eauto|eapply typed_stable; eauto].
Qed.
Lemma loct_catch {A B} (x : M A) (f : res A -> M B) : good x -> loct W id t x -> (forall a, loct W id t (f a)) -> loct W id t (catch x f).
Proof.
  intros G H K s WF T. specialize (G s WF). unfold goodat in G. specialize (H s WF T). unfold catch.
  destruct (x s) as [r s1]; cbn [snd] in *.
  eapply ext_trans; [exact G|exact H|]. rewrite <- (error_list_stk _ _ (stable_stk _ _ G)). apply K; [eapply stable_wf; eauto|eapply typed_stable; eauto].
Qed.
Lemma loct_form_type {A} (f : formty -> M A) : loct W id t (f t) -> loct W id t (bind (form_type id) f).
Proof. intros H s WF T. unfold bind, form_type, get. destruct T as (l & T). rewrite T. apply H; [exact WF|]. now exists l. Qed.
End Steps.
Lemma loc_bind {A B} W (x : M A) (f : A -> M B) : good x -> loc W x -> (forall a, loc W (f a)) -> loc W (bind x f).
Proof.
  intros G H K s WF. specialize (G s WF). unfold goodat in G. specialize (H s WF). unfold bind.
  destruct (x s) as [[a|e] s1]; cbn [snd] in *; [|exact H].
  eapply ext_trans; [exact G|exact H|]. rewrite <- (error_list_stk _ _ (stable_stk _ _ G)). apply K. eapply stable_wf; eauto.
Qed.
Lemma loc_catch {A B} W (x : M A) (f : res A -> M B) : good x -> loc W x -> (forall a, loc W (f a)) -> loc W (catch x f).
Proof.
  intros G H K s WF. specialize (G s WF). unfold goodat in G. specialize (H s WF). unfold catch.
  destruct (x s) as [r s1]; cbn [snd] in *.
  eapply ext_trans; [exact G|exact H|]. rewrite <- (error_list_stk _ _ (stable_stk _ _ G)). apply K. eapply stable_wf; eauto.
Qed.
Lemma loc_if {A} W (b : bool) (x y : M A) : loc W x -> loc W y -> loc W (if b then x else y).
Proof. destruct b; auto. Qed.
Lemma loc_same {A} W (x : M A) : (forall s, errs (snd (x s)) = errs s) -> loc W x.
Proof. intros H s _. now apply ext_same. Qed.
Lemma loc_new_form {A} W t (f : nat -> M A) : (forall id, loct W id t (f id)) -> loc W (bind (new_form t) f).
Proof.
  intros H s WF. unfold bind, new_form.
  assert (WF1 : wf (St (stk s) (forms s ++ [(t, [])]) (paths s) (errs s))) by (split; [exact (wf_stk _ WF)|exact (wf_paths _ WF)]).
  specialize (H (length (forms s)) _ WF1). apply H. exists []. cbn [forms]. now rewrite nth_error_app2, Nat.sub_diag by lia.
Qed.
Lemma loc_on_path {A} W W' pid (op : env -> entries_of -> path -> path * res A) : loc W' (on_path W pid op).
Proof.
  apply loc_same. intros s. unfold on_path. destruct (nth_error (paths s) pid) as [p|]; [|reflexivity].
  destruct (op (w_env W) (entries s) p) as [p' r]. reflexivity.
Qed.
Lemma loc_ctx_get_opt W k : loc W (ctx_get_opt k).
Proof. now apply loc_same. Qed.
Lemma loc_ctx_get W k : loc W (ctx_get k).
Proof. apply loc_same. intros s. unfold ctx_get, ctx_get_opt, bind, get. now destruct (lookup k (stk s)). Qed.
Lemma loc_cur_path W : loc W cur_path.
Proof. apply loc_bind; [apply good_ctx_get|apply loc_ctx_get|]. intros []; now apply loc_same. Qed.
Lemma loc_set_entries W id l : loc W (set_entries id l).
Proof. apply loc_same. intros s. unfold set_entries. now destruct (nth_error (forms s) id) as [[t0 l0]|]. Qed.
Lemma loc_form_set W id k v : loc W (form_set id k v).
Proof. apply loc_bind; [apply good_form_entries|now apply loc_same|intros; apply loc_set_entries]. Qed.

(** Reporting. *)
Lemma loc_report W kd : loc W (report W kd).
Proof.
  intros s WF pid p A B i m es N. unfold report. unfold bind at 1, ctx_get at 1, ctx_get_opt, bind at 1, get at 1. unfold error_list.
  assert (Z : exists new : list err, nth_error (errs s) i = Some (m, es ++ new) /\ Forall (located W pid p) new /\
     (match lookup "errors" (stk s) with Some (CErrs e) => Some e | _ => None end <> Some i -> new = [])).
  { exists []. rewrite app_nil_r. auto. }
  destruct (lookup "errors" (stk s)) as [[]|]; try exact Z. cbn [ret].
  unfold bind at 1, ctx_get at 1, ctx_get_opt, bind at 1, get at 1. destruct (lookup "field" (stk s)) as [[]|]; try exact Z. cbn [ret].
  unfold path_text. unfold bind at 1, ctx_get at 1, ctx_get_opt, bind at 2, get at 1. unfold bind at 1. rewrite A. cbn [ret].
  unfold bind at 1, on_path. rewrite B. destruct (p_str (w_env W) p) as [tx|e] eqn:T.
  - cbn [ret fst snd]. unfold call_errs, extend_errs, bind. cbn [errs].
    rewrite (replace_same _ _ _ B). destruct (Nat.eq_dec eid i) as [->|D].
    + rewrite N. cbn [get errs]. rewrite nth_replace_eq by (apply nth_error_Some; congruence).
      assert (Q : exists new : list err, nth_error (replace_nth i (m, es ++ [MkErr kd tx (f_name f) (Some pid)]) (errs s)) i = Some (m, es ++ new) /\
         Forall (located W pid p) new /\ (Some i <> Some i -> new = [])).
      { eexists. rewrite nth_replace_eq by (apply nth_error_Some; congruence). split; [reflexivity|]. split.
        - constructor; [|constructor]. exists kd, tx, (f_name f), []. auto.
        - congruence. }
      destruct m; exact Q.
    + exists []. rewrite app_nil_r. split; [|auto].
      destruct (nth_error (errs s) eid) as [[m' l']|]; cbn [errs snd get raise ret].
      * assert (Q : nth_error (replace_nth eid (m', l' ++ [MkErr kd tx (f_name f) (Some pid)]) (errs s)) i = Some (m, es)) by (rewrite nth_replace_neq by exact D; exact N).
        destruct (nth_error (replace_nth eid (m', l' ++ [MkErr kd tx (f_name f) (Some pid)]) (errs s)) eid) as [[[] l2]|]; exact Q.
      * destruct (nth_error (errs s) eid) as [[[] l2]|]; exact N.
  - exact Z.
Qed.

(** Blocks. *)
Lemma loc_block {A} W kw (body : M A) : good body -> loc W body -> alookup kw "src" = None -> blk_ok kw ->
  (alookup kw "errors" = None \/ exists v, alookup kw "errors" = Some (CVal v)) -> loc W (with_ctx W kw body).
Proof.
  intros G L HS HB HE s WF. destruct (block_plain W kw body s WF G HS HB) as (WF1 & s' & R & _ & _ & R4 & _). rewrite R. cbn [snd].
  specialize (L _ WF1). intros pid p P1 P2 i m es N.
  destruct (L pid p) with (i := i) (m := m) (es := es) as (new & X & Y & Z); [cbn [stk lookup]; unfold blk_ok in HB; now rewrite HB|exact P2|exact N|].
  exists new. rewrite R4. split; [exact X|]. split; [exact Y|]. intros D. apply Z. unfold error_list in *. cbn [stk lookup].
  destruct HE as [HE|(v & HE)]; rewrite HE; [exact D|discriminate].
Qed.
Definition loc_from {A} (W : world) (s : st) (x : M A) : Prop :=
  forall s1, wf s1 -> forms s1 = forms s -> ext W (error_list s1) s1 (snd (x s1)).
Lemma block_errors {A} W kw (body : M A) s e : good body -> loc_from W s body -> alookup kw "src" = None -> blk_ok kw ->
  alookup kw "errors" = Some (CErrs e) -> wf s -> ext W (Some e) s (snd (with_ctx W kw body s)).
Proof.
  intros G L HS HB HE WF. destruct (block_plain W kw body s WF G HS HB) as (WF1 & s' & R & _ & _ & R4 & _). rewrite R. cbn [snd].
  specialize (L _ WF1 eq_refl). intros pid p P1 P2 i m es N.
  destruct (L pid p) with (i := i) (m := m) (es := es) as (new & X & Y & Z); [cbn [stk lookup]; unfold blk_ok in HB; now rewrite HB|exact P2|exact N|].
  exists new. rewrite R4. split; [exact X|]. split; [exact Y|]. intros D. apply Z. unfold error_list in *. cbn [stk lookup]. now rewrite HE.
Qed.
Lemma loc_key {A} W k (body : M A) : good body -> loc W body -> loc W (with_ctx W [("src", CKey k)] body).
Proof.
  intros G L s WF pid p P1 P2 i m es N.
  destruct (block_key W [("src", CKey k)] k body s pid p WF G eq_refl eq_refl P1 P2) as (WF1 & s' & R & _ & _ & R4). rewrite R. cbn [snd].
  specialize (L _ WF1). destruct (L pid (p_append k p)) with (i := i) (m := m) (es := es) as (new & X & Y & Z).
  - exact P1.
  - cbn [paths]. apply nth_replace_eq. apply nth_error_Some. congruence.
  - exact N.
  - exists new. rewrite R4. split; [exact X|]. split; [|exact Z]. eapply Forall_impl; [|exact Y]. intros e. apply located_append.
Qed.
(** A block with a source of its own. *)
Lemma source_block {A} W src e (body : M A) s : wf s -> good body -> loc_from W s body ->
  let kw := [("src", CSrc src); ("errors", CErrs e)] in
  match source_path (w_env W) (entries s) src with
  | Exn x => with_ctx W kw body s = (Exn x, s)
  | Ok p => forall i m es, nth_error (errs s) i = Some (m, es) ->
      exists new, nth_error (errs (snd (with_ctx W kw body s))) i = Some (m, es ++ new) /\
        Forall (located W (length (paths s)) p) new /\ (i <> e -> new = [])
  end.
Proof.
  intros WF G L kw. unfold with_ctx, closing.
  assert (PU : push W kw s = match source_path (w_env W) (entries s) src with
     | Ok p => (Ok tt, St ((("src_path", CPath (length (paths s))) :: kw) :: stk s) (forms s) (paths s ++ [p]) (errs s))
     | Exn x => (Exn x, s) end).
  { unfold push, kw. change (alookup [("src", CSrc src); ("errors", CErrs e)] "src") with (Some (CSrc src)). cbv beta iota.
    rewrite bind_run. destruct (source_path (w_env W) (entries s) src); reflexivity. }
  rewrite PU. clear PU. destruct (source_path (w_env W) (entries s) src) as [p|x] eqn:SP; [|reflexivity].
  set (s1 := St _ _ _ _).
  assert (WFp : wf_shape (pshape p)) by exact (source_path_wf _ _ _ _ SP).
  assert (WF1 : wf s1).
  { split; cbn [s1 stk paths]; unfold shapes; cbn [s1 paths]; rewrite map_app; cbn [map].
    - cbn [wfs]. cbn [alookup fst snd]. change (alookup (("src_path", CPath (length (paths s))) :: kw) "src_path") with (Some (CPath (length (paths s)))).
      cbv beta iota. split.
      + right. exists (length (paths s)). split; [reflexivity|]. split; [rewrite app_length, map_length; cbn [length]; lia|].
        intros I. apply (wfs_installs_bound _ _ _ (wf_stk _ WF)) in I. unfold shapes in I. rewrite map_length in I. lia.
      + right. apply wfs_extend. exact (wf_stk _ WF).
    - apply Forall_app. split; [exact (wf_paths _ WF)|constructor; [exact WFp|constructor]]. }
  specialize (L s1 WF1 eq_refl). specialize (G s1 WF1). unfold goodat in G. destruct (body s1) as [r s2]. cbn [snd] in *.
  intros i m es N. unfold restore. rewrite (stable_stk _ _ G). cbn [s1 stk]. unfold bind, set_stk, has_key. cbn [alookup fst snd].
  destruct (L (length (paths s)) p) with (i := i) (m := m) (es := es) as (new & X & Y & Z); [reflexivity| |exact N|].
  - cbn [s1 paths]. now rewrite nth_error_app2, Nat.sub_diag by lia.
  - exists new. split; [exact X|]. split; [exact Y|]. intros D. apply Z. unfold error_list. cbn [s1 stk lookup].
    change (alookup (("src_path", CPath (length (paths s))) :: kw) "errors") with (Some (CErrs e)). cbv beta iota. congruence.
Qed.

(** ** Forms, hooks and fields *)
Create HintDb loc.
Create HintDb goodl.
#[global] Hint Resolve good_ctx_get_opt good_ctx_get good_cur_path good_new_form good_new_errs
  good_set_entries good_extend_errs good_form_entries good_form_type good_errs_of good_form_set
  good_call_errs good_path_text good_report good_ret good_raise good_lift good_get good_pure good_set_parent
  good_form_setattr good_field_delete good_form_delattr good_form_reset good_effective_tags good_run_pathop good_unit_val good_item_of
  good_rmui good_field_munge good_field_validate good_invalid_error good_need_str good_path_has_src
  good_path_value good_path_exists good_path_is_null good_path_primitive good_path_sequence good_path_mapping
  good_parse_decimal good_parse_date good_parse_time good_parse_datetime good_parse_code good_parse_uuid : goodl.
#[global] Hint Resolve loc_ctx_get_opt loc_ctx_get loc_cur_path loc_set_entries loc_form_set loc_report loc_on_path : loc.
Ltac lsame := apply loc_same; intros; reflexivity.
Ltac lstep :=
  match goal with
  | |- loc _ (bind _ _) => apply loc_bind; [solve [auto with goodl nocore]| |intros]
  | |- loc _ (catch _ _) => apply loc_catch; [solve [auto with goodl nocore]| |intros]
  | |- loc _ (if _ then _ else _) => apply loc_if
  | |- loc _ (match ?x with _ => _ end) => destruct x
  | |- loc _ (ret _) => lsame
  | |- loc _ (raise _) => lsame
  | |- loc _ (lift _) => lsame
  | |- loc _ (get _) => lsame
  | |- loc _ (form_entries _) => lsame
  | |- loc _ (form_type _) => lsame
  | |- loc _ (errs_of _) => lsame
  | |- loc _ (path_has_src _) => lsame
  | |- loc _ (let _ := _ in _) => cbv zeta
  | |- loc _ (fun s => (_, s)) => lsame
  | _ => solve [auto with loc nocore]
  end.

Section Rec.
Variable W : world.
Variable rec : field -> val -> M val.
Hypothesis GREC : forall f v, good (rec f v).
Hypothesis REC : forall f v, local f -> loc W (rec f v).

Lemma loc_path_value pid : loc W (path_value W pid). Proof. apply loc_on_path. Qed.
Lemma loc_path_exists pid : loc W (path_exists W pid). Proof. apply loc_on_path. Qed.
Lemma loc_path_is_null pid : loc W (path_is_null W pid). Proof. apply loc_on_path. Qed.
Lemma loc_path_primitive t pid : loc W (path_primitive W t pid). Proof. apply loc_on_path. Qed.
Lemma loc_path_sequence pid : loc W (path_sequence W pid). Proof. apply loc_on_path. Qed.
Lemma loc_path_mapping pid : loc W (path_mapping W pid). Proof. apply loc_on_path. Qed.
Hint Resolve loc_path_value loc_path_exists loc_path_is_null loc_path_primitive loc_path_sequence loc_path_mapping : loc.
Hint Resolve GREC : goodl.

Lemma loc_form_setattr id a v : loc W (form_setattr id a v).
Proof. unfold form_setattr. repeat lstep. Qed.
Lemma loc_field_delete f id : loc W (field_delete f id).
Proof. unfold field_delete. repeat lstep. Qed.
Hint Resolve loc_form_setattr loc_field_delete : loc.
Lemma loc_form_delattr id a : loc W (form_delattr id a).
Proof. unfold form_delattr. repeat lstep. Qed.
Lemma loc_form_reset id tags fs : loc W (form_reset id tags fs).
Proof.
  induction fs; cbn [form_reset]; [lsame|]. apply loc_bind; [apply good_if; auto with goodl| |auto]. repeat lstep.
Qed.
Lemma loc_effective_tags tags : loc W (effective_tags tags).
Proof. unfold effective_tags. repeat lstep. Qed.
Hint Resolve loc_form_delattr loc_form_reset loc_effective_tags : loc.

Lemma good_sel id tags f : good (if selected tags f then v <- rec f (VConst NONE); if ignored v then ret tt else form_set id (VStr (fname f)) v else ret tt).
Proof. repeat gstep. Qed.
Lemma loc_map_fields id tags fs : (forall f, In f fs -> local f) -> loc W (map_fields rec id tags fs).
Proof.
  induction fs as [|f fs IH]; intros H; cbn [map_fields]; [lsame|]. apply loc_bind; [apply good_sel| |intros; apply IH; intros; apply H; now right].
  assert (L : local f) by (apply H; now left). pose proof (REC f (VConst NONE) L). repeat lstep.
Qed.
Lemma local_not_in_form id : forall t args, local_prog (hk_fun (not_in_form id) t args).
Proof. intros t [|a l]; cbn; constructor. intros [|]; constructor. Qed.
Lemma local_plain : local plain_string /\ local plain_field.
Proof. split; constructor; try constructor; intros ? H; cbn in H; try discriminate; injection H as <-; intros ? ?; discriminate. Qed.
Lemma local_unmapped id kf vf : local kf -> local vf -> local (unmapped_dict id kf vf).
Proof.
  intros A B. constructor; try (intros ? H; cbn in H; try discriminate; try (injection H as <-; intros ? ?; discriminate)).
  constructor; auto. intros h H. injection H as <-. apply local_not_in_form.
Qed.
Lemma loc_form_unmapped id u : local_unm u -> loc W (form_unmapped rec id u).
Proof.
  intros H. destruct local_plain as [P1 P2]. unfold form_unmapped. cbv zeta.
  inversion H; subst; try lsame;
    (apply loc_bind; [apply GREC|apply REC; now apply local_unmapped|intros; lsame]).
Qed.
Lemma loct_form__map id t tags u : local_form t -> local_unm u -> loct W id t (form__map W rec id tags u).
Proof.
  intros LT LU. inversion LT as [n fs Hf E]; subst. unfold form__map.
  apply loct_bind; [apply good_cur_path|apply loc_loct, loc_cur_path|intros pid].
  apply loct_bind; [apply good_path_mapping|apply loc_loct, loc_path_mapping|intros _].
  apply loct_form_type. apply loc_loct.
  apply loc_bind; [apply with_ctx_good; [reflexivity|now apply good_map_fields]| |intros _].
  { apply loc_block; [now apply good_map_fields|now apply loc_map_fields|reflexivity|reflexivity|now left]. }
  apply loc_bind; [now apply good_form_unmapped|now apply loc_form_unmapped|]. intros o. repeat lstep.
Qed.


Lemma loc_from_typed {A} id t s (x : M A) : typed id t s -> loct W id t x -> loc_from W s x.
Proof. intros T L s1 WF1 F. apply L; [exact WF1|]. unfold typed. now rewrite F. Qed.

Lemma new_errs_wf m s : wf s -> wf (St (stk s) (forms s) (paths s) (errs s ++ [(m, [])])).
Proof. intros [A B]. split; [exact A|exact B]. Qed.
Lemma loct_nested_map id t tags u m : local_form t -> local_unm u -> loct W id t (nested_map W rec id tags u m).
Proof.
  intros LT LU s WF T pid p P1 P2 i mi es N. unfold nested_map. unfold bind at 1, new_errs.
  set (e := length (errs s)). set (s1 := St (stk s) (forms s) (paths s) (errs s ++ [(m, [])])).
  assert (WF1 : wf s1) by now apply new_errs_wf. assert (T1 : typed id t s1) by exact T.
  assert (G : good (form__map W rec id tags u)) by now apply good_form__map.
  pose proof (block_errors W [("errors", CErrs e)] _ s1 e G (loc_from_typed _ _ _ _ T1 (loct_form__map id t tags u LT LU)) eq_refl eq_refl eq_refl WF1) as X.
  pose proof (with_ctx_good W [("errors", CErrs e)] _ eq_refl G s1 WF1) as S2. unfold goodat in S2.
  rewrite bind_run. destruct (with_ctx W [("errors", CErrs e)] (form__map W rec id tags u) s1) as [r s2]. cbn [snd] in *.
  assert (Li : (i < length (errs s))%nat) by (apply nth_error_Some; congruence).
  assert (N1 : nth_error (errs s1) i = Some (mi, es)) by (cbn [s1 errs]; rewrite nth_error_app1 by exact Li; exact N).
  destruct (X pid p P1 P2 i mi es N1) as (n1 & X1 & X2 & X3). rewrite X3, app_nil_r in X1 by (unfold e; intros H; injection H as H; lia).
  assert (Q : exists new, nth_error (errs s2) i = Some (mi, es ++ new) /\ Forall (located W pid p) new /\ (error_list s <> Some i -> new = [])).
  { exists []. rewrite app_nil_r. auto. }
  assert (Ne : nth_error (errs s1) e = Some (m, [])).
  { cbn [s1 errs]. unfold e. now rewrite nth_error_app2, Nat.sub_diag by lia. }
  destruct (X pid p P1 P2 e m [] Ne) as (n2 & Y1 & Y2 & _). cbn [app] in Y1.
  destruct r as [u0|x]; [|exact Q]. cbv beta iota. rewrite bind_run. unfold ctx_get, ctx_get_opt. rewrite bind_run. cbn [get].
  assert (SK : stk s2 = stk s) by exact (stable_stk _ _ S2). rewrite SK.
  unfold error_list in *. destruct (lookup "errors" (stk s)) as [[]|]; try exact Q. cbn [ret]. rewrite bind_run. unfold errs_of, get. rewrite Y1.
  rewrite bind_run. unfold extend_errs. destruct (Nat.eq_dec eid i) as [->|D].
  - rewrite X1. cbn [ret snd errs]. exists n2. rewrite nth_replace_eq by (apply nth_error_Some; congruence). split; [reflexivity|]. split; [exact Y2|congruence].
  - exists []. rewrite app_nil_r. split; [|auto]. destruct (nth_error (errs s2) eid) as [[m' l']|]; cbn [ret snd errs]; [|exact X1].
    now rewrite nth_replace_neq.
Qed.
Lemma loct_root_map id t a tags u m : local_form t -> local_unm u -> loct W id t (root_map W rec id a tags u m).
Proof.
  intros LT LU s WF T pid p P1 P2 i mi es N. unfold root_map. unfold bind at 1, form_type, get.
  rewrite bind_run. unfold lift. destruct T as (l & T). rewrite T.
  assert (Q : exists new, nth_error (errs s) i = Some (mi, es ++ new) /\ Forall (located W pid p) new /\ (error_list s <> Some i -> new = [])).
  { exists []. rewrite app_nil_r. auto. }
  destruct (root_source t a) as [src|x]; [|exact Q]. cbv beta iota. unfold bind at 1, new_errs.
  set (e := length (errs s)). set (s1 := St (stk s) (forms s) (paths s) (errs s ++ [(m, [])])).
  assert (WF1 : wf s1) by now apply new_errs_wf. assert (T1 : typed id t s1) by (exists l; exact T).
  assert (G : good (form__map W rec id tags u)) by now apply good_form__map.
  pose proof (source_block W src e _ s1 WF1 G (loc_from_typed _ _ _ _ T1 (loct_form__map id t tags u LT LU))) as X.
  assert (Li : (i < length (errs s))%nat) by (apply nth_error_Some; congruence).
  assert (N1 : nth_error (errs s1) i = Some (mi, es)) by (cbn [s1 errs]; rewrite nth_error_app1 by exact Li; exact N).
  rewrite bind_run. cbv zeta in X. destruct (source_path (w_env W) (entries s1) src) as [q|x].
  - destruct (X i mi es N1) as (new & X1 & _ & X3). rewrite X3, app_nil_r in X1 by (unfold e; lia).
    exists []. rewrite app_nil_r. destruct (with_ctx W [("src", CSrc src); ("errors", CErrs e)] (form__map W rec id tags u) s1) as [[u0|x] s2]; cbn [snd ret] in *; auto.
  - rewrite X. cbn [snd]. exists []. rewrite app_nil_r. auto.
Qed.
Lemma loct_form_map id t a tags rs u m : local_form t -> local_unm u -> loct W id t (form_map W rec id a tags rs u m).
Proof.
  intros LT LU. unfold form_map.
  apply loct_bind; [apply good_effective_tags|apply loc_loct, loc_effective_tags|intros tg].
  apply loct_form_type.
  apply loct_bind; [apply good_if; auto with goodl|apply loc_loct; repeat lstep|intros _].
  apply loct_bind; [apply good_ctx_get|apply loc_loct, loc_ctx_get|intros c].
  apply loct_bind.
  - apply good_if; [now apply good_nested_map|now apply good_root_map].
  - destruct (is_anone a && negb (is_none_c c)); [now apply loct_nested_map|now apply loct_root_map].
  - intros e. apply loc_loct. repeat lstep.
Qed.

Lemma loc_run_pathop op : loc W (run_pathop W op).
Proof. unfold run_pathop. repeat lstep. Qed.
Lemma loc_unit_val m : good m -> loc W m -> loc W (unit_val m).
Proof. intros G H. unfold unit_val. apply loc_bind; [exact G|exact H|intros; lsame]. Qed.
Lemma loc_item_of id k : loc W (item_of id k).
Proof. unfold item_of. repeat lstep. Qed.
Hint Resolve loc_run_pathop loc_unit_val loc_item_of : loc.
Lemma user_vars_errors vars : alookup (user_vars vars) "src" = None /\
  (alookup (user_vars vars) "errors" = None \/ exists v, alookup (user_vars vars) "errors" = Some (CVal v)).
Proof.
  unfold user_vars. induction vars as [|[k v] vars [I1 I2]]; [split; [reflexivity|now left]|]. cbn [filter map fst].
  destruct (String.eqb k "src" || String.eqb k "src_path") eqn:H; cbn [negb]; [split; [exact I1|exact I2]|].
  cbn [map alookup fst snd]. apply orb_false_iff in H. destruct H as [H _]. rewrite H. split; [exact I1|]. destruct (String.eqb k "errors"); [right; eauto|exact I2].
Qed.
Lemma loc_run p : local_prog p -> loc W (run W rec p).
Proof.
  induction p; intros L; inversion L; subst; cbn [run].
  - lsame.
  - lsame.
  - apply loc_catch; [repeat gstep|repeat lstep|auto].
  - apply loc_catch; [apply good_unit_val; auto with goodl|apply loc_unit_val; auto with loc goodl|auto].
  - apply loc_catch; [apply good_unit_val; auto with goodl|apply loc_unit_val; auto with loc goodl|auto].
  - repeat lstep; auto.
  - repeat lstep; auto.
  - apply loc_catch; [apply good_unit_val; auto with goodl|apply loc_unit_val; auto with loc goodl|auto].
  - apply loc_catch; [apply good_unit_val; auto with goodl|apply loc_unit_val; auto with loc goodl|auto].
  - destruct (user_vars_errors vars) as [U1 U2]. apply loc_catch; [apply with_ctx_good; [apply user_vars_ok|now apply good_run]| |auto].
    apply loc_block; [now apply good_run|auto|exact U1|apply user_vars_ok|exact U2].
  - apply loc_catch; [apply with_ctx_good; [reflexivity|now apply good_run]| |auto].
    apply loc_key; [now apply good_run|auto].
  - apply loc_catch; [|apply loc_new_form; intros id|auto].
    + apply good_bind; [apply good_new_form|intros; apply good_bind; [now apply good_form_map|intros; apply good_ret]].
    + apply loct_bind; [now apply good_form_map|now apply loct_form_map|intros; apply loc_loct; lsame].
Qed.
Lemma loc_call_hook h args : (forall t a, local_prog (hk_fun h t a)) -> loc W (call_hook W rec h args).
Proof.
  intros H. unfold call_hook. apply loc_bind; [repeat gstep|repeat lstep|intros; now apply loc_run].
Qed.
Lemma loc_rmui : loc W (report_missing_unless_ignored W).
Proof.
  unfold report_missing_unless_ignored. apply loc_bind; [apply good_ctx_get|apply loc_ctx_get|intros].
  apply loc_bind; [apply good_if; auto with goodl|repeat lstep|intros; lsame].
Qed.
Hint Resolve loc_rmui : loc.
Lemma good_hook h args : good (call_hook W rec h args). Proof. now apply good_call_hook. Qed.
Hint Resolve good_hook : goodl.
Lemma loc_field_default f : local f -> loc W (field_default W rec f).
Proof.
  intros L. destruct L as [o k D1 D2 HC HR HP HM HF HV HK]. unfold field_default. apply loc_bind; [apply good_ctx_get|apply loc_ctx_get|intros c].
  cbn [f_opts]. apply loc_if; [apply loc_rmui|]. destruct (o_default o) as [[h|]|v|p].
  - apply loc_call_hook. exact (D1 _ eq_refl h eq_refl).
  - apply loc_rmui.
  - repeat lstep.
  - apply loc_run. now apply D2.
Qed.
Lemma loc_field_munge f v : loc W (field_munge f v).
Proof. unfold field_munge. repeat lstep. Qed.
Lemma loc_field_validate f v : loc W (field_validate W f v).
Proof.
  unfold field_validate. apply loc_bind; [apply (good_pure (fun s => field_violation (w_env W) (entries s) f v))|lsame|intros o]. repeat lstep.
Qed.
Lemma loc_invalid_error x : loc W (invalid_error W x).
Proof. unfold invalid_error. repeat lstep. Qed.
Lemma loc_need_str v : loc W (need_str v).
Proof. unfold need_str. repeat lstep. Qed.
Hint Resolve loc_field_munge loc_field_validate loc_invalid_error loc_need_str : loc.
Lemma good_at k f : good (map_at W rec k f). Proof. now apply good_map_at. Qed.
Lemma loc_map_at k f : local f -> loc W (map_at W rec k f).
Proof. intros L. unfold map_at. apply loc_key; auto. Qed.
Hint Resolve good_at : goodl.
Hint Resolve loc_map_at : loc.
Lemma loc_parse_decimal pid : loc W (parse_decimal W pid).
Proof. unfold parse_decimal. repeat lstep. Qed.
Lemma loc_parse_date fmts pid : loc W (parse_date W fmts pid).
Proof. unfold parse_date. repeat lstep. Qed.
Lemma loc_parse_time fmt pid : loc W (parse_time W fmt pid).
Proof. unfold parse_time. repeat lstep. Qed.
Lemma loc_parse_datetime fmt pid : loc W (parse_datetime W fmt pid).
Proof. unfold parse_datetime. repeat lstep. Qed.
Lemma loc_parse_code pid : loc W (parse_code W pid).
Proof. unfold parse_code. repeat lstep. Qed.
Lemma loc_parse_uuid pid : loc W (parse_uuid W pid).
Proof. unfold parse_uuid, to_uuid. repeat lstep. Qed.
Lemma loc_tuple_items fs : (forall f, In f fs -> local f) -> forall i acc, loc W (tuple_items W rec i fs acc).
Proof.
  induction fs as [|f fs IH]; intros H i acc; cbn [tuple_items]; [lsame|].
  apply loc_bind; [apply good_at|apply loc_map_at, H; now left|intros; apply IH; intros; apply H; now right].
Qed.
Lemma loc_list_items n f : local f -> forall i acc, loc W (list_items W rec i n f acc).
Proof.
  intros L. induction n as [|n IH]; intros i acc; cbn [list_items]; [lsame|].
  apply loc_bind; [apply good_at|now apply loc_map_at|intros; apply IH].
Qed.
Lemma loc_dict_items keyf kf vf : hook_ok local_prog keyf -> local kf -> local vf -> forall keys acc, loc W (dict_items W rec keyf kf vf keys acc).
Proof.
  intros HK LK LV. induction keys as [|k keys IH]; intros acc; cbn [dict_items]; [lsame|].
  apply loc_bind; [now apply good_key_accepted| |intros b].
  { unfold key_accepted. destruct keyf as [h|]; [|lsame]. apply loc_bind; [apply good_hook|apply loc_call_hook; exact (HK h eq_refl)|intros; lsame]. }
  apply loc_if; [apply IH|]. apply loc_bind; [apply good_at|now apply loc_map_at|intros v]. apply loc_if; [apply IH|].
  apply loc_bind; [apply GREC|now apply REC|intros k']. apply loc_if; [apply IH|]. apply loc_if; [apply IH|lsame].
Qed.
Lemma match_in l : forall k f c, group_match W l k = Ok (Some (f, c)) -> exists m, In (m, f) l.
Proof.
  induction l as [|[[s|s] g] l IH]; intros k f c H; cbn [group_match] in H; [discriminate| |].
  - destruct (py_eq (VStr s) k); [injection H as <- _; exists (GName s); now left|].
    destruct (IH _ _ _ H) as (m & I). exists m. now right.
  - destruct k; try discriminate. destruct (e_re (w_env W) s s0); [injection H as <- _; exists (GRe s); now left|].
    destruct (IH _ _ _ H) as (m & I). exists m. now right.
Qed.
Lemma loc_group_items l : (forall m f, In (m, f) l -> local f) -> forall keys c acc, loc W (group_items W rec l keys c acc).
Proof.
  intros H. induction keys as [|k keys IH]; intros c acc; cbn [group_items]; [lsame|].
  unfold lift. intros s WF. unfold bind at 1. destruct (group_match W l k) as [[[f cap]|]|e] eqn:GM; [|apply IH; exact WF|now apply ext_same].
  destruct (match_in _ _ _ _ GM) as (m & I).
  enough (L : loc W (v <- map_at W rec (key_of_val k) f; group_items W rec l keys (S c) (if ignored v then acc else acc ++ [VTuple [k; cap; v]]))) by exact (L s WF).
  apply loc_bind; [apply good_at|apply loc_map_at; eauto|intros; apply IH].
Qed.
Lemma loc_parse_form t rs u : local_form t -> local_unm u -> loc W (parse_form W rec t rs u).
Proof.
  intros LT LU. unfold parse_form. apply loc_new_form. intros id. apply loct_bind; [now apply good_form_map|now apply loct_form_map|].
  intros es. apply loc_loct. repeat lstep.
Qed.
Hint Resolve loc_parse_decimal loc_parse_date loc_parse_time loc_parse_datetime loc_parse_code loc_parse_uuid : loc.
Lemma loc_parse_kind k pid : local_kind k -> loc W (parse_kind W rec k pid).
Proof.
  intros H. unfold parse_kind. inversion H; subst; try solve [auto with loc nocore].
  - unfold parse_tuple. apply loc_bind; [apply good_path_sequence|apply loc_path_sequence|intros n]. apply loc_if; [|apply loc_invalid_error].
    apply loc_bind; [now apply good_tuple_items|now apply loc_tuple_items|intros; lsame].
  - unfold parse_list. apply loc_catch; [apply good_path_sequence|apply loc_path_sequence|intros [n|e]].
    + apply loc_bind; [now apply good_list_items|now apply loc_list_items|intros; lsame].
    + apply loc_bind; [apply good_path_has_src|lsame|intros b]. apply loc_if; [lsame|]. destruct e; try lsame.
      apply loc_if; [|lsame]. apply loc_bind; [apply GREC|now apply REC|intros; lsame].
  - unfold parse_dict. apply loc_bind; [apply good_path_mapping|apply loc_path_mapping|intros vw].
    apply loc_bind; [apply good_lift|lsame|intros keys]. apply loc_bind; [now apply good_dict_items|now apply loc_dict_items|intros; lsame].
  - now apply loc_parse_form.
  - unfold parse_group. apply loc_bind; [apply good_path_mapping|apply loc_path_mapping|intros vw].
    apply loc_bind; [apply good_lift|lsame|intros keys]. now apply loc_group_items.
Qed.
Lemma loc_field_map_body f v : local f -> loc W (field_map_body W rec f v).
Proof.
  intros L. pose proof (loc_field_default f L) as LD. destruct L as [o k D1 D2 HC HR HP HM HF HV HK]. unfold field_map_body.
  assert (LA : forall w, loc W (field_after W rec (MkField o k) w)).
  { intros w. unfold field_after. cbn [f_opts]. apply loc_bind; [apply good_field_munge|apply loc_field_munge|intros w1].
    apply loc_bind.
    { destruct (o_munge o); [apply good_if; auto with goodl|apply good_ret]. }
    { destruct (o_munge o) as [h|]; [apply loc_if; [lsame|apply loc_call_hook; exact (HM h eq_refl)]|lsame]. }
    intros w2. apply loc_if; [exact LD|]. apply loc_if; [lsame|]. apply loc_if; [exact LD|].
    apply loc_bind.
    { destruct (o_filter o); [|apply good_ret]. apply good_bind; [apply good_hook|intros; apply good_ret]. }
    { destruct (o_filter o) as [h|]; [|lsame]. apply loc_bind; [apply good_hook|apply loc_call_hook; exact (HF h eq_refl)|intros; lsame]. }
    intros ok. apply loc_if; [exact LD|]. apply loc_bind; [apply good_field_validate|apply loc_field_validate|intros ok2]. apply loc_if; [lsame|].
    apply loc_bind.
    { destruct (o_validate o); [|apply good_ret]. apply good_bind; [apply good_hook|intros; apply good_ret]. }
    { destruct (o_validate o) as [h|]; [|lsame]. apply loc_bind; [apply good_hook|apply loc_call_hook; exact (HV h eq_refl)|intros; lsame]. }
    intros ok3. repeat lstep. }
  assert (LC : loc W (field_compute W rec (MkField o k))).
  { unfold field_compute. cbn [f_opts f_kind]. apply loc_bind; [apply good_cur_path|apply loc_cur_path|intros pid].
    apply loc_bind; [apply good_path_exists|apply loc_path_exists|intros ex]. apply loc_if; [lsame|].
    apply loc_bind; [apply good_path_is_null|apply loc_path_is_null|intros nl]. apply loc_if; [lsame|].
    apply loc_catch.
    - destruct (o_parse o); [apply good_hook|now apply good_parse_kind].
    - destruct (o_parse o) as [h|]; [apply loc_call_hook; exact (HP h eq_refl)|now apply loc_parse_kind].
    - intros [w|e]; [lsame|]. apply loc_if; [apply loc_invalid_error|lsame]. }
  assert (LB : loc W (field_body W rec (MkField o k) v)).
  { unfold field_body. apply loc_if; [|apply LA]. cbn [f_opts]. apply loc_bind.
    - destruct (o_compute o); [apply good_hook|now apply good_field_compute].
    - destruct (o_compute o) as [h|]; [apply loc_call_hook; exact (HC h eq_refl)|exact LC].
    - intros w. apply loc_if; [|apply loc_if; [lsame|apply LA]].
      destruct (o_default o) as [[h|]|d|pp]; try exact LD. apply loc_call_hook. exact (D1 _ eq_refl h eq_refl). }
  apply loc_bind.
  - apply with_ctx_good; [reflexivity|now apply good_field__map].
  - apply loc_block; [now apply good_field__map| |reflexivity|reflexivity|now left].
    unfold field__map. apply loc_bind.
    + apply good_if; [now apply good_field_resolve|apply good_ret].
    + apply loc_if; [|lsame]. unfold field_resolve. cbn [f_opts f_kind]. destruct (o_resolve o) as [h|].
      * apply loc_bind; [apply good_hook|apply loc_call_hook; exact (HR h eq_refl)|intros; lsame].
      * destruct k; lsame.
    + intros [key|]; [|exact LB]. apply loc_key; [now apply good_field_body|exact LB].
  - intros w. apply loc_bind; [apply good_if; auto with goodl| |intros; lsame]. apply loc_if; [|lsame].
    unfold set_parent. destruct w; try lsame. apply loc_form_setattr.
Qed.
End Rec.

Lemma loc_field_map W n : forall f v, local f -> loc W (field_map W n f v).
Proof.
  induction n as [|n IH]; intros f v L; cbn [field_map]; [lsame|].
  apply loc_field_map_body; [apply good_field_map|exact IH|exact L].
Qed.
