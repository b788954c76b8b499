(** * FieldLemmas: the statements about mapping one field, assembled (C16-C28). *)
From Verif Require Import PyBase PyStr Source Field Context Fields SpecCtx SpecField SpecPipe Shape Reads Balance CtxProofs Run FieldProofs FieldVios.
From Coq Require Import Lia QArith.
Open Scope Z_scope.

(** ** C16 *)
Section Pipe.
Variable W : world.
Variable rec : field -> val -> M val.
Variable f : field.

Lemma v_stages v s :
  (ok <- field_validate W f v;
   if negb ok then ret ERRORv
   else ok <- (match o_validate (f_opts f) with Some h => r <- call_hook W rec h [v]; ret (truthy r) | None => ret true end);
        if negb ok then ret ERRORv else ret v) s =
  run_stages (stage_default W rec f) (validating W rec f) v s.
Proof.
  unfold validating. cbn [run_stages]. unfold st_validate, st_validate_hook, ask, bind, ret.
  destruct (field_validate W f v s) as [[[|]|e3] s4]; cbn [negb]; try reflexivity.
  destruct (o_validate (f_opts f)) as [h3|]; [|reflexivity].
  destruct (call_hook W rec h3 [v] s4) as [[r3|e4] s5]; [|reflexivity]. destruct (truthy r3); reflexivity.
Qed.
Lemma f_stages v s (tail : M val) : (forall s0, tail s0 = run_stages (stage_default W rec f) (validating W rec f) v s0) ->
  (if negb (field_filter f v) then field_default W rec f
   else ok <- (match o_filter (f_opts f) with Some h => r <- call_hook W rec h [v]; ret (truthy r) | None => ret true end);
        if negb ok then field_default W rec f else tail) s =
  run_stages (stage_default W rec f) (filtering W rec f ++ validating W rec f) v s.
Proof.
  intros T. unfold filtering. cbn [app]. cbn [run_stages]. unfold st_ignores, st_filter_hook, ask, bind, field_filter. unfold ret at 2.
  rewrite negb_involutive. destruct (py_in v (o_ignores (f_opts f))); [reflexivity|].
  destruct (o_filter (f_opts f)) as [h|]; [|exact (T s)]. unfold ret.
  destruct (call_hook W rec h [v] s) as [[r3|e4] s5]; [|reflexivity]. destruct (truthy r3); cbn [negb]; [exact (T s5)|reflexivity].
Qed.
Lemma bind_run {A B} (x : M A) (k : A -> M B) s :
  bind x k s = match x s with (Ok a, s1) => k a s1 | (Exn e, s1) => (Exn e, s1) end.
Proof. unfold bind. destruct (x s) as [[a|e] s1]; reflexivity. Qed.
Lemma ret_run {A} (a : A) s : ret a s = (Ok a, s). Proof. reflexivity. Qed.
Lemma p_stages v s (tail : val -> M val) : (forall s0, tail v s0 = run_stages (stage_default W rec f) (filtering W rec f ++ validating W rec f) v s0) ->
  (if is_NONE v then field_default W rec f else if ignored v then ret v else tail v) s =
  run_stages (stage_default W rec f) (st_present :: filtering W rec f ++ validating W rec f) v s.
Proof.
  intros T. cbn [run_stages]. rewrite bind_run. unfold st_present. rewrite ret_run.
  destruct (is_NONE v); [reflexivity|]. destruct (ignored v); [reflexivity|]. apply T.
Qed.
Lemma after_stages v s : field_after W rec f v s = run_stages (stage_default W rec f) (given_plan W rec f) v s.
Proof.
  unfold given_plan, munging. cbn [app]. cbn [run_stages].
  unfold field_after. rewrite !bind_run. unfold st_translate. rewrite bind_run.
  destruct (field_munge f v s) as [[w|e] s1]; [|reflexivity]. rewrite ret_run, !bind_run. unfold st_munge_hook.
  assert (K : forall w s0, (if is_NONE w then field_default W rec f else if ignored w then ret w else
     if negb (field_filter f w) then field_default W rec f else
     ok <- (match o_filter (f_opts f) with Some h => r <- call_hook W rec h [w]; ret (truthy r) | None => ret true end);
     if negb ok then field_default W rec f else
     ok <- field_validate W f w;
     if negb ok then ret ERRORv
     else ok <- (match o_validate (f_opts f) with Some h => r <- call_hook W rec h [w]; ret (truthy r) | None => ret true end);
        if negb ok then ret ERRORv else ret w) s0 = run_stages (stage_default W rec f) (st_present :: filtering W rec f ++ validating W rec f) w s0).
  { intros w0 s0. apply (p_stages w0 s0 (fun w => _)). intros s2. apply f_stages. intros s3. apply v_stages. }
  cbn [run_stages] in K.
  destruct (o_munge (f_opts f)) as [h|]; [destruct (ignored w)|]; try apply K.
  rewrite bind_run. destruct (call_hook W rec h [w] s1) as [[w2|e] s2]; [|reflexivity]. apply K.
Qed.
Lemma body_stages v s : field_body W rec f v s =
  run_stages (stage_default W rec f) ((if is_NONE v then [st_compute W rec f] else []) ++ given_plan W rec f) v s.
Proof.
  unfold field_body. destruct (is_NONE v); [|exact (after_stages v s)]. cbn [app]. cbn [run_stages]. unfold st_compute.
  unfold bind.
  destruct (match o_compute (f_opts f) with Some h => call_hook W rec h [] | None => field_compute W rec f end s) as [[w|e] s1]; [|reflexivity].
  destruct (is_NONE w).
  - unfold stage_default. destruct (o_default (f_opts f)) as [[h|]|d|pr]; try reflexivity.
    destruct (call_hook W rec h [] s1) as [[x|e] s2]; reflexivity.
  - destruct (ignored w); [reflexivity|]. exact (after_stages w s1).
Qed.
Lemma with_ctx_ext {A} kw (b1 b2 : M A) s : (forall x, b1 x = b2 x) -> with_ctx W kw b1 s = with_ctx W kw b2 s.
Proof. intros H. unfold with_ctx, closing. destruct (push W kw s) as [[a|e] s1]; [|reflexivity]. now rewrite H. Qed.
End Pipe.
Lemma C16_pipeline_lem W n f v s  :
  field_map W (S n) f v s =
  (w <- with_ctx W [("field", CField f); ("parent", CField f)] (pipeline W (field_map W n) f v);
   (if o_attach_parent (f_opts f) && negb (ignored w) then set_parent w else ret tt);; ret w) s.
Proof.
  cbn [field_map]. unfold field_map_body. rewrite !bind_run.
  assert (X : forall x, field__map W (field_map W n) f v x = pipeline W (field_map W n) f v x).
  { intros x. unfold field__map, pipeline. destruct (is_NONE v) eqn:N.
    - unfold at_source, field_resolve. rewrite !bind_run.
      assert (B : forall y, field_body W (field_map W n) f v y = run_stages (stage_default W (field_map W n) f) (st_compute W (field_map W n) f :: given_plan W (field_map W n) f) v y).
      { intros y. rewrite body_stages, N. reflexivity. }
      destruct (o_resolve (f_opts f)) as [h|].
      + rewrite !bind_run. destruct (call_hook W (field_map W n) h [] x) as [[w|e] s1]; [|reflexivity]. rewrite !ret_run.
        destruct (if is_None w then None else Some (key_of_val w)) as [k|]; [apply with_ctx_ext; exact B|apply B].
      + assert (Y : forall A (g : option key -> M A), (match (match f_kind f with KGroup _ => ret None | _ => ret (o_src (f_opts f)) end) x with (Ok a, s1) => g a s1 | (Exn e, s1) => (Exn e, s1) end)
           = g (match f_kind f with KGroup _ => None | _ => o_src (f_opts f) end) x) by (intros A g; destruct (f_kind f); reflexivity).
        rewrite Y, ret_run. destruct (match f_kind f with KGroup _ => None | _ => o_src (f_opts f) end) as [k|]; [apply with_ctx_ext; exact B|apply B].
    - rewrite bind_run, ret_run. rewrite body_stages, N. reflexivity. }
  now rewrite (with_ctx_ext W _ _ _ s X).
Qed.

(** Later hooks do not run once an earlier step has decided. *)
Definition with_late (mu fi va : option (hook prog)) (f : field) : field :=
  let o := f_opts f in
  MkField (MkOpts (o_name o) (o_src o) (o_nullable o) (o_default o) (o_ignores o) (o_translations o)
                  (o_tags o) (o_attach_parent o) (o_compute o) (o_resolve o) (o_parse o) mu fi va) (f_kind f).
Lemma compute_late mu fi va W rec f : field_compute W rec (with_late mu fi va f) = field_compute W rec f.
Proof. destruct f as [o k]; reflexivity. Qed.
Lemma default_late mu fi va W rec f : field_default W rec (with_late mu fi va f) = field_default W rec f.
Proof. destruct f as [o k]; reflexivity. Qed.
Lemma C16_compute_decides_lem W rec f mu fi va s w s1 :
  (match o_compute (f_opts f) with Some h => call_hook W rec h [] | None => field_compute W rec f end) s = (Ok w, s1) ->
  ignored w = true ->
  field_body W rec f NONEv s = field_body W rec (with_late mu fi va f) NONEv s.
Proof.
  intros C I. unfold field_body. cbn [is_NONE NONEv]. rewrite !bind_run.
  change (o_compute (f_opts (with_late mu fi va f))) with (o_compute (f_opts f)).
  change (o_default (f_opts (with_late mu fi va f))) with (o_default (f_opts f)).
  rewrite compute_late, default_late, C, I. reflexivity.
Qed.
Lemma C16_ignored_decides_lem W rec f fi va s v : lookable f v -> o_munge (f_opts f) = None ->
  ignored (translation f v) = false -> py_in (translation f v) (o_ignores (f_opts f)) = true ->
  field_after W rec f v s = field_after W rec (with_late None fi va f) v s /\
  field_after W rec f v s = field_default W rec f s.
Proof.
  intros L HM G P. assert (N : is_NONE (translation f v) = false) by (destruct (translation f v); try reflexivity; discriminate).
  assert (A : forall fi va, field_after W rec (with_late None fi va f) v s = field_default W rec f s).
  { intros fi' va'. unfold field_after. rewrite bind_run. unfold field_munge.
    change (o_translations (f_opts (with_late None fi' va' f))) with (o_translations (f_opts f)). fold (field_munge f v). rewrite (munge_run f v s L).
    change (o_munge (f_opts (with_late None fi' va' f))) with (@None (hook prog)). rewrite bind_run, ret_run, N, G.
    unfold field_filter. change (o_ignores (f_opts (with_late None fi' va' f))) with (o_ignores (f_opts f)). rewrite P. cbn [negb].
    now rewrite default_late. }
  assert (B : field_after W rec f v s = field_default W rec f s).
  { rewrite <- (A (o_filter (f_opts f)) (o_validate (f_opts f))). f_equal. destruct f as [o k]. destruct o. cbn in *. unfold with_late. cbn. now rewrite HM. }
  split; [|exact B]. now rewrite A.
Qed.

(** ** Storing: the loop of a form over a field that yields [v] *)
Lemma yields_store W n f s eid es v new id tags rest : selected tags f = true ->
  yields W n f NONEv s eid Collect es v new ->
  exists s1, stk s1 = stk s /\ forms s1 = forms s /\ errs s1 = replace_nth eid (Collect, es ++ new) (errs s) /\
    map_fields (field_map W n) id tags (f :: rest) s =
    (if ignored v then map_fields (field_map W n) id tags rest s1
     else (form_set id (VStr (fname f)) v;; map_fields (field_map W n) id tags rest) s1).
Proof.
  intros SEL (s1 & A & B & C & D). exists s1. repeat split; auto. cbn [map_fields]. rewrite SEL. rewrite !bind_run.
  fold NONEv. rewrite A. destruct (ignored v); [reflexivity|]. reflexivity.
Qed.

(** ** C17-C25 *)
Section Thms.
Variables (W : world) (n : nat) (f : field).
Variables (s : st) (eid : nat) (m : mode) (es : list err) (pid : nat) (p : path) (igd igm : bool).
Hypothesis MP : mapping W s eid m es pid p igd igm.

Lemma untouched_tr v : untouched f v -> translated f v v.
Proof. intros (_ & D & _). now apply tr_miss. Qed.

Lemma null_lem t o : hook_free f -> untouched f VNone ->
  (exists q1 q2, p_exists (w_env W) (entries s) (place f p) = (q1, Ok true) /\ p_is_null (w_env W) (entries s) q1 = (q2, Ok true)) ->
  p_str (w_env W) (place f p) = Ok t -> o_nullable (f_opts f) = o ->
  if o : bool then yields W (S n) f NONEv s eid m es VNone [] else yields W (S n) f NONEv s eid m es ERRORv [invalid_at f pid VioNotNullable t].
Proof.
  intros HF U (q1 & q2 & X1 & X2) T N. destruct U as (L & D & I).
  pose proof (value_checked W n f NONEv s eid m es pid p igd igm MP (hf_read _ HF) HF VNone VNone t (if o then None else Some VioNotNullable) T
    (ob_null W s f p q1 q2 X1 X2) eq_refl L (tr_miss f VNone D) eq_refl I) as Y.
  destruct o; apply Y; unfold violated, field_violation, vio_null; rewrite N; reflexivity.
Qed.
Lemma text_parsed x q1 q2 q3 q4 y r (pk : M val) : hook_free f ->
  p_exists (w_env W) (entries s) (place f p) = (q1, Ok true) ->
  p_is_null (w_env W) (entries s) q1 = (q2, Ok false) ->
  p_value (w_env W) (entries s) q2 = (q3, Ok (VStr y)) ->
  p_primitive (w_env W) (entries s) TyStr q3 = (q4, Ok (VStr x)) ->
  (parse_kind W (field_map W n) (f_kind f) pid (after_read f NONEv s pid p q2) = (r, after_read f NONEv s pid p q4)) ->
  match r with Ok v => ignored v = false | Exn e => caught_by_compute e = false end ->
  field_body W (field_map W n) f NONEv (entered f NONEv s pid p) =
  match r with Ok v => field_after W (field_map W n) f v (after_read f NONEv s pid p q4) | Exn e => (Exn e, after_read f NONEv s pid p q4) end.
Proof. intros HF X1 X2 X3 X4 PK G. apply (body_parsed W n f NONEv s eid m es pid p igd igm MP (hf_read _ HF) HF q1 q2 q4 r); auto. Qed.

Lemma value_run q q' r : p_value (w_env W) (entries s) q = (q', r) -> path_value W pid (after_read f NONEv s pid p q) = (r, after_read f NONEv s pid p q').
Proof. intros X. unfold path_value. apply (ar_on W f NONEv s eid m es pid p igd igm MP p_value q q' r X). Qed.

(** The value a [Date] with formats makes of a text. *)
Lemma try_date_none fmts x : (forall fmt, In fmt fmts -> stamp (w_env W) fmt x = None) -> try_date W fmts x = VNone.
Proof.
  induction fmts as [|fmt l IH]; intros H; [reflexivity|]. cbn [try_date]. pose proof (H fmt (or_introl eq_refl)) as H0. unfold stamp in H0. rewrite H0.
  apply IH. intros g I. apply H. now right.
Qed.
Lemma try_date_first pre fmt post x t : (forall g, In g pre -> stamp (w_env W) g x = None) -> stamp (w_env W) fmt x = Some t ->
  try_date W (pre ++ fmt :: post) x = VDate (t / day).
Proof.
  induction pre as [|g l IH]; intros H S0; cbn [app try_date].
  - unfold stamp in S0. rewrite S0. reflexivity.
  - pose proof (H g (or_introl eq_refl)) as H0. unfold stamp in H0. rewrite H0. apply IH; [|exact S0]. intros g' I. apply H. now right.
Qed.
Lemma date_lem fmts lo hi x t o : hook_free f -> f_kind f = KDate fmts lo hi -> fmts <> [] -> reads_text W s f p x ->
  p_str (w_env W) (place f p) = Ok t -> let d := try_date W fmts x in
  untouched f d -> ignored d = false -> field_violation (w_env W) (entries s) f d = Ok o ->
  yields W (S n) f NONEv s eid m es (match o with None => d | Some _ => ERRORv end) (match o with None => [] | Some v => [invalid_at f pid v t] end).
Proof.
  intros HF K NE (q1 & q2 & q3 & q4 & y & X1 & X2 & X3 & X4) T d (L & D & I) G V.
  assert (PK : parse_kind W (field_map W n) (f_kind f) pid (after_read f NONEv s pid p q2) = (Ok d, after_read f NONEv s pid p q4)).
  { rewrite K. cbn [parse_kind]. unfold parse_date. rewrite bind_run, (value_run _ _ _ X3). rewrite bind_run.
    rewrite (prim_run W f NONEv s eid m es pid p igd igm MP TyStr _ _ _ X4). destruct fmts as [|fm l]; [congruence|]. rewrite bind_run. reflexivity. }
  assert (Tq : p_str (w_env W) q4 = Ok t).
  { rewrite (str_prim W s _ _ _ _ X4).
    assert (p_str (w_env W) q3 = p_str (w_env W) q2) as -> by (apply (str_after W s p_value _ _ _ (t_value (w_env W)) X3)).
    rewrite (str_after W s p_is_null _ _ _ (t_is_null (w_env W)) X2), (str_after W s p_exists _ _ _ (t_exists (w_env W)) X1). exact T. }
  pose proof (text_parsed x q1 q2 q3 q4 y (Ok d) (ret d) HF X1 X2 X3 X4 PK G) as B. cbv beta iota in B.
  rewrite (after_run W n f NONEv s eid m es pid p igd igm MP HF d d q4 t Tq L (translated_is f d d (tr_miss f d D)) G), I in B.
  unfold violated in B. rewrite V in B.
  apply (yields_of W n f NONEv s eid m es pid p igd igm MP (hf_read _ HF)) with (q := q4). rewrite B.
  destruct o as [v|]; [reflexivity|]. rewrite (reported_nil W f NONEv s eid m es pid p igd igm MP). destruct m; reflexivity.
Qed.
Lemma decimal_lem lo hi x : hook_free f -> f_kind f = KDecimal lo hi -> reads_text W s f p x -> e_dec (w_env W) x = None ->
  exists s', field_map W (S n) f NONEv s = (Exn EDecimal, s') /\ stk s' = stk s /\ forms s' = forms s /\ errs s' = errs s.
Proof.
  intros HF K (q1 & q2 & q3 & q4 & y & X1 & X2 & X3 & X4) D.
  assert (PK : parse_kind W (field_map W n) (f_kind f) pid (after_read f NONEv s pid p q2) = (Exn EDecimal, after_read f NONEv s pid p q4)).
  { rewrite K. cbn [parse_kind]. unfold parse_decimal. rewrite bind_run, (value_run _ _ _ X3). cbn [dec_of_number]. rewrite bind_run.
    rewrite (prim_run W f NONEv s eid m es pid p igd igm MP TyStr _ _ _ X4). rewrite D. reflexivity. }
  pose proof (text_parsed x q1 q2 q3 q4 y (Exn EDecimal) (ret VNone) HF X1 X2 X3 X4 PK eq_refl) as B. cbv beta iota in B.
  destruct (field_run W n f NONEv s eid m es pid p igd igm MP (dr_resolve _ (hf_read _ HF)) (dr_parent _ (hf_read _ HF))) as (_ & s' & A1 & A2 & A3 & A4).
  rewrite B in *. exists s'. auto.
Qed.
Lemma decimal_ok_lem x d t : hook_free f -> f_kind f = KDecimal None None -> reads_text W s f p x -> e_dec (w_env W) x = Some d ->
  p_str (w_env W) (place f p) = Ok t -> untouched f (VDec d) ->
  yields W (S n) f NONEv s eid m es (VDec d) [].
Proof.
  intros HF K (q1 & q2 & q3 & q4 & y & X1 & X2 & X3 & X4) D T (L & DG & I).
  assert (PK : parse_kind W (field_map W n) (f_kind f) pid (after_read f NONEv s pid p q2) = (Ok (VDec d), after_read f NONEv s pid p q4)).
  { rewrite K. cbn [parse_kind]. unfold parse_decimal. rewrite bind_run, (value_run _ _ _ X3). cbn [dec_of_number]. rewrite bind_run.
    rewrite (prim_run W f NONEv s eid m es pid p igd igm MP TyStr _ _ _ X4). rewrite D. reflexivity. }
  assert (Tq : p_str (w_env W) q4 = Ok t).
  { rewrite (str_prim W s _ _ _ _ X4).
    assert (p_str (w_env W) q3 = p_str (w_env W) q2) as -> by (apply (str_after W s p_value _ _ _ (t_value (w_env W)) X3)).
    rewrite (str_after W s p_is_null _ _ _ (t_is_null (w_env W)) X2), (str_after W s p_exists _ _ _ (t_exists (w_env W)) X1). exact T. }
  pose proof (text_parsed x q1 q2 q3 q4 y (Ok (VDec d)) (ret VNone) HF X1 X2 X3 X4 PK eq_refl) as B. cbv beta iota in B.
  rewrite (after_run W n f NONEv s eid m es pid p igd igm MP HF _ _ q4 t Tq L (translated_is f _ _ (tr_miss f _ DG)) eq_refl), I in B.
  unfold violated, field_violation, vio_null, vio_kind in B. rewrite K in B. cbn [vio_below vio_above vand] in B.
  apply (yields_of W n f NONEv s eid m es pid p igd igm MP (hf_read _ HF)) with (q := q4). rewrite B.
  rewrite (reported_nil W f NONEv s eid m es pid p igd igm MP). destruct m; reflexivity.
Qed.
End Thms.

(** ** C23 *)
Lemma C23_given_lem W n f v w s : dict_get (o_translations (f_opts f)) v = Some w ->
  dict_get (o_translations (f_opts f)) w = None -> ~ unhashable v -> ~ unhashable w ->
  is_NONE v = false -> is_NONE w = false ->
  field_map W (S n) f v s = field_map W (S n) f w s.
Proof.
  intros T1 T2 H1 H2 N1 N2. cbn [field_map]. unfold field_map_body. rewrite !bind_run.
  rewrite (with_ctx_ext W _ _ (field__map W (field_map W n) f w)); [reflexivity|].
  intros x. unfold field__map, field_body. rewrite N1, N2, !bind_run, !ret_run. unfold field_after. rewrite !bind_run.
  rewrite (munge_run f v x (or_intror H1)), (munge_run f w x (or_intror H2)). unfold translation. now rewrite T1, T2.
Qed.

Lemma C23_unhashable_lem W n f arg s eid m es pid p igd igm t v :
  mapping W s eid m es pid p igd igm -> hook_free f -> obtains W s f p arg v -> ignored v = false ->
  o_translations (f_opts f) <> [] -> unhashable v -> p_str (w_env W) (spot f arg p) = Ok t ->
  exists msg s', field_map W (S n) f arg s = (Exn (EType msg), s') /\ stk s' = stk s /\ forms s' = forms s /\ errs s' = errs s.
Proof.
  intros MP HF O G NE U T. eexists. exact (value_unhashable W n f arg s eid m es pid p igd igm MP (hf_read _ HF) HF v t T O G NE U).
Qed.

(** ** The statements *)
Lemma C17_missing_lem W n f s eid m es pid p igd t :
  mapping W s eid m es pid p igd false -> direct_read f -> required f ->
  absent W s f p -> p_str (w_env W) (place f p) = Ok t ->
  yields W (S n) f NONEv s eid m es NOTSETv [missing_at f pid t].
Proof. intros MP DR R A T. apply (absent_missing W n f NONEv s eid m es pid p igd false MP DR t eq_refl A T (or_intror R)). Qed.
Lemma C20_store_lem W n f s eid es v new id tags rest : selected tags f = true ->
  yields W n f NONEv s eid Collect es v new -> ignored v = true ->
  exists s1, forms s1 = forms s /\ errs s1 = replace_nth eid (Collect, es ++ new) (errs s) /\
    map_fields (field_map W n) id tags (f :: rest) s = map_fields (field_map W n) id tags rest s1.
Proof.
  intros SEL Y I. destruct (yields_store W n f s eid es v new id tags rest SEL Y) as (s1 & A & B & C & D).
  rewrite I in D. eauto.
Qed.
Lemma C17_stored_lem W n f s eid es pid p igd t id tags rest :
  mapping W s eid Collect es pid p igd false -> direct_read f -> required f ->
  absent W s f p -> p_str (w_env W) (place f p) = Ok t -> selected tags f = true ->
  exists s1, stk s1 = stk s /\ forms s1 = forms s /\
    errs s1 = replace_nth eid (Collect, es ++ [missing_at f pid t]) (errs s) /\
    map_fields (field_map W (S n)) id tags (f :: rest) s = map_fields (field_map W (S n)) id tags rest s1.
Proof.
  intros MP DR R A T SEL. pose proof (C17_missing_lem W n f s eid Collect es pid p igd t MP DR R A T) as Y.
  destruct (yields_store W (S n) f s eid es _ _ id tags rest SEL Y) as (s1 & X1 & X2 & X3 & X4). exists s1. auto.
Qed.
Lemma C18_default_lem W n f s eid m es pid p igm t v :
  mapping W s eid m es pid p false igm -> direct_read f ->
  o_default (f_opts f) = DVal v -> v <> VConst NOTSET ->
  absent W s f p -> p_str (w_env W) (place f p) = Ok t ->
  yields W (S n) f NONEv s eid m es v [].
Proof. intros MP DR D N A T. exact (absent_default W n f NONEv s eid m es pid p false igm MP DR t v eq_refl A T eq_refl D N). Qed.
Lemma C22_lem W n f arg s eid m es pid p igd igm t v w :
  mapping W s eid m es pid p igd igm -> hook_free f ->
  obtains W s f p arg v -> ignored v = false -> lookable f v -> translated f v w -> ignored w = false ->
  py_in w (o_ignores (f_opts f)) = true -> p_str (w_env W) (spot f arg p) = Ok t ->
  (igd = true \/ required f ->
   yields W (S n) f arg s eid m es NOTSETv (if igm then [] else [missing_at f pid t])) /\
  (forall d, igd = false -> o_default (f_opts f) = DVal d -> d <> VConst NOTSET ->
   yields W (S n) f arg s eid m es d []).
Proof. intros MP HF O G L Tr Gw I T. exact (value_ignored W n f arg s eid m es pid p igd igm MP (hf_read _ HF) HF v w t T O G L Tr Gw I). Qed.
Lemma C18_ignored_lem W n f arg s eid m es pid p igm t v w d :
  mapping W s eid m es pid p false igm -> hook_free f ->
  obtains W s f p arg v -> ignored v = false -> lookable f v -> translated f v w -> ignored w = false ->
  py_in w (o_ignores (f_opts f)) = true -> o_default (f_opts f) = DVal d -> d <> VConst NOTSET ->
  p_str (w_env W) (spot f arg p) = Ok t ->
  yields W (S n) f arg s eid m es d [].
Proof. intros MP HF O G L Tr Gw I D N T. exact (proj2 (C22_lem W n f arg s eid m es pid p false igm t v w MP HF O G L Tr Gw I T) d eq_refl D N). Qed.
Lemma C19_lem W n f s eid es pid p igm t id tags rest :
  mapping W s eid Collect es pid p false igm -> direct_read f ->
  o_default (f_opts f) = DVal (VConst NONE) ->
  absent W s f p -> p_str (w_env W) (place f p) = Ok t ->
  yields W (S n) f NONEv s eid Collect es NONEv [] /\
  exists s1, stk s1 = stk s /\ forms s1 = forms s /\ errs s1 = errs s /\
    map_fields (field_map W (S n)) id tags (f :: rest) s =
    map_fields (field_map W (S n)) id tags rest s1.
Proof.
  intros MP DR D A T. assert (Y : yields W (S n) f NONEv s eid Collect es NONEv []) by (eapply C18_default_lem; eauto; discriminate).
  split; [exact Y|]. destruct (selected tags f) eqn:SEL.
  - destruct (yields_store W (S n) f s eid es _ _ id tags rest SEL Y) as (s1 & X1 & X2 & X3 & X4). exists s1. repeat split; auto.
    rewrite X3, app_nil_r. apply replace_same. exact (mp_errs _ _ _ _ _ _ _ _ _ MP).
  - exists s. repeat split. cbn [map_fields]. rewrite SEL. reflexivity.
Qed.
Lemma C20_igd_lem W n f s eid m es pid p t :
  mapping W s eid m es pid p true false -> direct_read f ->
  absent W s f p -> p_str (w_env W) (place f p) = Ok t ->
  yields W (S n) f NONEv s eid m es NOTSETv [missing_at f pid t].
Proof. intros MP DR A T. exact (absent_missing W n f NONEv s eid m es pid p true false MP DR t eq_refl A T (or_introl eq_refl)). Qed.
Lemma C20_both_lem W n f s eid m es pid p t :
  mapping W s eid m es pid p true true -> direct_read f ->
  absent W s f p -> p_str (w_env W) (place f p) = Ok t ->
  yields W (S n) f NONEv s eid m es NOTSETv [].
Proof. intros MP DR A T. exact (absent_missing W n f NONEv s eid m es pid p true true MP DR t eq_refl A T (or_introl eq_refl)). Qed.
Lemma C20_igm_lem W n f s eid m es pid p t :
  mapping W s eid m es pid p false true -> direct_read f ->
  absent W s f p -> p_str (w_env W) (place f p) = Ok t ->
  (required f -> yields W (S n) f NONEv s eid m es NOTSETv []) /\
  (forall v, o_default (f_opts f) = DVal v -> v <> VConst NOTSET -> yields W (S n) f NONEv s eid m es v []).
Proof.
  intros MP DR A T. split.
  - intros R. exact (absent_missing W n f NONEv s eid m es pid p false true MP DR t eq_refl A T (or_intror R)).
  - intros v D N. eapply C18_default_lem; eauto.
Qed.
Lemma C21_lem W n f s eid m es pid p igd igm t :
  mapping W s eid m es pid p igd igm -> hook_free f -> untouched f VNone ->
  (exists q1 q2, p_exists (w_env W) (entries s) (place f p) = (q1, Ok true) /\
                 p_is_null (w_env W) (entries s) q1 = (q2, Ok true)) ->
  p_str (w_env W) (place f p) = Ok t ->
  (o_nullable (f_opts f) = true -> yields W (S n) f NONEv s eid m es VNone []) /\
  (o_nullable (f_opts f) = false ->
   yields W (S n) f NONEv s eid m es ERRORv [invalid_at f pid VioNotNullable t]).
Proof.
  intros MP HF U X T. split; intros N.
  - exact (null_lem W n f s eid m es pid p igd igm MP t true HF U X T N).
  - exact (null_lem W n f s eid m es pid p igd igm MP t false HF U X T N).
Qed.
Lemma C21_parser_lem W rec f s pid q1 q2 :
  lookup "src_path" (stk s) = Some (CPath pid) ->
  on_path W pid p_exists s = (Ok true, q1) -> on_path W pid p_is_null q1 = (Ok true, q2) ->
  field_compute W rec f s = (Ok VNone, q2).
Proof.
  intros L A B. unfold field_compute. rewrite bind_run, (cur_path_at s pid L), bind_run. unfold path_exists. rewrite A. cbn [negb].
  rewrite bind_run. unfold path_is_null. rewrite B. reflexivity.
Qed.
Lemma C23_checked_lem W n f arg s eid m es pid p igd igm t v w o :
  mapping W s eid m es pid p igd igm -> hook_free f ->
  obtains W s f p arg v -> ignored v = false -> lookable f v -> translated f v w -> ignored w = false ->
  py_in w (o_ignores (f_opts f)) = false -> p_str (w_env W) (spot f arg p) = Ok t ->
  field_violation (w_env W) (entries s) f w = Ok o ->
  match o with
  | None => yields W (S n) f arg s eid m es w []
  | Some x => yields W (S n) f arg s eid m es ERRORv [invalid_at f pid x t]
  end.
Proof.
  intros MP HF O G L Tr Gw I T V.
  pose proof (value_checked W n f arg s eid m es pid p igd igm MP (hf_read _ HF) HF v w t o T O G L Tr Gw I V) as Y. destruct o; exact Y.
Qed.
Lemma C25_ok_lem W n f c arg s eid m es pid p igd igm t v x :
  mapping W s eid m es pid p igd igm -> hook_free f -> f_kind f = KString c ->
  obtains W s f p arg v -> ignored v = false -> lookable f v -> translated f v (VStr x) ->
  py_in (VStr x) (o_ignores (f_opts f)) = false -> p_str (w_env W) (spot f arg p) = Ok t ->
  string_ok (w_env W) f c x ->
  yields W (S n) f arg s eid m es (VStr x) [].
Proof.
  intros MP HF K O G L Tr I T OK. destruct (string_cases (w_env W) f c x (entries s) K) as [(V & _)|(viol & _ & _ & NO)]; [|contradiction].
  exact (C23_checked_lem W n f arg s eid m es pid p igd igm t v (VStr x) None MP HF O G L Tr eq_refl I T V).
Qed.
Lemma C25_bad_lem W n f c arg s eid m es pid p igd igm t v x :
  mapping W s eid m es pid p igd igm -> hook_free f -> f_kind f = KString c ->
  obtains W s f p arg v -> ignored v = false -> lookable f v -> translated f v (VStr x) ->
  py_in (VStr x) (o_ignores (f_opts f)) = false -> p_str (w_env W) (spot f arg p) = Ok t ->
  ~ string_ok (w_env W) f c x ->
  exists viol, first_violated (w_env W) f c x viol /\
    yields W (S n) f arg s eid m es ERRORv [invalid_at f pid viol t].
Proof.
  intros MP HF K O G L Tr I T NO. destruct (string_cases (w_env W) f c x (entries s) K) as [(_ & OK)|(viol & V & FV & _)]; [contradiction|].
  exists viol. split; [exact FV|].
  exact (C23_checked_lem W n f arg s eid m es pid p igd igm t v (VStr x) (Some viol) MP HF O G L Tr eq_refl I T V).
Qed.
Lemma wants_dec c : wants_text c \/ (sc_alphabet c = [] /\ sc_min c = None /\ sc_max c = None /\ sc_pattern c = None).
Proof.
  unfold wants_text. destruct (sc_alphabet c); [|left; left; discriminate]. destruct (sc_min c); [left; right; left; discriminate|].
  destruct (sc_max c); [left; right; right; left; discriminate|]. destruct (sc_pattern c); [left; right; right; right; discriminate|]. right; auto.
Qed.
Lemma C25_textless_lem W n f c arg s eid m es pid p igd igm t v w :
  mapping W s eid m es pid p igd igm -> hook_free f -> f_kind f = KString c ->
  obtains W s f p arg v -> ignored v = false -> lookable f v -> translated f v w -> textless w ->
  py_in w (o_ignores (f_opts f)) = false -> p_str (w_env W) (spot f arg p) = Ok t ->
  (wants_text c -> exists msg s', field_map W (S n) f arg s = (Exn (EType msg), s') /\ stk s' = stk s /\ forms s' = forms s /\ errs s' = errs s) /\
  (~ wants_text c -> among f c w -> yields W (S n) f arg s eid m es w []) /\
  (~ wants_text c -> ~ among f c w -> yields W (S n) f arg s eid m es ERRORv [invalid_at f pid (VioChoice w (sc_choices c)) t]).
Proof.
  intros MP HF K O G L Tr TL I T.
  assert (Gw : ignored w = false) by (destruct TL; reflexivity).
  assert (FV : field_violation (w_env W) (entries s) f w = vio_kind (w_env W) (entries s) f w) by (destruct TL; reflexivity).
  assert (AL : vio_alphabet c w = match sc_alphabet c with [] => Ok None | _ => Exn (EType "not iterable") end) by (unfold vio_alphabet; destruct (sc_alphabet c), TL; reflexivity).
  assert (LN : py_len (entries s) w = Exn (EType "object has no len()")) by (destruct TL; reflexivity).
  assert (PT : vio_pattern (w_env W) c w = match sc_pattern c with None => Ok None | _ => Exn (EType "expected string") end) by (unfold vio_pattern; destruct (sc_pattern c), TL; reflexivity).
  split; [|split].
  - intros WT.
    assert (V : exists msg, field_violation (w_env W) (entries s) f w = Exn (EType msg)).
    { rewrite FV. unfold vio_kind. rewrite K, AL, PT. unfold vio_min_len, vio_max_len. rewrite LN. unfold wants_text in WT.
      destruct (sc_alphabet c); [|eexists; reflexivity]. destruct (sc_min c); [eexists; reflexivity|]. destruct (sc_max c); [eexists; reflexivity|].
      destruct (sc_pattern c); [eexists; reflexivity|]. exfalso. intuition congruence. }
    destruct V as (msg & V). exists msg.
    exact (value_raises W n f arg s eid m es pid p igd igm MP (hf_read _ HF) HF v w t _ T O G L Tr Gw I V).
  - intros WT AM. destruct (wants_dec c) as [H|(A & B & C & D)]; [contradiction|].
    apply (C23_checked_lem W n f arg s eid m es pid p igd igm t v w None MP HF O G L Tr Gw I T).
    rewrite FV. unfold vio_kind. rewrite K, AL, PT, A, B, C, D. cbn [vio_min_len vio_max_len vand]. unfold vio_choices.
    destruct AM as [E|(x & Q & AM)]; [now rewrite E|]. destruct (sc_choices c) eqn:E; [reflexivity|]. rewrite <- E in *.
    assert (IN : py_in w (sc_choices c ++ map snd (o_translations (f_opts f))) = true).
    { apply existsb_exists. exists x. split; [|exact Q]. apply in_or_app. destruct AM as [AM|(k & AM)]; [now left|right]. now apply (in_map snd) in AM. }
    now rewrite IN.
  - intros WT AM. destruct (wants_dec c) as [H|(A & B & C & D)]; [contradiction|].
    apply (C23_checked_lem W n f arg s eid m es pid p igd igm t v w (Some _) MP HF O G L Tr Gw I T).
    rewrite FV. unfold vio_kind. rewrite K, AL, PT, A, B, C, D. cbn [vio_min_len vio_max_len vand]. unfold vio_choices.
    destruct (sc_choices c) eqn:E; [exfalso; apply AM; now left|]. rewrite <- E in *.
    destruct (py_in w (sc_choices c ++ map snd (o_translations (f_opts f)))) eqn:IN; [exfalso|reflexivity].
    apply AM. right. apply existsb_exists in IN as (x & IN & Q). exists x. split; [exact Q|]. apply in_app_or in IN as [IN|IN]; [now left|right].
    apply in_map_iff in IN as ([k y] & <- & IN). now exists k.
Qed.
Lemma C23_choices_lem W n f c arg s eid m es pid p igd igm t v k x :
  mapping W s eid m es pid p igd igm -> hook_free f -> f_kind f = KString c ->
  obtains W s f p arg v -> ignored v = false -> lookable f v -> translated f v (VStr x) ->
  In (k, VStr x) (o_translations (f_opts f)) ->
  py_in (VStr x) (o_ignores (f_opts f)) = false -> p_str (w_env W) (spot f arg p) = Ok t ->
  alphabet_ok c x -> min_ok c x -> max_ok c x -> pattern_ok (w_env W) c x ->
  yields W (S n) f arg s eid m es (VStr x) [].
Proof.
  intros MP HF K O G L Tr IN I T A B C D. eapply C25_ok_lem; eauto. repeat split; auto. right. exists (VStr x).
  split; [cbn; apply String.eqb_refl|]. right. now exists k.
Qed.
Lemma C24_within_lem W n f lo hi arg s eid m es pid p igd igm t v w q :
  mapping W s eid m es pid p igd igm -> hook_free f -> bounds (f_kind f) = Some (lo, hi) ->
  obtains W s f p arg v -> ignored v = false -> lookable f v -> translated f v w -> number w q ->
  py_in w (o_ignores (f_opts f)) = false -> p_str (w_env W) (spot f arg p) = Ok t ->
  (forall b, lo = Some b -> exists r, number b r /\ (r <= q)%Q) ->
  (forall b, hi = Some b -> exists r, number b r /\ (q <= r)%Q) ->
  yields W (S n) f arg s eid m es w [].
Proof.
  intros MP HF B O G L Tr N I T Lo Hi. destruct (number_xnum _ _ N) as (_ & _ & _ & _ & Gw).
  exact (C23_checked_lem W n f arg s eid m es pid p igd igm t v w None MP HF O G L Tr Gw I T (within W f lo hi w q B N (entries s) Lo Hi)).
Qed.
Lemma C24_below_lem W n f hi arg s eid m es pid p igd igm t v w q b r :
  mapping W s eid m es pid p igd igm -> hook_free f -> bounds (f_kind f) = Some (Some b, hi) ->
  obtains W s f p arg v -> ignored v = false -> lookable f v -> translated f v w -> number w q ->
  py_in w (o_ignores (f_opts f)) = false -> p_str (w_env W) (spot f arg p) = Ok t ->
  number b r -> (q < r)%Q ->
  yields W (S n) f arg s eid m es ERRORv [invalid_at f pid (VioMin w b) t].
Proof.
  intros MP HF B O G L Tr N I T Nb Lt. destruct (number_xnum _ _ N) as (_ & _ & _ & _ & Gw).
  exact (C23_checked_lem W n f arg s eid m es pid p igd igm t v w (Some _) MP HF O G L Tr Gw I T (below_min W f _ hi w q B N (entries s) b r eq_refl Nb Lt)).
Qed.
Lemma number_unique v q r : number v q -> number v r -> (q == r)%Q.
Proof.
  intros A B. destruct (number_xnum _ _ A) as (a & Xa & Ea & _). destruct (number_xnum _ _ B) as (b & Xb & Eb & _).
  rewrite Xa in Xb. injection Xb as <-. now rewrite <- Ea, <- Eb.
Qed.
Lemma C24_above_lem W n f lo arg s eid m es pid p igd igm t v w q b r :
  mapping W s eid m es pid p igd igm -> hook_free f -> bounds (f_kind f) = Some (lo, Some b) ->
  obtains W s f p arg v -> ignored v = false -> lookable f v -> translated f v w -> number w q ->
  py_in w (o_ignores (f_opts f)) = false -> p_str (w_env W) (spot f arg p) = Ok t ->
  (forall c, lo = Some c -> exists x, number c x /\ (x <= q)%Q) ->
  number b r -> (r < q)%Q ->
  yields W (S n) f arg s eid m es ERRORv [invalid_at f pid (VioMax w b) t].
Proof.
  intros MP HF B O G L Tr N I T Lo Nb Lt. destruct (number_xnum _ _ N) as (_ & _ & _ & _ & Gw).
  refine (C23_checked_lem W n f arg s eid m es pid p igd igm t v w (Some _) MP HF O G L Tr Gw I T (above_max W f lo _ w q B N (entries s) b r _ _ eq_refl Nb Lt)).
  - intros c x Ec Nx. destruct (Lo c Ec) as (y & Ny & Ly). now rewrite (number_unique _ _ _ Nx Ny).
  - intros c Ec. destruct (Lo c Ec) as (y & Ny & _). eauto.
Qed.
Lemma C27_none_lem W n f fmts lo hi s eid m es pid p igd igm t x :
  mapping W s eid m es pid p igd igm -> hook_free f -> f_kind f = KDate fmts lo hi -> fmts <> [] ->
  reads_text W s f p x -> p_str (w_env W) (place f p) = Ok t ->
  (forall fmt, In fmt fmts -> stamp (w_env W) fmt x = None) -> untouched f VNone ->
  (o_nullable (f_opts f) = true -> yields W (S n) f NONEv s eid m es VNone []) /\
  (o_nullable (f_opts f) = false -> yields W (S n) f NONEv s eid m es ERRORv [invalid_at f pid VioNotNullable t]).
Proof.
  intros MP HF K NE R T NM U. pose proof (try_date_none W fmts x NM) as D.
  split; intros NL.
  - pose proof (date_lem W n f s eid m es pid p igd igm MP fmts lo hi x t None HF K NE R T) as Y. cbv zeta in Y. rewrite D in Y.
    apply Y; [exact U|reflexivity|]. unfold field_violation, vio_null. now rewrite NL.
  - pose proof (date_lem W n f s eid m es pid p igd igm MP fmts lo hi x t (Some VioNotNullable) HF K NE R T) as Y. cbv zeta in Y. rewrite D in Y.
    apply Y; [exact U|reflexivity|]. unfold field_violation, vio_null. now rewrite NL.
Qed.
Lemma C27_first_lem W n f pre fmt post s eid m es pid p igd igm t x z :
  mapping W s eid m es pid p igd igm -> hook_free f -> f_kind f = KDate (pre ++ fmt :: post) None None ->
  reads_text W s f p x -> p_str (w_env W) (place f p) = Ok t ->
  (forall g, In g pre -> stamp (w_env W) g x = None) -> stamp (w_env W) fmt x = Some z ->
  untouched f (VDate (z / 86400000000)) ->
  yields W (S n) f NONEv s eid m es (VDate (z / 86400000000)) [].
Proof.
  intros MP HF K R T NM S0 U. pose proof (try_date_first W pre fmt post x z NM S0) as D.
  assert (NE : pre ++ fmt :: post <> []) by (destruct pre; discriminate).
  pose proof (date_lem W n f s eid m es pid p igd igm MP _ None None x t None HF K NE R T) as Y. cbv zeta in Y. rewrite D in Y.
  apply Y; [exact U|reflexivity|]. unfold field_violation, vio_null, vio_kind. rewrite K. reflexivity.
Qed.
Lemma C28_escapes_lem W n f lo hi s eid m es pid p igd igm x :
  mapping W s eid m es pid p igd igm -> hook_free f -> f_kind f = KDecimal lo hi ->
  reads_text W s f p x -> e_dec (w_env W) x = None ->
  exists s', field_map W (S n) f NONEv s = (Exn EDecimal, s') /\
             stk s' = stk s /\ forms s' = forms s /\ errs s' = errs s.
Proof. intros MP HF K R D. exact (decimal_lem W n f s eid m es pid p igd igm MP lo hi x HF K R D). Qed.
Lemma C28_parsable_lem W n f s eid m es pid p igd igm t x d :
  mapping W s eid m es pid p igd igm -> hook_free f -> f_kind f = KDecimal None None ->
  reads_text W s f p x -> e_dec (w_env W) x = Some d -> p_str (w_env W) (place f p) = Ok t ->
  untouched f (VDec d) -> yields W (S n) f NONEv s eid m es (VDec d) [].
Proof. intros MP HF K R D T U. exact (decimal_ok_lem W n f s eid m es pid p igd igm MP x d t HF K R D T U). Qed.
(** ** C16 *)
Lemma no_answer_is v : truthy v = false <-> no_answer v.
Proof.
  split.
  - destruct v; cbn [truthy]; intros H; try discriminate H; try constructor.
    + subst b. constructor.
    + apply Bool.negb_false_iff, Z.eqb_eq in H as ->. constructor.
    + destruct f; try discriminate H. constructor.
    + apply Bool.negb_false_iff, String.eqb_eq in H as ->. constructor.
    + destruct l; [constructor|discriminate H].
    + destruct l; [constructor|discriminate H].
    + destruct l; [constructor|discriminate H].
    + destruct d as [m e| |]; try discriminate H. apply Bool.negb_false_iff, Z.eqb_eq in H as ->. constructor.
  - destruct 1; reflexivity.
Qed.
Lemma C16_answers_lem W rec f h v s r s1 : call_hook W rec h [v] s = (Ok r, s1) ->
  (o_filter (f_opts f) = Some h -> (no_answer r -> st_filter_hook W rec f v s = (Ok UseDefault, s1)) /\
                                  (~ no_answer r -> st_filter_hook W rec f v s = (Ok (Next v), s1))) /\
  (o_validate (f_opts f) = Some h -> (no_answer r -> st_validate_hook W rec f v s = (Ok (Done ERRORv), s1)) /\
                                    (~ no_answer r -> st_validate_hook W rec f v s = (Ok (Next v), s1))).
Proof.
  intros C. unfold st_filter_hook, st_validate_hook, ask, bind, ret.
  split; intros H; rewrite H, C; rewrite <- no_answer_is; destruct (truthy r); split; intros X; congruence.
Qed.
