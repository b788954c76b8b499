(** * JoinProofs: two sources that answer alike at single keys map flat forms alike (C102). *)
From Verif Require Import PyBase PyStr Source Field Context Fields SpecSrc SpecUnion SrcPath Shape Balance SpecField SpecForm FieldLemmas FieldProofs FormProofs FormLemmas UnionProofs SpecJoin.
From Coq Require Import Lia.

(** ** Frames that differ only in the sources they hold *)
Definition ctwin (a b : cval) : Prop := a = b \/ exists x y, a = CSrc x /\ b = CSrc y.
Definition ftwin : frame -> frame -> Prop := Forall2 (fun x y => fst x = fst y /\ ctwin (snd x) (snd y)).
Lemma ctwin_refl a : ctwin a a. Proof. now left. Qed.
Lemma ftwin_refl f : ftwin f f.
Proof. induction f as [|[k c] f IH]; constructor; [split; [reflexivity|apply ctwin_refl]|exact IH]. Qed.
Definition otwin (a b : option cval) : Prop :=
  match a, b with None, None => True | Some x, Some y => ctwin x y | _, _ => False end.
Lemma alookup_twin f g k : ftwin f g -> otwin (alookup f k) (alookup g k).
Proof.
  induction 1 as [|[a x] [b y] f g [Q C] F IH]; cbn [alookup]; [exact I|]. cbn [fst snd] in *. subst b.
  destruct (String.eqb a k); [exact C|exact IH].
Qed.
Lemma lookup_twin k : forall l m, Forall2 ftwin l m -> otwin (lookup k l) (lookup k m).
Proof.
  induction 1 as [|f g l m F L IH]; cbn [lookup]; [exact I|]. pose proof (alookup_twin f g k F) as A.
  destruct (alookup f k), (alookup g k); cbn in A; auto; contradiction.
Qed.

Definition phase := entries_of -> path -> path -> Prop.
Section Twin.
Variables (W : world) (pid : nat).
Let E := w_env W.
Record twin (ph : phase) (s1 s2 : st) : Prop := {
  tw_stk : Forall2 ftwin (stk s1) (stk s2);
  tw_forms : forms s1 = forms s2;
  tw_errs : errs s1 = errs s2;
  tw_cur : lookup "src_path" (stk s1) = Some (CPath pid);
  tw_some : exists c, lookup "src" (stk s1) = Some c /\ is_none_c c = false;
  tw_path : exists p1 p2, nth_error (paths s1) pid = Some p1 /\ nth_error (paths s2) pid = Some p2 /\ ph (entries s1) p1 p2
}.
Definition tw {A} (ph ph' : phase) (m : M A) : Prop :=
  forall s1 s2, twin ph s1 s2 ->
    fst (m s1) = fst (m s2) /\ twin ph' (snd (m s1)) (snd (m s2)) /\ stk (snd (m s1)) = stk s1 /\ stk (snd (m s2)) = stk s2.

Lemma tw_cur2 ph s1 s2 : twin ph s1 s2 -> lookup "src_path" (stk s2) = Some (CPath pid).
Proof.
  intros T. pose proof (lookup_twin "src_path" _ _ (tw_stk _ _ _ T)) as L. rewrite (tw_cur _ _ _ T) in L.
  destruct (lookup "src_path" (stk s2)) as [c|]; [|contradiction]. destruct L as [<-|(x & y & Q & _)]; [reflexivity|discriminate].
Qed.
Lemma twin_impl (ph ph' : phase) s1 s2 : (forall e p q, ph e p q -> ph' e p q) -> twin ph s1 s2 -> twin ph' s1 s2.
Proof. intros I [A B C D SO (p & q & P & Q & H)]. split; auto. exists p, q. auto. Qed.
Lemma tw_ret {A} ph (a : A) : tw ph ph (ret a). Proof. intros s1 s2 T. cbn. auto. Qed.
Lemma tw_raise {A} ph e : tw ph ph (@raise A e). Proof. intros s1 s2 T. cbn. auto. Qed.
Lemma tw_lift {A} ph (r : res A) : tw ph ph (lift r). Proof. intros s1 s2 T. cbn. auto. Qed.
Lemma tw_weak {A} (ph ph1 ph2 : phase) (m : M A) : (forall e p q, ph e p q -> ph1 e p q) -> tw ph1 ph2 m -> tw ph ph2 m.
Proof. intros I H s1 s2 T. apply H. now apply (twin_impl ph). Qed.
Lemma tw_post {A} (ph ph1 ph2 : phase) (m : M A) : (forall e p q, ph1 e p q -> ph2 e p q) -> tw ph ph1 m -> tw ph ph2 m.
Proof. intros I H s1 s2 T. destruct (H s1 s2 T) as (A1 & B & C & D). split; [exact A1|]. split; [now apply (twin_impl ph1 ph2)|auto]. Qed.
Lemma tw_bind {A B} ph ph' (m : M A) (f : A -> M B) : tw ph ph' m -> (forall a, tw ph' ph' (f a)) -> tw ph ph' (bind m f).
Proof.
  intros H G s1 s2 T. destruct (H s1 s2 T) as (R & T' & K1 & K2). unfold bind. destruct (m s1) as [r1 t1], (m s2) as [r2 t2]. cbn [fst snd] in *. subst r2.
  destruct r1 as [a|e]; [|auto]. destruct (G a t1 t2 T') as (R2 & T2 & K3 & K4). repeat split; auto; try congruence; try apply T2.
Qed.
Lemma tw_catch {A B} ph ph' (m : M A) (f : res A -> M B) : tw ph ph' m -> (forall a, tw ph' ph' (f a)) -> tw ph ph' (catch m f).
Proof.
  intros H G s1 s2 T. destruct (H s1 s2 T) as (R & T' & K1 & K2). unfold catch. destruct (m s1) as [r1 t1], (m s2) as [r2 t2]. cbn [fst snd] in *. subst r2.
  destruct (G r1 t1 t2 T') as (R2 & T2 & K3 & K4). repeat split; auto; try congruence; try apply T2.
Qed.
(** Looking at the forms and the errors *)
Lemma tw_see {A} ph (g : st -> res A) : (forall s1 s2, forms s1 = forms s2 -> errs s1 = errs s2 -> g s1 = g s2) -> tw ph ph (fun s => (g s, s)).
Proof. intros G s1 s2 T. cbn. repeat split; auto; try apply T. apply G; apply T. Qed.
Lemma tw_get {A} ph (g : st -> A) : (forall s1 s2, forms s1 = forms s2 -> errs s1 = errs s2 -> g s1 = g s2) -> tw ph ph (get g).
Proof. intros G. apply (tw_see ph (fun s => Ok (g s))). intros. f_equal. now apply G. Qed.
(** Reading a variable *)
Lemma tw_var {A} ph k (f : option cval -> M A) : (forall a b, otwin a b -> f a = f b) -> (forall a, tw ph ph (f a)) -> tw ph ph (bind (ctx_get_opt k) f).
Proof.
  intros C G s1 s2 T. unfold bind, ctx_get_opt, get. rewrite (C _ _ (lookup_twin k _ _ (tw_stk _ _ _ T))). apply G, T.
Qed.
Lemma tw_ctx {A} ph k (f : cval -> M A) : (forall x y, f (CSrc x) = f (CSrc y)) -> (forall a, tw ph ph (f a)) -> tw ph ph (bind (ctx_get k) f).
Proof.
  intros C G s1 s2 T. unfold bind, ctx_get, bind, ctx_get_opt, get. pose proof (lookup_twin k _ _ (tw_stk _ _ _ T)) as L.
  destruct (lookup k (stk s1)) as [a|], (lookup k (stk s2)) as [b|]; try contradiction; cbn.
  - destruct L as [<-|(x & y & -> & ->)]; [apply G, T|]. rewrite (C x y). apply G, T.
  - auto.
Qed.
Lemma tw_curpath {A} ph ph' (f : nat -> M A) : tw ph ph' (f pid) -> tw ph ph' (bind cur_path f).
Proof.
  intros G s1 s2 T. unfold bind, cur_path, bind, ctx_get, bind, ctx_get_opt, get. rewrite (tw_cur _ _ _ T), (tw_cur2 _ _ _ T). apply G, T.
Qed.
(** Operations on the path *)
Lemma nth_replace_same {A} (l : list A) i a b : nth_error l i = Some a -> nth_error (replace_nth i b l) i = Some b.
Proof. intros H. apply nth_replace_eq. apply nth_error_Some. congruence. Qed.
Lemma tw_op {A} (ph ph' : phase) (op : env -> entries_of -> path -> path * res A) :
  (forall e p q, ph e p q -> snd (op E e p) = snd (op E e q) /\ ph' e (fst (op E e p)) (fst (op E e q))) -> tw ph ph' (on_path W pid op).
Proof.
  intros O s1 s2 T. destruct (tw_path _ _ _ T) as (p & q & P & Q & H). unfold on_path. rewrite P, Q. fold E.
  assert (EN : entries s2 = entries s1) by (unfold entries; now rewrite (tw_forms _ _ _ T)). rewrite EN. destruct (O _ _ _ H) as [R H'].
  destruct (op E (entries s1) p) as [p' r1], (op E (entries s1) q) as [q' r2]. cbn [fst snd] in *. subst r2. repeat split; try apply T.
  exists p', q'. cbn [paths]. split; [eapply nth_replace_same; eauto|]. split; [eapply nth_replace_same; eauto|]. exact H'.
Qed.
(** The same, when what holds afterwards depends on the answer *)
Lemma tw_opk {A B} (ph ph' : phase) (op : env -> entries_of -> path -> path * res A) (f : A -> M B) (mid : A -> phase) :
  (forall e p q, ph e p q -> exists p' q' a, op E e p = (p', Ok a) /\ op E e q = (q', Ok a) /\ mid a e p' q') ->
  (forall a, tw (mid a) ph' (f a)) -> tw ph ph' (bind (on_path W pid op) f).
Proof.
  intros O G s1 s2 T. destruct (tw_path _ _ _ T) as (p & q & P & Q & H). unfold bind, on_path. rewrite P, Q. fold E.
  assert (EN : entries s2 = entries s1) by (unfold entries; now rewrite (tw_forms _ _ _ T)). rewrite EN. destruct (O _ _ _ H) as (p' & q' & a & -> & -> & H').
  assert (T' : twin (mid a) (St (stk s1) (forms s1) (replace_nth pid p' (paths s1)) (errs s1)) (St (stk s2) (forms s2) (replace_nth pid q' (paths s2)) (errs s2))).
  { split; cbn; try apply T. exists p', q'. split; [eapply nth_replace_same; eauto|]. split; [eapply nth_replace_same; eauto|]. exact H'. }
  destruct (G a _ _ T') as (R & T2 & K1 & K2). auto.
Qed.
(** Changing the forms where no path is being read *)
Definition open_phase (ph : phase) : Prop := forall e e' p q, ph e p q -> ph e' p q.
Lemma tw_forms_op {A} ph (m : M A) (g : list (formty * list (val * val)) -> res A * list (formty * list (val * val))) :
  open_phase ph -> (forall s, m s = (fst (g (forms s)), St (stk s) (snd (g (forms s))) (paths s) (errs s))) -> tw ph ph m.
Proof.
  intros O G s1 s2 T. rewrite (G s1), (G s2). cbn [fst snd stk]. rewrite (tw_forms _ _ _ T). repeat split; cbn; try apply T.
  destruct (tw_path _ _ _ T) as (p & q & P & Q & H). exists p, q. split; [exact P|]. split; [exact Q|]. eapply O, H.
Qed.
(** Reporting *)
Lemma tw_errs_op {A} ph (m : M A) (g : list (mode * list err) -> res A * list (mode * list err)) :
  (forall s, m s = (fst (g (errs s)), St (stk s) (forms s) (paths s) (snd (g (errs s))))) -> tw ph ph m.
Proof.
  intros G s1 s2 T. rewrite (G s1), (G s2). cbn [fst snd stk]. rewrite (tw_errs _ _ _ T). repeat split; cbn; try apply T.
Qed.
Lemma tw_extend ph eid es : tw ph ph (extend_errs eid es).
Proof.
  apply (tw_errs_op ph _ (fun l => match nth_error l eid with None => (Ok tt, l) | Some (m, x) => (Ok tt, replace_nth eid (m, x ++ es) l) end)).
  intros s. unfold extend_errs. destruct (nth_error (errs s) eid) as [[m l]|]; [reflexivity|now destruct s].
Qed.
Lemma tw_report (ph : phase) kd : (forall e p q, ph e p q -> p_str E p = p_str E q) -> tw ph ph (report W kd).
Proof.
  intros P. unfold report. apply tw_ctx; [reflexivity|]. intros c. destruct c; try apply tw_raise.
  apply tw_ctx; [reflexivity|]. intros c. destruct c; try apply tw_raise. apply tw_bind.
  - unfold path_text. intros s1 s2 T. unfold bind, ctx_get, bind, ctx_get_opt, get. rewrite (tw_cur _ _ _ T), (tw_cur2 _ _ _ T). cbn.
    assert (X : tw ph ph (on_path W pid (fun E (_ : entries_of) p => (p, p_str E p)))) by (apply tw_op; intros e p q H; cbn; split; [now apply P with e|exact H]).
    revert s1 s2 T. change (tw ph ph (t <- on_path W pid (fun E (_ : entries_of) p => (p, p_str E p)); ret (t, Some pid))). apply tw_bind; [exact X|]. intros; apply tw_ret.
  - intros [t l]. unfold call_errs. apply tw_bind; [apply tw_extend|]. intros _. apply tw_bind; [apply tw_get; intros; congruence|]. intros [[[|] x]|]; try apply tw_ret. apply tw_raise.
Qed.
(** Frames *)
Lemma tw_frame {A} ph ph' (kw : frame) (m : M A) : alookup kw "src" = None -> alookup kw "src_path" = None -> tw ph ph' m -> tw ph ph' (with_ctx W kw m).
Proof.
  intros NS NP H s1 s2 T. unfold with_ctx, closing, push. rewrite NS. cbn [push_frame].
  assert (T1 : twin ph (St (kw :: stk s1) (forms s1) (paths s1) (errs s1)) (St (kw :: stk s2) (forms s2) (paths s2) (errs s2))).
  { split; cbn; try apply T. - constructor; [apply ftwin_refl|apply T]. - rewrite NP. apply T. - rewrite NS. apply T. }
  destruct (H _ _ T1) as (R & T' & K1 & K2). destruct (m (St (kw :: stk s1) _ _ _)) as [r1 t1], (m (St (kw :: stk s2) _ _ _)) as [r2 t2]. cbn [fst snd stk] in *. subst r2.
  unfold restore. cbn beta iota zeta. rewrite K1, K2. unfold has_key. rewrite NS. cbn. repeat split; cbn; try apply T'; apply T.
Qed.
End Twin.

(** ** Hooks that touch neither the path nor the forms *)
Section Quiet.
Variables (W : world) (rec : field -> val -> M val) (pid : nat) (ph : phase).
Let E := w_env W.
Hypothesis STR : forall e p q, ph e p q -> p_str E p = p_str E q.
Notation tw := (tw pid ph ph).
Lemma tw_form_var : tw (c <- ctx_get "form"; match c with CForm i => ret (VForm i) | CVal v => ret v | _ => ret VNone end).
Proof. apply tw_ctx; [reflexivity|]. intros c; destruct c; apply tw_ret. Qed.
Lemma tw_run : forall p, quiet_prog p -> tw (run W rec p).
Proof.
  fix IH 1. intros p Q. destruct p; cbn [quiet_prog] in Q; try contradiction; cbn [run].
  - apply tw_ret.
  - apply tw_raise.
  - apply tw_catch; [apply tw_form_var|]. intros a. apply IH, Q.
  - apply tw_catch; [|intros a; apply IH, Q]. unfold Fields.item_of. destruct (hashable key); [|apply tw_raise].
    apply tw_bind; [apply tw_get; intros s1 s2 F _; unfold entries; now rewrite F|]. intros l. destruct (dict_get l key); [apply tw_ret|apply tw_raise].
  - apply tw_catch; [|intros a; apply IH, Q]. unfold unit_val. apply tw_bind; [now apply tw_report|]. intros; apply tw_ret.
  - apply tw_catch; [|intros a; apply IH, Q]. unfold unit_val. apply tw_bind; [now apply tw_report|]. intros; apply tw_ret.
Qed.
Lemma tw_hook h args : quiet_hook h -> tw (call_hook W rec h args).
Proof.
  intros Q. unfold call_hook. apply tw_bind; [destruct (hk_attached h); [apply tw_ret|apply tw_form_var]|]. intros t. apply tw_run, Q.
Qed.
Lemma tw_missing : tw (report_missing_unless_ignored W).
Proof.
  unfold report_missing_unless_ignored. apply tw_ctx; [reflexivity|]. intros c. apply tw_bind; [|intros; apply tw_ret]. destruct (truthy_c c); [apply tw_ret|now apply tw_report].
Qed.
Variable K : kind -> Prop.
Variable f : field.
Variable o : option key.
Hypothesis SF : calm K f o.
Lemma tw_default : tw (field_default W rec f).
Proof.
  unfold field_default. apply tw_ctx; [reflexivity|]. intros c. destruct (truthy_c c); [apply tw_missing|]. pose proof (sf_default _ _ _ SF) as D.
  destruct (o_default (f_opts f)) as [[h|]|v|p].
  - apply tw_hook. now apply D.
  - apply tw_missing.
  - destruct v as [| | | | | | | | | | | | |c0| | | | | |]; try apply tw_ret. destruct c0; try apply tw_ret. apply tw_missing.
  - now apply tw_run.
Qed.
Lemma tw_after v : tw (field_after W rec f v).
Proof.
  unfold field_after. apply tw_bind.
  { unfold field_munge. destruct (o_translations (f_opts f)); [apply tw_ret|]. destruct (hashable v); [apply tw_ret|apply tw_raise]. }
  intros v1. apply tw_bind.
  { destruct (o_munge (f_opts f)) as [h|] eqn:M; [|apply tw_ret]. destruct (ignored v1); [apply tw_ret|]. apply tw_hook, (sf_munge _ _ _ SF), M. }
  intros v2. destruct (is_NONE v2); [apply tw_default|]. destruct (ignored v2); [apply tw_ret|]. destruct (negb (field_filter f v2)); [apply tw_default|].
  apply tw_bind.
  { destruct (o_filter (f_opts f)) as [h|] eqn:M; [|apply tw_ret]. apply tw_bind; [apply tw_hook, (sf_filter _ _ _ SF), M|]. intros; apply tw_ret. }
  intros ok. destruct (negb ok); [apply tw_default|]. apply tw_bind.
  { unfold field_validate. apply tw_bind.
    - apply tw_see. intros s1 s2 F _. unfold entries. now rewrite F.
    - intros [x|]; [|apply tw_ret]. apply tw_bind; [now apply tw_report|]. intros; apply tw_ret. }
  intros ok2. destruct (negb ok2); [apply tw_ret|]. apply tw_bind.
  { destruct (o_validate (f_opts f)) as [h|] eqn:M; [|apply tw_ret]. apply tw_bind; [apply tw_hook, (sf_validate _ _ _ SF), M|]. intros; apply tw_ret. }
  intros ok3. destruct (negb ok3); apply tw_ret.
Qed.
End Quiet.

(** ** Fields read from two sources that answer alike *)
Definition undated (v : val) : Prop := match v with VDate _ | VDatetime _ | VTime _ => False | _ => True end.
Section Alike.
Variables (W : world) (pid : nat).
Let E := w_env W.
Variable top : path -> path -> Prop.
Variables started fresh done : string -> phase.
Variable reads : string -> Prop.
Record alike : Prop := {
  al_append : forall k e p q, reads k -> top p q -> started k e (p_append (KStr k) p) (p_append (KStr k) q);
  al_exists : forall k e p q, started k e p q -> exists p' q' b, p_exists E e p = (p', Ok b) /\ p_exists E e q = (q', Ok b) /\
                if b : bool then fresh k e p' q' else done k e p' q';
  al_null : forall k e p q, fresh k e p q -> exists p' q', p_is_null E e p = (p', Ok false) /\ p_is_null E e q = (q', Ok false) /\ fresh k e p' q';
  al_prim : forall k e p q t, fresh k e p q -> exists p' q' r, p_primitive E e t p = (p', r) /\ p_primitive E e t q = (q', r) /\ done k e p' q';
  al_value : forall k e p q, fresh k e p q -> exists p' q' v w, p_value E e p = (p', Ok v) /\ p_value E e q = (q', Ok w) /\
               undated v /\ undated w /\ fresh k e p' q';
  al_done : forall k e p q, fresh k e p q -> done k e p q;
  al_str : forall k e p q, done k e p q -> p_str E p = p_str E q;
  al_pop : forall k e p q, done k e p q -> exists p' q', p_pop p = (p', Ok tt) /\ p_pop q = (q', Ok tt) /\ top p' q';
  al_back : forall k e p q, started k e p q -> exists p' q', p_pop p = (p', Ok tt) /\ p_pop q = (q', Ok tt) /\ top p' q';
  al_mapping : forall e p q, top p q -> exists p' q' v w, p_mapping E e p = (p', Ok v) /\ p_mapping E e q = (q', Ok w) /\ top p' q'
}.
Hypothesis AL : alike.
Variable rec : field -> val -> M val.
Variable f : field.
Variable k : string.
Variable o : option key.
Hypothesis SF : calm read_once f o.
Definition top_phase : phase := fun _ p q => top p q.
Notation tw := (tw pid).
Lemma tw_prim t : tw (fresh k) (done k) (path_primitive W t pid).
Proof. unfold path_primitive. apply tw_op. intros e p q H. fold E. destruct (al_prim AL k e p q t H) as (p' & q' & r & -> & -> & D). auto. Qed.
(** The value itself may differ: if what comes next does not depend on it. *)
Lemma tw_value {A} (f1 : val -> M A) m : (forall v, undated v -> f1 v = m) -> tw (fresh k) (done k) m -> tw (fresh k) (done k) (bind (path_value W pid) f1).
Proof.
  intros U H s1 s2 T. destruct (tw_path _ _ _ _ T) as (p & q & P & Q & F). unfold bind, path_value, on_path. rewrite P, Q.
  assert (EN : entries s2 = entries s1) by (unfold entries; now rewrite (tw_forms _ _ _ _ T)). rewrite EN. fold E. destruct (al_value AL k _ p q F) as (p' & q' & v & w & -> & -> & U1 & U2 & F').
  rewrite (U v U1), (U w U2).
  assert (T' : twin pid (fresh k) (St (stk s1) (forms s1) (replace_nth pid p' (paths s1)) (errs s1)) (St (stk s2) (forms s2) (replace_nth pid q' (paths s2)) (errs s2))).
  { split; cbn; try apply T. exists p', q'. split; [eapply nth_replace_same; eauto|]. split; [eapply nth_replace_same; eauto|]. exact F'. }
  destruct (H _ _ T') as (R & T2 & K1 & K2). auto.
Qed.
Let STR := al_str AL k.
Lemma tw_invalid x : tw (done k) (done k) (invalid_error W x).
Proof. unfold invalid_error. apply tw_bind; [now apply tw_report|]. intros; apply tw_ret. Qed.
Lemma tw_text {A} (g : string -> M A) w : (forall s, tw (done k) (done k) (g s)) -> tw (done k) (done k) (bind (need_str w) g).
Proof. intros G. apply tw_bind; [destruct w; try apply tw_raise; apply tw_ret|exact G]. Qed.
Lemma tw_parse : tw (fresh k) (done k) (parse_kind W rec (f_kind f) pid).
Proof.
  pose proof (sf_kind _ _ _ SF) as K. destruct (f_kind f); cbn [read_once] in K; try contradiction; cbn [parse_kind]; try apply tw_prim.
  - apply tw_value with (m := w <- path_primitive W TyStr pid; match fmts with [] => invalid_error W (VioFormat w) | _ => s <- need_str w; ret (try_date W fmts s) end).
    + intros v U. destruct v; try destruct U; reflexivity.
    + apply tw_bind; [apply tw_prim|]. intros w. destruct fmts; [apply tw_invalid|]. apply tw_text. intros; apply tw_ret.
  - eapply tw_value with (m := w <- path_primitive W TyStr pid; match fmt with None => invalid_error W (VioFormat w) | Some fm => s <- need_str w; match e_strptime_time (w_env W) s fm with Some t => ret (VTime t) | None => raise (EValue "time data does not match format") end end).
    + intros v U. destruct v; try destruct U; reflexivity.
    + apply tw_bind; [apply tw_prim|]. intros w. destruct fmt; [|apply tw_invalid]. apply tw_text. intros x. destruct (e_strptime_time _ _ _); [apply tw_ret|apply tw_raise].
  - eapply tw_value with (m := w <- path_primitive W TyStr pid; match fmt with None => invalid_error W (VioFormat w) | Some fm => s <- need_str w;
        if String.eqb fm "iso8601" then match e_iso (w_env W) s with Some t => ret (VDatetime t) | None => invalid_error W (VioText "Unable to parse date string") end
        else match e_strp (w_env W) s fm with Some t => ret (VDatetime t) | None => raise (EValue "time data does not match format") end end).
    + intros v U. destruct v; try destruct U; reflexivity.
    + apply tw_bind; [apply tw_prim|]. intros w. destruct fmt as [fm|]; [|apply tw_invalid]. apply tw_text. intros x. destruct (String.eqb fm "iso8601").
      * destruct (e_iso _ _); [apply tw_ret|apply tw_invalid].
      * destruct (e_strp _ _ _); [apply tw_ret|apply tw_raise].
  - unfold parse_code. apply tw_bind; [apply tw_prim|]. intros v. destruct v; try apply tw_ret. destruct (has_char newline s).
    + destruct (e_compile (w_env W) s); [apply tw_ret|apply tw_invalid].
    + destruct (e_import (w_env W) s) as [[m|e]|]; [apply tw_ret|apply tw_invalid|apply tw_invalid].
Qed.
Lemma tw_compute : tw (started k) (done k) (field_compute W rec f).
Proof.
  unfold field_compute. apply tw_curpath. rewrite (sf_parse _ _ _ SF). unfold path_exists.
  apply tw_opk with (mid := fun (b : bool) e p q => if b then fresh k e p q else done k e p q); [intros e p q S; exact (al_exists AL k e p q S)|].
  intros b. destruct b; cbn [negb]; [|apply tw_ret]. unfold path_is_null.
  apply tw_opk with (mid := fun (b : bool) e p q => b = false /\ fresh k e p q).
  { intros e p q F. destruct (al_null AL k e p q F) as (p' & q' & A & B & F'). exists p', q', false. auto. }
  intros [|].
  - intros s1 s2 T. destruct (tw_path _ _ _ _ T) as (p & q & _ & _ & X & _). discriminate.
  - apply tw_weak with (ph1 := fresh k); [intros e p q [_ F]; exact F|].
    apply tw_catch; [apply tw_parse|]. intros [v|e]; [apply tw_ret|]. destruct (caught_by_compute e); [apply tw_invalid|apply tw_raise].
Qed.
Lemma tw_body : tw (started k) (done k) (field_body W rec f NONEv).
Proof.
  unfold field_body. cbn [is_NONE NONEv]. rewrite (sf_compute _ _ _ SF). apply tw_bind; [apply tw_compute|]. intros v. destruct (is_NONE v).
  - pose proof (sf_default _ _ _ SF) as D. assert (DF : tw (done k) (done k) (field_default W rec f)) by (eapply tw_default; eauto).
    destruct (o_default (f_opts f)) as [[h|]|w|p] eqn:Q; try exact DF. apply tw_hook; [exact STR|]. now apply D.
  - destruct (ignored v); [apply tw_ret|]. eapply tw_after; eauto.
Qed.
Hypothesis RD : reads k.
Let fr : frame := [("src", CKey (KStr k))].
Lemma push_key s p : lookup "src_path" (stk s) = Some (CPath pid) -> nth_error (paths s) pid = Some p ->
  push W fr s = (Ok tt, St (fr :: stk s) (forms s) (replace_nth pid (p_append (KStr k) p) (paths s)) (errs s)).
Proof.
  intros L P. unfold push, fr. cbn [alookup String.eqb Ascii.eqb Bool.eqb]. unfold bind, cur_path, bind, ctx_get, bind, ctx_get_opt, get. rewrite L. cbn [ret].
  unfold on_path. rewrite P. reflexivity.
Qed.
Lemma pop_key s rest p p' : stk s = fr :: rest -> lookup "src_path" rest = Some (CPath pid) -> nth_error (paths s) pid = Some p -> p_pop p = (p', Ok tt) ->
  restore W s = (Ok tt, St rest (forms s) (replace_nth pid p' (paths s)) (errs s)).
Proof.
  intros K L P Q. unfold restore. rewrite K. cbn [has_key fr alookup String.eqb Ascii.eqb Bool.eqb andb negb]. unfold set_stk, bind, cur_path, bind, ctx_get, bind, ctx_get_opt, get. cbn [stk].
  rewrite L. cbn [ret]. unfold on_path. cbn [paths stk forms errs]. rewrite P, Q. reflexivity.
Qed.
Lemma tw_enter {A} (m : M A) : tw (started k) (done k) m -> tw top_phase top_phase (with_ctx W [("src", CKey (KStr k))] m).
Proof.
  intros H s1 s2 T. destruct (tw_path _ _ _ _ T) as (p & q & P & Q & TP). unfold with_ctx, closing. fold fr.
  rewrite (push_key s1 p (tw_cur _ _ _ _ T) P), (push_key s2 q (tw_cur2 _ _ _ _ T) Q).
  assert (T1 : twin pid (started k)
    (St (fr :: stk s1) (forms s1) (replace_nth pid (p_append (KStr k) p) (paths s1)) (errs s1))
    (St (fr :: stk s2) (forms s2) (replace_nth pid (p_append (KStr k) q) (paths s2)) (errs s2))).
  { split; cbn [stk forms errs paths]; try apply T.
    - constructor; [apply ftwin_refl|apply T].
    - exists (CKey (KStr k)). split; reflexivity.
    - eexists _, _. split; [eapply nth_replace_same; eauto|]. split; [eapply nth_replace_same; eauto|]. now apply (al_append AL). }
  destruct (H _ _ T1) as (R & T' & K1 & K2).
  destruct (m (St (fr :: stk s1) _ _ _)) as [r1 t1], (m (St (fr :: stk s2) _ _ _)) as [r2 t2]. cbn [fst snd stk] in *. subst r2.
  destruct (tw_path _ _ _ _ T') as (p1 & q1 & P1 & Q1 & D). destruct (al_pop AL k _ p1 q1 D) as (p2 & q2 & X1 & X2 & TP2).
  rewrite (pop_key t1 _ p1 p2 K1 (tw_cur _ _ _ _ T) P1 X1), (pop_key t2 _ q1 q2 K2 (tw_cur2 _ _ _ _ T) Q1 X2).
  cbn [fst snd stk]. repeat split; cbn; try apply T; try apply T'. exists p2, q2. split; [eapply nth_replace_same; eauto|]. split; [eapply nth_replace_same; eauto|]. exact TP2.
Qed.
Lemma top_open : open_phase top_phase. Proof. intros e e' p q H. exact H. Qed.
Lemma tw_set_entries ph id l : open_phase ph -> tw ph ph (set_entries id l).
Proof.
  intros O. apply (tw_forms_op pid ph _ (fun h => match nth_error h id with None => (Ok tt, h) | Some (t, _) => (Ok tt, replace_nth id (t, l) h) end) O).
  intros s. unfold set_entries. destruct (nth_error (forms s) id) as [[t x]|]; [reflexivity|now destruct s].
Qed.
Lemma tw_entries ph id : tw ph ph (form_entries id).
Proof. apply tw_get. intros s1 s2 F _. unfold entries. now rewrite F. Qed.
Lemma tw_type ph id : tw ph ph (form_type id).
Proof. apply tw_get. intros s1 s2 F _. now rewrite F. Qed.
Lemma tw_set ph id x v : open_phase ph -> tw ph ph (form_set id x v).
Proof. intros O. unfold form_set. apply tw_bind; [apply tw_entries|]. intros l. now apply tw_set_entries. Qed.
Lemma tw_setattr ph id a v : open_phase ph -> tw ph ph (form_setattr id a v).
Proof.
  intros O. unfold form_setattr. apply tw_bind; [apply tw_type|]. intros t. destruct (find_field a t); [now apply tw_set|apply tw_ret].
Qed.
End Alike.

(** ** Forms *)
Section Forms.
Variables (W : world) (pid : nat).
Let E := w_env W.
Variable top : path -> path -> Prop.
Variables started fresh done : string -> phase.
Variable reads : string -> Prop.
Hypothesis AL : alike W top started fresh done reads.
Notation ph := (top_phase top).
Lemma tw_field n f k : simple_field f k -> reads k -> tw pid ph ph (field_map W n f NONEv).
Proof.
  intros SF RD. destruct n as [|n]; [apply tw_raise|]. change (field_map W (S n)) with (field_map_body W (field_map W n)). unfold field_map_body. apply tw_bind.
  - apply tw_frame; [reflexivity|reflexivity|]. unfold field__map. cbn [is_NONE NONEv].
    assert (R : field_resolve W (field_map W n) f = ret (Some (KStr k))).
    { unfold field_resolve. rewrite (sf_resolve _ _ _ SF), (sf_src _ _ _ SF). pose proof (sf_kind _ _ _ SF) as K. destruct (f_kind f); try contradiction; reflexivity. }
    rewrite R. eapply tw_enter; [exact AL|exact RD|]. eapply tw_body; eauto.
  - intros v. apply tw_bind; [|intros; apply tw_ret]. destruct (_ && _); [|apply tw_ret]. destruct v; try apply tw_raise; [|apply tw_ret].
    cbn [set_parent]. apply tw_setattr. apply top_open.
Qed.
End Forms.

Section Fields.
Variables (W : world) (pid : nat).
Let E := w_env W.
Variable top : path -> path -> Prop.
Notation ph := (top_phase top).
Lemma tw_fields n id tg fs : (forall f, In f fs -> selected tg f = true -> tw pid ph ph (field_map W n f NONEv)) ->
  tw pid ph ph (map_fields (field_map W n) id tg fs).
Proof.
  induction fs as [|f fs IH]; intros H; cbn [map_fields]; [apply tw_ret|]. apply tw_bind.
  - destruct (selected tg f) eqn:Q; [|apply tw_ret]. apply tw_bind; [exact (H f (or_introl eq_refl) Q)|].
    intros v. destruct (ignored v); [apply tw_ret|]. apply tw_set. apply top_open.
  - intros _. apply IH. intros g G. apply H. now right.
Qed.
Lemma tw_ignoring rec id u (ph : phase) : ignoring u -> tw pid ph ph (form_unmapped rec id u).
Proof. intros [-> | ->]; apply tw_ret. Qed.
Lemma tw_form n id tg u t l (ph0 : phase) s1 s2 : tw pid ph ph (form_unmapped (field_map W n) id u) ->
  (forall e p q, ph0 e p q -> exists p' q' v w, p_mapping (w_env W) e p = (p', Ok v) /\ p_mapping (w_env W) e q = (q', Ok w) /\ top p' q') ->
  (forall f, In f (ft_fields t) -> selected tg f = true -> tw pid ph ph (field_map W n f NONEv)) ->
  twin pid ph0 s1 s2 -> nth_error (forms s1) id = Some (t, l) ->
  fst (form__map W (field_map W n) id tg u s1) = fst (form__map W (field_map W n) id tg u s2) /\
  twin pid ph (snd (form__map W (field_map W n) id tg u s1)) (snd (form__map W (field_map W n) id tg u s2)) /\
  stk (snd (form__map W (field_map W n) id tg u s1)) = stk s1 /\ stk (snd (form__map W (field_map W n) id tg u s2)) = stk s2.
Proof.
  intros U MAP H T N. set (go := fun t => with_ctx W [("form", CForm id); ("parent", CForm id)] (map_fields (field_map W n) id tg (ft_fields t));; o <- form_unmapped (field_map W n) id u;
     match o with None => ret tt | Some v => match v with VNone => ret tt | VDict d => l <- form_entries id; set_entries id (dict_update l d) | _ => raise (EType "not iterable") end end).
  assert (G : tw pid ph ph (go t)).
  { unfold go. apply tw_bind; [apply tw_frame; [reflexivity|reflexivity|now apply tw_fields]|]. intros _. apply tw_bind; [exact U|].
    intros o. destruct o as [v|]; [|apply tw_ret]. destruct v; try apply tw_raise; try apply tw_ret. apply tw_bind; [apply tw_entries|]. intros. apply tw_set_entries. apply top_open. }
  destruct (tw_path _ _ _ _ T) as (p & q & P & Q & TP). destruct (MAP (entries s1) p q TP) as (p' & q' & v & w & M1 & M2 & TP').
  assert (EN : entries s2 = entries s1) by (unfold entries; now rewrite (tw_forms _ _ _ _ T)).
  assert (R1 : form__map W (field_map W n) id tg u s1 = go t (St (stk s1) (forms s1) (replace_nth pid p' (paths s1)) (errs s1))).
  { unfold form__map, bind at 1, cur_path, bind at 1, ctx_get, bind at 1, ctx_get_opt, get. rewrite (tw_cur _ _ _ _ T). cbn [ret].
    unfold bind at 1, path_mapping, on_path. rewrite P, M1. unfold bind at 1, form_type, get. cbn [forms]. rewrite N. reflexivity. }
  assert (R2 : form__map W (field_map W n) id tg u s2 = go t (St (stk s2) (forms s2) (replace_nth pid q' (paths s2)) (errs s2))).
  { unfold form__map, bind at 1, cur_path, bind at 1, ctx_get, bind at 1, ctx_get_opt, get. rewrite (tw_cur2 _ _ _ _ T). cbn [ret].
    unfold bind at 1, path_mapping, on_path. rewrite Q, EN, M2. unfold bind at 1, form_type, get. cbn [forms]. rewrite <- (tw_forms _ _ _ _ T), N. reflexivity. }
  rewrite R1, R2. 
  assert (T' : twin pid ph (St (stk s1) (forms s1) (replace_nth pid p' (paths s1)) (errs s1)) (St (stk s2) (forms s2) (replace_nth pid q' (paths s2)) (errs s2))).
  { split; cbn; try apply T. exists p', q'. split; [eapply nth_replace_same; eauto|]. split; [eapply nth_replace_same; eauto|]. exact TP'. }
  exact (G _ _ T').
Qed.
End Fields.

Definition same_answer {A} (x y : res A * st) : Prop := fst x = fst y /\ forms (snd x) = forms (snd y) /\ errs (snd x) = errs (snd y) /\ stk (snd x) = stk (snd y).
Section Root.
Variables (W : world).
Let E := w_env W.
Variable top : path -> path -> Prop.
Hypothesis MAP : forall e p q, top p q -> exists p' q' v w, p_mapping E e p = (p', Ok v) /\ p_mapping E e q = (q', Ok w) /\ top p' q'.
Notation ph := (top_phase top).
Variables src1 src2 : source.
Hypothesis OPEN : forall e, exists p q, source_path E e src1 = Ok p /\ source_path E e src2 = Ok q /\ top p q.
Lemma tw_source n id tg u t l s eid : (forall pid, tw pid ph ph (form_unmapped (field_map W n) id u)) -> (forall f pid, In f (ft_fields t) -> selected tg f = true -> tw pid ph ph (field_map W n f NONEv)) ->
  nth_error (forms s) id = Some (t, l) ->
  same_answer (with_ctx W [("src", CSrc src1); ("errors", CErrs eid)] (form__map W (field_map W n) id tg u) s)
              (with_ctx W [("src", CSrc src2); ("errors", CErrs eid)] (form__map W (field_map W n) id tg u) s).
Proof.
  intros U H N. destruct (OPEN (entries s)) as (p & q & SP & SQ & TP). set (m := form__map W (field_map W n) id tg u).
  set (fr := fun src => [("src_path", CPath (length (paths s))); ("src", CSrc src); ("errors", CErrs eid)] : frame).
  assert (PU : forall src r, source_path E (entries s) src = Ok r -> push W [("src", CSrc src); ("errors", CErrs eid)] s = (Ok tt, St (fr src :: stk s) (forms s) (paths s ++ [r]) (errs s))).
  { intros src r SR. unfold push. cbn [alookup String.eqb Ascii.eqb Bool.eqb]. unfold bind. fold E. rewrite SR. reflexivity. }
  assert (PO : forall src w, stk w = fr src :: stk s -> restore W w = (Ok tt, St (stk s) (forms w) (paths w) (errs w))).
  { intros src w K. unfold restore. rewrite K. reflexivity. }
  set (s1 := St (fr src1 :: stk s) (forms s) (paths s ++ [p]) (errs s)). set (s2 := St (fr src2 :: stk s) (forms s) (paths s ++ [q]) (errs s)).
  assert (T : twin (length (paths s)) (top_phase top) s1 s2).
  { split; cbn; auto.
    - constructor; [|clear; induction (stk s); constructor; auto using ftwin_refl]. unfold fr. constructor; [split; [reflexivity|now left]|]. constructor; [split; [reflexivity|right; cbn; eauto]|]. constructor; [split; [reflexivity|now left]|constructor].
    - exists (CSrc src1). split; reflexivity.
    - exists p, q. rewrite !nth_error_app2, Nat.sub_diag by lia. cbn. auto. }
  destruct (tw_form W _ top n id tg u t l ph s1 s2 (U _) (fun e p q H => MAP e p q H) (fun f => H f _) T N) as (R & T' & K1 & K2). fold m in R, T', K1, K2.
  unfold with_ctx, closing. rewrite (PU _ _ SP), (PU _ _ SQ). fold s1 s2. unfold same_answer.
  destruct (m s1) as [r1 t1], (m s2) as [r2 t2]. cbn [fst snd] in *. subst r2. rewrite (PO _ _ K1), (PO _ _ K2). cbn. repeat split; apply T'.
Qed.
Lemma tw_map_gen n id tags rs u m s t l tg : (forall pid, tw pid ph ph (form_unmapped (field_map W n) id u)) -> in_force s tags tg -> nth_error (forms s) id = Some (t, l) ->
  (forall f pid, In f (ft_fields t) -> chosen tg f -> tw pid ph ph (field_map W n f NONEv)) ->
  same_answer (form_map W (field_map W n) id (ASrc src1) tags rs u m s) (form_map W (field_map W n) id (ASrc src2) tags rs u m s).
Proof.
  intros U IF N H. assert (H' : forall f pid, In f (ft_fields t) -> selected tg f = true -> tw pid ph ph (field_map W n f NONEv)).
  { intros f pid I Q. apply H; [exact I|]. now apply selected_chosen. }
  clear H. destruct (effective_run tags s) as (tg' & TG & IF'). rewrite (in_force_fun _ _ _ _ IF' IF) in TG. clear IF IF' tg'.
  unfold form_map. rewrite !(bind_run (effective_tags tags)), TG. rewrite !(bind_run (form_type id)). unfold form_type, get. rewrite N.
  assert (S0 : exists s0 l0, (if rs then form_reset id tg (ft_fields t) else ret tt) s = (Ok tt, s0) /\ nth_error (forms s0) id = Some (t, l0)).
  { destruct rs; [|exists s, l; auto]. destruct (form_reset_run id tg (ft_fields t) s t l N) as (s0 & R & _ & _ & _ & _ & A5). eauto. }
  destruct S0 as (s0 & l0 & R0 & N0). rewrite !(bind_run (if rs then _ else _)), R0. rewrite !(bind_run (ctx_get "src")).
  destruct (ctx_get "src" s0) as [[c|x] s9] eqn:C; [|repeat split].
  assert (s9 = s0) by (unfold ctx_get, bind, ctx_get_opt, get in C; destruct (lookup "src" (stk s0)); injection C as _ <-; reflexivity). subst s9.
  cbn [is_anone andb]. set (s6 := St (stk s0) (forms s0) (paths s0) (errs s0 ++ [(m, [])])).
  assert (RM : forall src, root_map W (field_map W n) id (ASrc src) tg u m s0 =
     match with_ctx W [("src", CSrc src); ("errors", CErrs (length (errs s0)))] (form__map W (field_map W n) id tg u) s6 with
     | (Ok _, s') => (Ok (length (errs s0)), s') | (Exn e, s') => (Exn e, s') end).
  { intros src. unfold root_map. rewrite bind_run. unfold form_type, get. rewrite N0. reflexivity. }
  rewrite !(bind_run (root_map _ _ _ _ _ _ _)), !RM. 
  pose proof (tw_source n id tg u t l0 s6 (length (errs s0)) U H' N0) as (A & B & C1 & D).
  destruct (with_ctx W [("src", CSrc src1); _] _ s6) as [r1 t1], (with_ctx W [("src", CSrc src2); _] _ s6) as [r2 t2]. cbn [fst snd] in *. subst r2.
  destruct r1 as [[]|x]; [|repeat split; auto]. rewrite !bind_run. unfold errs_of, get. rewrite C1. destruct (nth_error (errs t2) (length (errs s0))) as [[mo [|e0 es]]|], m; repeat split; auto.
Qed.
Lemma tw_map n id tags rs u m s t l tg : ignoring u -> in_force s tags tg -> nth_error (forms s) id = Some (t, l) ->
  (forall f pid, In f (ft_fields t) -> chosen tg f -> tw pid ph ph (field_map W n f NONEv)) ->
  same_answer (form_map W (field_map W n) id (ASrc src1) tags rs u m s) (form_map W (field_map W n) id (ASrc src2) tags rs u m s).
Proof. intros U. apply tw_map_gen. intros pid. now apply tw_ignoring. Qed.
End Root.
