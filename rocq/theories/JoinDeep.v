(** * JoinDeep: two sources that answer alike also below keys map nested forms alike (C103). *)
From Verif Require Import PyBase PyStr Source Field Context Fields SpecSrc SpecUnion SrcPath Shape Balance SpecField SpecForm FieldLemmas FieldProofs FormProofs FormLemmas UnionProofs SpecJoin JoinProofs.
From Coq Require Import Lia.

Section Both.
Variables (W : world) (pid : nat).
Let E := w_env W.
(** What [tw] says of two states *)
Definition both {A} (ph : phase) (m : M A) (s1 s2 : st) : Prop :=
  fst (m s1) = fst (m s2) /\ twin pid ph (snd (m s1)) (snd (m s2)) /\ stk (snd (m s1)) = stk s1 /\ stk (snd (m s2)) = stk s2.
Lemma both_bind {A B} ph (m : M A) (f : A -> M B) s1 s2 : both ph m s1 s2 -> (forall a, tw pid ph ph (f a)) -> both ph (bind m f) s1 s2.
Proof.
  intros (R & T' & K1 & K2) G. unfold both, bind. destruct (m s1) as [r1 t1], (m s2) as [r2 t2]. cbn [fst snd] in *. subst r2.
  destruct r1 as [a|e]; [|auto]. destruct (G a t1 t2 T') as (R2 & T2 & K3 & K4). repeat split; auto; try congruence; try apply T2.
Qed.
Lemma both_then {A B} ph (m : M A) (f : A -> M B) s1 s2 a1 a2 t1 t2 : m s1 = (Ok a1, t1) -> m s2 = (Ok a2, t2) -> stk t1 = stk s1 -> stk t2 = stk s2 -> a1 = a2 ->
  both ph (f a1) t1 t2 -> both ph (bind m f) s1 s2.
Proof. intros M1 M2 K1 K2 <- H. unfold both, bind in *. rewrite M1, M2. rewrite <- K1, <- K2. exact H. Qed.
Lemma both_than {A B} ph (m : M A) (f : A -> M B) (g : M B) s1 s2 a1 a2 t1 t2 : m s1 = (Ok a1, t1) -> m s2 = (Ok a2, t2) -> stk t1 = stk s1 -> stk t2 = stk s2 -> f a1 = g -> f a2 = g ->
  both ph g t1 t2 -> both ph (bind m f) s1 s2.
Proof. intros M1 M2 K1 K2 F1 F2 H. unfold both, bind in *. rewrite M1, M2, F1, F2. rewrite <- K1, <- K2. exact H. Qed.
Lemma both_frame {A} (ph ph' : phase) (kw : frame) (m : M A) s1 s2 : alookup kw "src" = None -> alookup kw "src_path" = None -> twin pid ph s1 s2 ->
  (twin pid ph (St (kw :: stk s1) (forms s1) (paths s1) (errs s1)) (St (kw :: stk s2) (forms s2) (paths s2) (errs s2)) ->
   both ph' m (St (kw :: stk s1) (forms s1) (paths s1) (errs s1)) (St (kw :: stk s2) (forms s2) (paths s2) (errs s2))) ->
  both ph' (with_ctx W kw m) s1 s2.
Proof.
  intros NS NP T H.
  assert (T1 : twin pid ph (St (kw :: stk s1) (forms s1) (paths s1) (errs s1)) (St (kw :: stk s2) (forms s2) (paths s2) (errs s2))).
  { split; cbn; try apply T. - constructor; [apply ftwin_refl|apply T]. - rewrite NP. apply T. - rewrite NS. apply T. }
  destruct (H T1) as (R & T' & K1 & K2). unfold both, with_ctx, closing, push. rewrite NS. cbn [push_frame].
  destruct (m (St (kw :: stk s1) _ _ _)) as [r1 t1], (m (St (kw :: stk s2) _ _ _)) as [r2 t2]. cbn [fst snd stk] in *. subst r2.
  unfold restore. cbn beta iota zeta. rewrite K1, K2. unfold has_key. rewrite NS. cbn. repeat split; cbn; try apply T'; apply T.
Qed.
Lemma tw_enter_gen {A} (top : path -> path -> Prop) k (st dn : phase) (m : M A) :
  (forall e p q, top p q -> st e (p_append (KStr k) p) (p_append (KStr k) q)) ->
  (forall e p q, dn e p q -> exists p' q', p_pop p = (p', Ok tt) /\ p_pop q = (q', Ok tt) /\ top p' q') ->
  tw pid st dn m -> tw pid (top_phase top) (top_phase top) (with_ctx W [("src", CKey (KStr k))] m).
Proof.
  intros AP PO H s1 s2 T. destruct (tw_path _ _ _ _ T) as (p & q & P & Q & TP). unfold with_ctx, closing. set (fr := [("src", CKey (KStr k))] : frame) in *.
  pose proof (push_key W pid k s1 p (tw_cur _ _ _ _ T) P) as PK1. pose proof (push_key W pid k s2 q (tw_cur2 _ _ _ _ T) Q) as PK2. fold fr in PK1, PK2. rewrite PK1, PK2.
  assert (T1 : twin pid st
    (St (fr :: stk s1) (forms s1) (replace_nth pid (p_append (KStr k) p) (paths s1)) (errs s1))
    (St (fr :: stk s2) (forms s2) (replace_nth pid (p_append (KStr k) q) (paths s2)) (errs s2))).
  { split; cbn [stk forms errs paths]; try apply T.
    - constructor; [apply ftwin_refl|apply T].
    - exists (CKey (KStr k)). split; reflexivity.
    - eexists _, _. split; [eapply nth_replace_same; eauto|]. split; [eapply nth_replace_same; eauto|]. now apply AP. }
  destruct (H _ _ T1) as (R & T' & K1 & K2).
  destruct (m (St (fr :: stk s1) _ _ _)) as [r1 t1], (m (St (fr :: stk s2) _ _ _)) as [r2 t2]. cbn [fst snd stk] in *. subst r2.
  destruct (tw_path _ _ _ _ T') as (p1 & q1 & P1 & Q1 & D). destruct (PO _ p1 q1 D) as (p2 & q2 & X1 & X2 & TP2).
  rewrite (pop_key W pid k t1 _ p1 p2 K1 (tw_cur _ _ _ _ T) P1 X1), (pop_key W pid k t2 _ q1 q2 K2 (tw_cur2 _ _ _ _ T) Q1 X2).
  cbn [fst snd stk]. repeat split; cbn; try apply T; try apply T'. exists p2, q2. split; [eapply nth_replace_same; eauto|]. split; [eapply nth_replace_same; eauto|]. exact TP2.
Qed.
Lemma tw_reset ph id tg fs : open_phase ph -> tw pid ph ph (form_reset id tg fs).
Proof.
  intros O. induction fs as [|f fs IH]; cbn [form_reset]; [apply tw_ret|]. apply tw_bind; [|intros _; exact IH]. destruct (selected tg f); [|apply tw_ret].
  unfold field_delete. apply tw_bind; [apply tw_entries|]. intros l. destruct (dict_has l _); [now apply tw_set_entries|apply tw_ret].
Qed.
End Both.

(** ** The keys of a mapping: those of a [Dict], and those no field of a form has read *)
Lemma calm_plain : calm read_once plain_field None.
Proof. split; cbn; try exact I; try reflexivity; intros ? Q; discriminate. Qed.
Lemma calm_string : calm read_once plain_string None.
Proof. split; cbn; try exact I; try reflexivity; intros ? Q; discriminate. Qed.
Lemma calm_unmapped id kf vf : calm (fun _ => True) (unmapped_dict id kf vf) None.
Proof. split; cbn; try exact I; try reflexivity; intros ? Q; discriminate. Qed.
Lemma quiet_not_in id : quiet_hook (not_in_form id).
Proof. intros t [|k args]; cbn; [exact I|]. intros [x|x]; exact I. Qed.
Lemma calm_any K f o : calm K f o -> calm (fun _ => True) f o.
Proof. intros [S0 S1 S2 S3 S4 S5 S6 S7 S8 S9]. split; auto. Qed.
Lemma resolve_calm W rec f o : calm read_once f o -> field_resolve W rec f = ret o.
Proof. intros SF. unfold field_resolve. rewrite (sf_resolve _ _ _ SF), (sf_src _ _ _ SF). pose proof (sf_kind _ _ _ SF) as K. destruct (f_kind f); try contradiction; reflexivity. Qed.
Section Keys.
Variables (W : world) (pid : nat).
Let E := w_env W.
Variable top : path -> path -> Prop.
Hypothesis TSTR : forall p q, top p q -> p_str E p = p_str E q.
Notation ph := (top_phase top).
Notation tw := (tw pid).
Lemma top_same : forall e p q, ph e p q -> p_str E p = p_str E q.
Proof. intros e p q H. now apply TSTR. Qed.
(** The key *)
Lemma tw_key n f k : calm read_once f None -> tw ph ph (field_map W n f (VStr k)).
Proof.
  intros SF. destruct n as [|n]; [apply tw_raise|]. change (field_map W (S n)) with (field_map_body W (field_map W n)). unfold field_map_body. apply tw_bind.
  - apply tw_frame; [reflexivity|reflexivity|]. eapply tw_after; [exact top_same|exact SF].
  - intros v. apply tw_bind; [|intros; apply tw_ret]. destruct (_ && _); [|apply tw_ret]. destruct v; try apply tw_raise; [|apply tw_ret].
    cbn [set_parent]. apply tw_setattr. apply top_open.
Qed.
Lemma tw_items n hook kf vf : quiet_ohook hook -> calm read_once kf None -> forall ks, (forall k, In k ks -> tw ph ph (map_at W (field_map W n) (KStr k) vf)) -> forall acc,
  tw ph ph (dict_items W (field_map W n) hook kf vf (map VStr ks) acc).
Proof.
  intros HQ KF. induction ks as [|k ks IH]; intros H acc; cbn [map dict_items]; [apply tw_ret|]. assert (H' : forall x, In x ks -> tw ph ph (map_at W (field_map W n) (KStr x) vf)) by (intros x I; apply H; now right). apply tw_bind.
  - unfold key_accepted. destruct hook as [h|]; [|apply tw_ret]. apply tw_bind; [apply tw_hook; [exact top_same|now apply HQ]|]. intros; apply tw_ret.
  - intros [|]; cbn [negb]; [|apply IH, H']. apply tw_bind; [apply H; now left|]. intros v. destruct (ignored v); [apply IH, H'|]. apply tw_bind; [now apply tw_key|].
    intros k'. destruct (ignored k'); [apply IH, H'|]. destruct (hashable k'); [apply IH, H'|apply tw_raise].
Qed.
Variable keys : list string.
Notation held n vf := (forall k, In k keys -> tw ph ph (map_at W (field_map W n) (KStr k) vf)).
Lemma tw_parse_dict n hook kf vf p0 (ph0 : phase) : quiet_ohook hook -> calm read_once kf None -> held n vf -> p0 = pid ->
  (forall e p q, ph0 e p q -> exists p' q', p_mapping E e p = (p', Ok (Ok (map VStr keys))) /\ p_mapping E e q = (q', Ok (Ok (map VStr keys))) /\ top p' q') ->
  tw ph0 ph (parse_dict W (field_map W n) hook kf vf p0).
Proof.
  intros HQ KF VF -> MP. unfold parse_dict, path_mapping.
  apply tw_opk with (mid := fun (vw : view) e p q => vw = Ok (map VStr keys) /\ top p q).
  { intros e p q T. destruct (MP e p q T) as (p' & q' & A & B & C). exists p', q', (Ok (map VStr keys)). auto. }
  intros vw s1 s2 T. destruct (tw_path _ _ _ _ T) as (p & q & _ & _ & -> & _). revert s1 s2 T. apply tw_weak with (ph1 := ph); [intros e p' q' [_ F]; exact F|].
  change (tw ph ph (bind (dict_items W (field_map W n) hook kf vf (map VStr keys) []) (fun d => ret (VDict d)))).
  apply tw_bind; [apply tw_items; assumption|]. intros; apply tw_ret.
Qed.
Hypothesis TEX : forall e p q, top p q -> exists p' q', p_exists E e p = (p', Ok true) /\ p_exists E e q = (q', Ok true) /\ top p' q'.
Hypothesis TNULL : forall e p q, top p q -> exists p' q', p_is_null E e p = (p', Ok false) /\ p_is_null E e q = (q', Ok false) /\ top p' q'.
Hypothesis TMAP : forall e p q, top p q -> exists p' q', p_mapping E e p = (p', Ok (Ok (map VStr keys))) /\ p_mapping E e q = (q', Ok (Ok (map VStr keys))) /\ top p' q'.
Lemma tw_here n f hook kf vf req mx : f_kind f = KDict kf vf hook req mx -> calm (fun _ => True) f None -> quiet_ohook hook -> calm read_once kf None -> held n vf ->
  tw ph ph (field_body W (field_map W n) f NONEv).
Proof.
  intros KD SF HQ KF VF. unfold field_body. cbn [is_NONE NONEv]. rewrite (sf_compute _ _ _ SF). apply tw_bind.
  - unfold field_compute. apply tw_curpath. unfold path_exists.
    apply tw_opk with (mid := fun (b : bool) e p q => b = true /\ top p q).
    { intros e p q T. destruct (TEX e p q T) as (p' & q' & A & B & C). exists p', q', true. auto. }
    intros [|]; cbn [negb]; [|intros s1 s2 T; destruct (tw_path _ _ _ _ T) as (p & q & _ & _ & X & _); discriminate].
    apply tw_weak with (ph1 := ph); [intros e p q [_ F]; exact F|]. unfold path_is_null.
    apply tw_opk with (mid := fun (b : bool) e p q => b = false /\ top p q).
    { intros e p q T. destruct (TNULL e p q T) as (p' & q' & A & B & C). exists p', q', false. auto. }
    intros [|]; [intros s1 s2 T; destruct (tw_path _ _ _ _ T) as (p & q & _ & _ & X & _); discriminate|].
    apply tw_weak with (ph1 := ph); [intros e p q [_ F]; exact F|]. apply tw_catch.
    + rewrite (sf_parse _ _ _ SF), KD. cbn [parse_kind]. apply tw_parse_dict; auto.
    + intros [v|e]; [apply tw_ret|]. destruct (caught_by_compute e); [|apply tw_raise]. unfold invalid_error. apply tw_bind; [apply tw_report; exact top_same|]. intros; apply tw_ret.
  - intros v. destruct (is_NONE v).
    + pose proof (sf_default _ _ _ SF) as D. assert (DF : tw ph ph (field_default W (field_map W n) f)) by (eapply tw_default; [exact top_same|exact SF]).
      destruct (o_default (f_opts f)) as [[h|]|w|p] eqn:Q; try exact DF. apply tw_hook; [exact top_same|]. now apply D.
    + destruct (ignored v); [apply tw_ret|]. eapply tw_after; [exact top_same|exact SF].
Qed.
Lemma tw_unmapped n id kf vf : calm read_once kf None -> (forall m, n = S m -> held m vf) -> tw ph ph (form_unmapped (field_map W n) id (UPair kf vf)).
Proof.
  intros KF VF. cbn [form_unmapped]. apply tw_bind; [|intros; apply tw_ret]. destruct n as [|n]; [apply tw_raise|]. specialize (VF n eq_refl). set (f := unmapped_dict id kf vf).
  change (field_map W (S n)) with (field_map_body W (field_map W n)). unfold field_map_body. apply tw_bind; [|intros v; apply tw_bind; intros; apply tw_ret].
  apply tw_frame; [reflexivity|reflexivity|]. unfold field__map. cbn [is_NONE NONEv]. change (field_resolve W (field_map W n) f) with (@ret (option key) None).
  change (bind (ret None) ?f) with (f (@None key)). cbv beta iota.
  apply (tw_here n f (Some (not_in_form id)) kf vf [] None eq_refl (calm_unmapped id kf vf)); auto. intros h [= <-]. apply quiet_not_in.
Qed.
End Keys.

(** A form where both paths have a mapping *)
Lemma tw_nested W pid n (fr : phase) (inn : path -> path -> Prop) t rs u : (forall id, tw pid (top_phase inn) (top_phase inn) (form_unmapped (field_map W n) id u)) -> open_phase fr ->
  (forall e p q, fr e p q -> exists p' q' v w, p_mapping (w_env W) e p = (p', Ok v) /\ p_mapping (w_env W) e q = (q', Ok w) /\ inn p' q') ->
  (forall f, In f (ft_fields t) -> tw pid (top_phase inn) (top_phase inn) (field_map W n f NONEv)) ->
  tw pid fr (top_phase inn) (parse_form W (field_map W n) t rs u).
Proof.
  intros U OP MP H s1 s2 T.
  change (both pid (top_phase inn) (parse_form W (field_map W n) t rs u) s1 s2). unfold parse_form.
  set (id := length (forms s1)). set (a1 := St (stk s1) (forms s1 ++ [(t, [])]) (paths s1) (errs s1)). set (a2 := St (stk s2) (forms s2 ++ [(t, [])]) (paths s2) (errs s2)).
  assert (N1 : new_form t s1 = (Ok id, a1)) by reflexivity.
  assert (N2 : new_form t s2 = (Ok id, a2)) by (unfold id; rewrite (tw_forms _ _ _ _ T); reflexivity).
  eapply both_then; [exact N1|exact N2|reflexivity|reflexivity|reflexivity|].
  assert (TA : twin pid fr a1 a2).
  { split; cbn; try apply T; [now rewrite (tw_forms _ _ _ _ T)|]. destruct (tw_path _ _ _ _ T) as (p & q & P & Q & F). exists p, q. split; [exact P|]. split; [exact Q|]. exact (OP _ _ p q F). }
  assert (NA : nth_error (forms a1) id = Some (t, [])) by (cbn; unfold id; rewrite nth_error_app2, Nat.sub_diag by lia; reflexivity).
  clearbody id a1 a2. clear N1 N2 T s1 s2.
  apply both_bind; [|intros [|e es]; apply tw_ret]. unfold form_map.
  assert (TG : exists tg, effective_tags [] a1 = (Ok tg, a1) /\ effective_tags [] a2 = (Ok tg, a2)).
  { unfold effective_tags, bind, ctx_get_opt, get, ret. eexists. split; [reflexivity|]. pose proof (lookup_twin "tags" _ _ (tw_stk _ _ _ _ TA)) as L.
    destruct (lookup "tags" (stk a1)) as [c|], (lookup "tags" (stk a2)) as [d|]; try contradiction; [|reflexivity]. destruct L as [<-|(y & z & -> & ->)]; reflexivity. }
  destruct TG as (tg & G1 & G2). eapply both_then; [exact G1|exact G2|reflexivity|reflexivity|reflexivity|].
  assert (F1 : form_type id a1 = (Ok t, a1)) by (unfold form_type, get; now rewrite NA).
  assert (F2 : form_type id a2 = (Ok t, a2)) by (unfold form_type, get; rewrite <- (tw_forms _ _ _ _ TA), NA; reflexivity).
  eapply both_then; [exact F1|exact F2|reflexivity|reflexivity|reflexivity|].
  assert (RS : exists b1 b2 l, (if rs then form_reset id tg (ft_fields t) else ret tt) a1 = (Ok tt, b1) /\ (if rs then form_reset id tg (ft_fields t) else ret tt) a2 = (Ok tt, b2) /\
    twin pid fr b1 b2 /\ stk b1 = stk a1 /\ stk b2 = stk a2 /\ nth_error (forms b1) id = Some (t, l)).
  { destruct rs; [|exists a1, a2, []; auto 10]. destruct (form_reset_run id tg (ft_fields t) a1 t [] NA) as (b1 & R1 & X). 
    destruct (tw_reset pid fr id tg (ft_fields t) OP a1 a2 TA) as (R & TB & K1 & K2). rewrite R1 in *. cbn [fst snd] in *.
    destruct (form_reset id tg (ft_fields t) a2) as [r2 b2]. cbn [fst snd] in *. subst r2. destruct X as (_ & _ & _ & _ & A5). eauto 10. }
  destruct RS as (b1 & b2 & l & R1 & R2 & TB & K1 & K2 & NB). eapply both_then; [exact R1|exact R2|exact K1|exact K2|reflexivity|].
  destruct (tw_some _ _ _ _ TB) as (c & C1 & C2). pose proof (lookup_twin "src" _ _ (tw_stk _ _ _ _ TB)) as L. rewrite C1 in L.
  destruct (lookup "src" (stk b2)) as [c2|] eqn:C3; [|contradiction]. assert (C4 : is_none_c c2 = false) by (destruct L as [<-|(y & z & -> & ->)]; [exact C2|reflexivity]).
  assert (S1 : ctx_get "src" b1 = (Ok c, b1)) by (unfold ctx_get, bind, ctx_get_opt, get; now rewrite C1).
  assert (S2 : ctx_get "src" b2 = (Ok c2, b2)) by (unfold ctx_get, bind, ctx_get_opt, get; now rewrite C3).
  eapply both_than; [exact S1|exact S2|reflexivity|reflexivity|cbn [is_anone andb]; rewrite C2; cbn [negb]; reflexivity|cbn [is_anone andb]; rewrite C4; cbn [negb]; reflexivity|].
  clear -U OP MP H TB NB.
  apply both_bind.
  2:{ intros eid. apply tw_bind; [apply tw_get; intros y z _ Q; now rewrite Q|]. intros [|e es]; apply tw_ret. }
  unfold nested_map. set (d1 := St (stk b1) (forms b1) (paths b1) (errs b1 ++ [(Collect, [])])). set (d2 := St (stk b2) (forms b2) (paths b2) (errs b2 ++ [(Collect, [])])).
  eapply (both_then pid _ (new_errs Collect) _ b1 b2 _ _ d1 d2); [reflexivity|reflexivity|reflexivity|reflexivity|now rewrite (tw_errs _ _ _ _ TB)|].
  assert (TD : twin pid fr d1 d2) by (split; cbn; try apply TB; now rewrite (tw_errs _ _ _ _ TB)).
  apply both_bind.
  - apply (both_frame W pid fr); [reflexivity|reflexivity|exact TD|]. intros TE.
    exact (tw_form W pid inn n id tg u t l fr _ _ (U id) MP (fun f I _ => H f I) TE NB).
  - intros _. apply tw_ctx; [reflexivity|]. intros c. destruct c; try apply tw_raise. apply tw_bind; [apply tw_get; intros y z _ Q; now rewrite Q|].
    intros es. apply tw_bind; [apply tw_extend|]. intros _. apply tw_ret.
Qed.


Section Tree.
Variables (W : world) (pos : Type).
Let E := w_env W.
Variable top : pos -> path -> path -> Prop.
Variables started fresh done sstarted sfresh : pos -> string -> phase.
Variables reads subs present : pos -> string -> Prop.
Variable flats : pos -> Prop.
Variable names : pos -> list string -> Prop.
Variable down : pos -> string -> pos.
Record tree : Prop := {
  tr_alike : forall x, alike W (top x) (started x) (fresh x) (done x) (reads x);
  tr_append : forall x k e p q, subs x k -> top x p q -> sstarted x k e (p_append (KStr k) p) (p_append (KStr k) q);
  tr_back : forall x k e p q, sstarted x k e p q -> exists p' q', p_pop p = (p', Ok tt) /\ p_pop q = (q', Ok tt) /\ top x p' q';
  tr_exists : forall x k e p q, sstarted x k e p q -> exists p' q' b, p_exists E e p = (p', Ok b) /\ p_exists E e q = (q', Ok b) /\
                if b : bool then sfresh x k e p' q' else done x k e p' q';
  tr_present : forall x k e p q, sfresh x k e p q -> present x k;
  tr_null : forall x k e p q, sfresh x k e p q -> exists p' q', p_is_null E e p = (p', Ok false) /\ p_is_null E e q = (q', Ok false) /\ sfresh x k e p' q';
  tr_open : forall x k, open_phase (sfresh x k);
  tr_map : forall x k e p q, sfresh x k e p q -> exists p' q' v w, p_mapping E e p = (p', Ok v) /\ p_mapping E e q = (q', Ok w) /\ top (down x k) p' q';
  tr_first : forall x k ks e p q, names (down x k) ks -> sfresh x k e p q -> exists p' q', p_mapping E e p = (p', Ok (Ok (map VStr ks))) /\ p_mapping E e q = (q', Ok (Ok (map VStr ks))) /\ top (down x k) p' q';
  tr_names : forall x ks e p q, names x ks -> top x p q -> exists p' q', p_mapping E e p = (p', Ok (Ok (map VStr ks))) /\ p_mapping E e q = (q', Ok (Ok (map VStr ks))) /\ top x p' q';
  tr_str : forall x p q, top x p q -> p_str E p = p_str E q;
  tr_here : forall x e p q, top x p q -> exists p' q', p_exists E e p = (p', Ok true) /\ p_exists E e q = (q', Ok true) /\ top x p' q';
  tr_thing : forall x e p q, flats x -> top x p q -> exists p' q', p_is_null E e p = (p', Ok false) /\ p_is_null E e q = (q', Ok false) /\ top x p' q';
  tr_pop : forall x k p q, top (down x k) p q -> exists p' q', p_pop p = (p', Ok tt) /\ p_pop q = (q', Ok tt) /\ top x p' q'
}.
Hypothesis TR : tree.
Notation ph x := (top_phase (top x)).
Definition sdone (x : pos) (k : string) : phase := fun e p q => done x k e p q \/ top (down x k) p q.
Lemma sdone_str x k e p q : sdone x k e p q -> p_str E p = p_str E q.
Proof. intros [D|D]; [exact (al_str _ _ _ _ _ _ (tr_alike TR x) k e p q D)|exact (tr_str TR _ p q D)]. Qed.
Lemma sdone_pop x k e p q : sdone x k e p q -> exists p' q', p_pop p = (p', Ok tt) /\ p_pop q = (q', Ok tt) /\ top x p' q'.
Proof. intros [D|D]; [exact (al_pop _ _ _ _ _ _ (tr_alike TR x) k e p q D)|exact (tr_pop TR x k p q D)]. Qed.

(** Where a field of the position reads at a key of it *)
Definition spot {A} (pid : nat) (x : pos) (k : string) (m : M A) : Prop := exists sp dn : phase,
  (forall e p q, top x p q -> sp e (p_append (KStr k) p) (p_append (KStr k) q)) /\
  (forall e p q, sp e p q -> exists p' q', p_pop p = (p', Ok tt) /\ p_pop q = (q', Ok tt) /\ top x p' q') /\
  (forall e p q, dn e p q -> exists p' q', p_pop p = (p', Ok tt) /\ p_pop q = (q', Ok tt) /\ top x p' q') /\
  tw pid sp dn m.
Lemma resolve_keyed rec f o : calm keyed f o -> field_resolve W rec f = ret o.
Proof. intros SF. unfold field_resolve. rewrite (sf_resolve _ _ _ SF), (sf_src _ _ _ SF). pose proof (sf_kind _ _ _ SF) as K. destruct (f_kind f); try contradiction; reflexivity. Qed.
Lemma spot_field n pid x k f : calm keyed f (Some (KStr k)) -> spot pid x k (field_body W (field_map W n) f NONEv) -> tw pid (ph x) (ph x) (field_map W (S n) f NONEv).
Proof.
  intros SF (sp & dn & AP & _ & PO & H). change (field_map W (S n)) with (field_map_body W (field_map W n)). unfold field_map_body. apply tw_bind.
  - apply tw_frame; [reflexivity|reflexivity|]. unfold field__map. cbn [is_NONE NONEv]. rewrite (resolve_keyed _ f _ SF).
    apply (tw_enter_gen W pid (top x) k sp dn _ AP PO H).
  - intros v. apply tw_bind; [|intros; apply tw_ret]. destruct (_ && _); [|apply tw_ret]. destruct v; try apply tw_raise; [|apply tw_ret].
    cbn [set_parent]. apply tw_setattr. apply top_open.
Qed.
Lemma spot_value n pid x k f : calm keyed f None -> o_attach_parent (f_opts f) = false -> spot pid x k (field_body W (field_map W n) f NONEv) ->
  tw pid (ph x) (ph x) (map_at W (field_map W (S n)) (KStr k) f).
Proof.
  intros SF NA (sp & dn & AP & _ & PO & H). unfold map_at. apply (tw_enter_gen W pid (top x) k sp dn _ AP PO).
  change (field_map W (S n)) with (field_map_body W (field_map W n)). unfold field_map_body. rewrite NA. apply tw_bind.
  - apply tw_frame; [reflexivity|reflexivity|]. unfold field__map. cbn [is_NONE NONEv]. rewrite (resolve_keyed _ f _ SF). exact H.
  - intros v. apply tw_bind; intros; apply tw_ret.
Qed.
(** Out of fuel *)
Lemma spot_out pid x k f : spot pid x k (field_map W 0 f NONEv) -> tw pid (ph x) (ph x) (map_at W (field_map W 0) (KStr k) f).
Proof. intros (sp & dn & AP & _ & PO & H). exact (tw_enter_gen W pid (top x) k sp dn _ AP PO H). Qed.
Lemma spot_reads pid x k f : reads x k -> spot pid x k (field_map W 0 f NONEv).
Proof.
  intros RD. pose proof (tr_alike TR x) as AL. exists (started x k), (started x k). split; [intros e p q T; exact (al_append _ _ _ _ _ _ AL k e p q RD T)|].
  split; [exact (al_back _ _ _ _ _ _ AL k)|]. split; [exact (al_back _ _ _ _ _ _ AL k)|apply tw_raise].
Qed.
Lemma spot_subs pid x k f : subs x k -> spot pid x k (field_map W 0 f NONEv).
Proof.
  intros SU. exists (sstarted x k), (sstarted x k). split; [intros e p q TP; exact (tr_append TR x k e p q SU TP)|]. split; [exact (tr_back TR x k)|]. split; [exact (tr_back TR x k)|apply tw_raise].
Qed.
Lemma spot_once n pid x k f o : calm read_once f o -> reads x k -> spot pid x k (field_body W (field_map W n) f NONEv).
Proof.
  intros SF RD. pose proof (tr_alike TR x) as AL. exists (started x k), (done x k). split; [intros e p q T; exact (al_append _ _ _ _ _ _ AL k e p q RD T)|].
  split; [exact (al_back _ _ _ _ _ _ AL k)|]. split; [exact (al_pop _ _ _ _ _ _ AL k)|]. eapply tw_body; [exact AL|exact SF].
Qed.
Section Sub.
Variables (n pid : nat) (x : pos) (f : field) (k : string) (o : option key).
Hypothesis SF : calm keyed f o.
Hypothesis H : present x k -> tw pid (sfresh x k) (ph (down x k)) (parse_kind W (field_map W n) (f_kind f) pid).
Let STR := sdone_str x k.
Lemma tws_compute : tw pid (sstarted x k) (sdone x k) (field_compute W (field_map W n) f).
Proof.
  unfold field_compute. apply tw_curpath. rewrite (sf_parse _ _ _ SF). unfold path_exists.
  apply tw_opk with (mid := fun (b : bool) e p q => if b then sfresh x k e p q else done x k e p q); [intros e p q S; exact (tr_exists TR x k e p q S)|].
  intros b. destruct b; cbn [negb]; [|apply (tw_post pid (done x k) (done x k)); [intros e p q D; left; exact D|apply tw_ret]]. unfold path_is_null.
  apply tw_opk with (mid := fun (b : bool) e p q => b = false /\ sfresh x k e p q).
  { intros e p q F. destruct (tr_null TR x k e p q F) as (p' & q' & A & B & F'). exists p', q', false. auto. }
  intros [|].
  - intros s1 s2 T. destruct (tw_path _ _ _ _ T) as (p & q & _ & _ & X & _). discriminate.
  - apply tw_weak with (ph1 := sfresh x k); [intros e p q [_ F]; exact F|].
    apply tw_catch.
    { intros s1 s2 T. assert (PR : present x k) by (destruct (tw_path _ _ _ _ T) as (p & q & _ & _ & F); exact (tr_present TR _ _ _ _ _ F)). revert s1 s2 T.
      apply (tw_post pid (sfresh x k) (ph (down x k)) (sdone x k)); [intros e p q D; right; exact D|]. exact (H PR). } intros [v|e]; [apply tw_ret|].
    destruct (caught_by_compute e); [|apply tw_raise]. unfold invalid_error. apply tw_bind; [apply tw_report, STR|]. intros; apply tw_ret.
Qed.
Lemma tws_body : tw pid (sstarted x k) (sdone x k) (field_body W (field_map W n) f NONEv).
Proof.
  unfold field_body. cbn [is_NONE NONEv]. rewrite (sf_compute _ _ _ SF). apply tw_bind; [exact tws_compute|]. intros v. destruct (is_NONE v).
  - pose proof (sf_default _ _ _ SF) as D. assert (DF : tw pid (sdone x k) (sdone x k) (field_default W (field_map W n) f)) by (eapply tw_default; [exact STR|exact SF]).
    destruct (o_default (f_opts f)) as [[h|]|w|p] eqn:Q; try exact DF. apply tw_hook; [exact STR|]. now apply D.
  - destruct (ignored v); [apply tw_ret|]. eapply tw_after; [exact STR|exact SF].
Qed.
Lemma spot_sub : subs x k -> spot pid x k (field_body W (field_map W n) f NONEv).
Proof.
  intros SU. exists (sstarted x k), (sdone x k). split; [intros e p q TP; exact (tr_append TR x k e p q SU TP)|]. split; [exact (tr_back TR x k)|]. split; [exact (sdone_pop x k)|exact tws_body].
Qed.
End Sub.
Lemma calm_keyed (K : kind -> Prop) f o : (forall kd, K kd -> keyed kd) -> calm K f o -> calm keyed f o.
Proof. intros KK [S0 S1 S2 S3 S4 S5 S6 S7 S8 S9]. split; auto. Qed.
(** A form at a key *)
Lemma spot_form n pid x k f o t rs u : calm (eq (KSubForm t rs u)) f o -> subs x k ->
  (present x k -> (forall id, tw pid (ph (down x k)) (ph (down x k)) (form_unmapped (field_map W n) id u)) /\ forall g, In g (ft_fields t) -> tw pid (ph (down x k)) (ph (down x k)) (field_map W n g NONEv)) ->
  spot pid x k (field_body W (field_map W n) f NONEv).
Proof.
  intros SF SU H. apply (spot_sub n pid x f k o); [|intros PR; destruct (H PR) as [U F]; rewrite <- (sf_kind _ _ _ SF)|exact SU].
  - eapply calm_keyed; [|exact SF]. intros kd <-. exact I.
  - exact (tw_nested W pid n (sfresh x k) (top (down x k)) t rs u U (tr_open TR x k) (fun e p q F => tr_map TR x k e p q F) F).
Qed.
(** A [Dict] at a key *)
Lemma spot_dict n pid x k f o kf vf hook req mx : calm (eq (KDict kf vf hook req mx)) f o -> quiet_ohook hook -> calm read_once kf None -> subs x k ->
  (present x k -> exists ks, names (down x k) ks /\ forall k', In k' ks -> tw pid (ph (down x k)) (ph (down x k)) (map_at W (field_map W n) (KStr k') vf)) ->
  spot pid x k (field_body W (field_map W n) f NONEv).
Proof.
  intros SF HQ KF SU H. apply (spot_sub n pid x f k o); [|intros PR; destruct (H PR) as (ks & NM & V); rewrite <- (sf_kind _ _ _ SF)|exact SU].
  - eapply calm_keyed; [|exact SF]. intros kd <-. exact I.
  - cbn [parse_kind]. apply (tw_parse_dict W pid (top (down x k)) (tr_str TR (down x k)) ks); auto. intros e p q F. exact (tr_first TR x k ks e p q NM F).
Qed.

(** A flat form reads where it is. *)
Section Flat.
Variables (n pid : nat) (x : pos) (f : field) (t : formty) (rs : bool) (u : unm).
Hypothesis SF : calm (eq (KSubForm t rs u)) f None.
Hypothesis U : forall id, tw pid (ph x) (ph x) (form_unmapped (field_map W n) id u).
Hypothesis FL : flats x.
Hypothesis H : forall g, In g (ft_fields t) -> tw pid (ph x) (ph x) (field_map W n g NONEv).
Lemma top_str : forall (e : entries_of) p q, ph x e p q -> p_str E p = p_str E q.
Proof. intros e p q T. exact (tr_str TR x p q T). Qed.
Lemma twf_compute : tw pid (ph x) (ph x) (field_compute W (field_map W n) f).
Proof.
  unfold field_compute. apply tw_curpath. rewrite (sf_parse _ _ _ SF). unfold path_exists.
  apply tw_opk with (mid := fun (b : bool) e p q => b = true /\ ph x e p q).
  { intros e p q T. destruct (tr_here TR x e p q T) as (p' & q' & A & B & T'). exists p', q', true. auto. }
  intros [|]; [|intros s1 s2 T; destruct (tw_path _ _ _ _ T) as (p & q & _ & _ & X & _); discriminate]. cbn [negb].
  apply tw_weak with (ph1 := ph x); [intros e p q [_ F]; exact F|]. unfold path_is_null.
  apply tw_opk with (mid := fun (b : bool) e p q => b = false /\ ph x e p q).
  { intros e p q T. destruct (tr_thing TR x e p q FL T) as (p' & q' & A & B & T'). exists p', q', false. auto. }
  intros [|]; [intros s1 s2 T; destruct (tw_path _ _ _ _ T) as (p & q & _ & _ & X & _); discriminate|].
  apply tw_weak with (ph1 := ph x); [intros e p q [_ F]; exact F|].
  apply tw_catch.
  { rewrite <- (sf_kind _ _ _ SF). apply (tw_nested W pid n (ph x) (top x) t rs u U (top_open _)); [|exact H]. intros e p q T. exact (al_mapping _ _ _ _ _ _ (tr_alike TR x) e p q T). }
  intros [v|e]; [apply tw_ret|]. destruct (caught_by_compute e); [|apply tw_raise]. unfold invalid_error. apply tw_bind; [apply tw_report, top_str|]. intros; apply tw_ret.
Qed.
Lemma twf_body : tw pid (ph x) (ph x) (field_body W (field_map W n) f NONEv).
Proof.
  unfold field_body. cbn [is_NONE NONEv]. rewrite (sf_compute _ _ _ SF). apply tw_bind; [exact twf_compute|]. intros v. destruct (is_NONE v).
  - pose proof (sf_default _ _ _ SF) as D. assert (DF : tw pid (ph x) (ph x) (field_default W (field_map W n) f)) by (eapply tw_default; [exact top_str|exact SF]).
    destruct (o_default (f_opts f)) as [[h|]|w|p] eqn:Q; try exact DF. apply tw_hook; [exact top_str|]. now apply D.
  - destruct (ignored v); [apply tw_ret|]. eapply tw_after; [exact top_str|exact SF].
Qed.
Lemma twf_field : tw pid (ph x) (ph x) (field_map W (S n) f NONEv).
Proof.
  change (field_map W (S n)) with (field_map_body W (field_map W n)). unfold field_map_body. apply tw_bind.
  - apply tw_frame; [reflexivity|reflexivity|]. unfold field__map. cbn [is_NONE NONEv].
    assert (R : field_resolve W (field_map W n) f = ret None).
    { unfold field_resolve. rewrite (sf_resolve _ _ _ SF), (sf_src _ _ _ SF), <- (sf_kind _ _ _ SF). reflexivity. }
    rewrite R. exact twf_body.
  - intros v. apply tw_bind; [|intros; apply tw_ret]. destruct (_ && _); [|apply tw_ret]. destruct v; try apply tw_raise; [|apply tw_ret].
    cbn [set_parent]. apply tw_setattr. apply top_open.
Qed.
End Flat.

(** A [Dict] that reads where it is, and the keys no field has read *)
Lemma twd_field n pid x f kf vf hook req mx ks : calm (eq (KDict kf vf hook req mx)) f None -> quiet_ohook hook -> calm read_once kf None -> flats x -> names x ks ->
  (forall k, In k ks -> tw pid (ph x) (ph x) (map_at W (field_map W n) (KStr k) vf)) -> tw pid (ph x) (ph x) (field_map W (S n) f NONEv).
Proof.
  intros SF HQ KF FL NM V. change (field_map W (S n)) with (field_map_body W (field_map W n)). unfold field_map_body. apply tw_bind.
  - apply tw_frame; [reflexivity|reflexivity|]. unfold field__map. cbn [is_NONE NONEv]. rewrite (resolve_keyed _ f None); [|eapply calm_keyed; [|exact SF]; intros kd <-; exact I].
    change (bind (ret None) ?f) with (f (@None key)). cbv beta iota.
    apply (tw_here W pid (top x) (tr_str TR x) ks (fun e p q T => tr_here TR x e p q T) (fun e p q T => tr_thing TR x e p q FL T) (fun e p q T => tr_names TR x ks e p q NM T) n f hook kf vf req mx); auto; [symmetry; exact (sf_kind _ _ _ SF)|eapply calm_any, SF].
  - intros v. apply tw_bind; [|intros; apply tw_ret]. destruct (_ && _); [|apply tw_ret]. destruct v; try apply tw_raise; [|apply tw_ret].
    cbn [set_parent]. apply tw_setattr. apply top_open.
Qed.
Lemma tw_rest n pid x id kf vf ks : calm read_once kf None -> flats x -> names x ks -> (forall m, n = S m -> forall k, In k ks -> tw pid (ph x) (ph x) (map_at W (field_map W m) (KStr k) vf)) ->
  tw pid (ph x) (ph x) (form_unmapped (field_map W n) id (UPair kf vf)).
Proof.
  intros KF FL NM V. apply (tw_unmapped W pid (top x) (tr_str TR x) ks (fun e p q T => tr_here TR x e p q T) (fun e p q T => tr_thing TR x e p q FL T) (fun e p q T => tr_names TR x ks e p q NM T)); auto.
Qed.
End Tree.
