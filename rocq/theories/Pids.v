(** * Pids: when errors are collected, which path they are about makes no difference to the
    evaluation, except in the errors. *)
From Verif Require Import PyBase PyStr Source Field Context Fields SpecSrc Eval.

Definition r_moved (r : rd) (p : nat) : rd :=
  Rd (r_src r) p (r_mode r) (r_igd r) (r_igm r) (r_tags r) (r_form r) (r_field r) (r_keys r) (r_val r).
(** The same outcome and forms, and the same errors up to the path. *)
Definition par {A} (e e' : Ev A) : Prop := forall es es' h, map untied es = map untied es' ->
  fst (e (es, h)) = fst (e' (es', h)) /\
  map untied (fst (snd (e (es, h)))) = map untied (fst (snd (e' (es', h)))) /\
  snd (snd (e (es, h))) = snd (snd (e' (es', h))).
Lemma par_ret {A} (a : A) : par (eret a) (eret a).
Proof. intros es es' h H. cbn. auto. Qed.
Lemma par_raise {A} e : par (@eraise A e) (eraise e).
Proof. intros es es' h H. cbn. auto. Qed.
Lemma par_lift {A} (x : res A) : par (elift x) (elift x).
Proof. intros es es' h H. cbn. auto. Qed.
Lemma par_bind {A B} (e e' : Ev A) (k k' : A -> Ev B) : par e e' -> (forall a, par (k a) (k' a)) -> par (ebind e k) (ebind e' k').
Proof.
  intros H K es es' h Q. unfold ebind. destruct (H es es' h Q) as (E1 & E2 & E3).
  destruct (e (es, h)) as [x [es1 h1]]. destruct (e' (es', h)) as [x' [es1' h1']]. cbn [fst snd] in *. subst x' h1'.
  destruct x as [a|x]; [|cbn; auto]. now apply K.
Qed.
Lemma par_catch {A B} (e e' : Ev A) (k k' : res A -> Ev B) : par e e' -> (forall a, par (k a) (k' a)) -> par (ecatch e k) (ecatch e' k').
Proof.
  intros H K es es' h Q. unfold ecatch. destruct (H es es' h Q) as (E1 & E2 & E3).
  destruct (e (es, h)) as [x [es1 h1]]. destruct (e' (es', h)) as [x' [es1' h1']]. cbn [fst snd] in *. subst x' h1'. now apply K.
Qed.
Lemma par_if {A} (b : bool) (x x' y y' : Ev A) : par x x' -> par y y' -> par (if b then x else y) (if b then x' else y').
Proof. destruct b; auto. Qed.
(** steps that look at the forms only *)
Lemma par_blind {A} (e : Ev A) : (forall es es' h, fst (e (es, h)) = fst (e (es', h)) /\ snd (snd (e (es, h))) = snd (snd (e (es', h))) /\ fst (snd (e (es, h))) = es) -> par e e.
Proof. intros H es es' h Q. destruct (H es es' h) as (A1 & A2 & A3). destruct (H es' es h) as (_ & _ & B3). rewrite A3, B3. auto. Qed.
Lemma par_entries id : par (ev_entries id) (ev_entries id).
Proof. apply par_blind. intros. cbn. auto. Qed.
Lemma par_type id : par (ev_type id) (ev_type id).
Proof. apply par_blind. intros. cbn. auto. Qed.
Lemma par_set_entries id l : par (ev_set_entries id l) (ev_set_entries id l).
Proof. apply par_blind. intros. unfold ev_set_entries. cbn. destruct (nth_error h id) as [[]|]; cbn; auto. Qed.
Lemma par_new t : par (ev_new t) (ev_new t).
Proof. apply par_blind. intros. cbn. auto. Qed.
Lemma par_set id k v : par (ev_set id k v) (ev_set id k v).
Proof. apply par_bind; [apply par_entries|intros; apply par_set_entries]. Qed.
Lemma par_del f id : par (ev_del f id) (ev_del f id).
Proof. apply par_bind; [apply par_entries|intros]. apply par_if; [apply par_set_entries|apply par_ret]. Qed.
Lemma par_setattr id a v : par (ev_setattr id a v) (ev_setattr id a v).
Proof. apply par_bind; [apply par_type|intros]. destruct (find_field a a0); [apply par_set|apply par_ret]. Qed.
Lemma par_delattr id a : par (ev_delattr id a) (ev_delattr id a).
Proof. apply par_bind; [apply par_type|intros]. destruct (find_field a a0); [apply par_del|apply par_raise]. Qed.
Lemma par_item id k : par (ev_item id k) (ev_item id k).
Proof. apply par_if; [|apply par_raise]. apply par_bind; [apply par_entries|intros]. destruct (dict_get a k); [apply par_ret|apply par_raise]. Qed.
Lemma par_parent v : par (ev_parent v) (ev_parent v).
Proof. destruct v; try apply par_raise; [apply par_setattr|apply par_ret]. Qed.
Lemma par_reset id tags fs : par (ev_reset id tags fs) (ev_reset id tags fs).
Proof. induction fs as [|f fs IH]; cbn [ev_reset]; [apply par_ret|]. apply par_bind; [apply par_if; [apply par_del|apply par_ret]|auto]. Qed.

Section Par.
Variable W : world.
Variable p : nat.
Local Notation mv := (fun r => r_moved r p).
Lemma par_report r kd : r_mode r = Collect -> par (ev_report W r kd) (ev_report W (r_moved r p) kd).
Proof.
  intros C es es' h Q. unfold ev_report, r_moved. cbn [r_field r_src r_keys r_pid r_mode]. rewrite C.
  destruct (r_field r); cbn; [|auto]. destruct (pkeys_str _ _ _); cbn; [|auto]. rewrite !map_app, Q. cbn. auto.
Qed.
Lemma par_invalid r x : r_mode r = Collect -> par (ev_invalid W r x) (ev_invalid W (r_moved r p) x).
Proof. intros C. apply par_bind; [now apply par_report|intros; apply par_ret]. Qed.
Lemma par_missing r : r_mode r = Collect -> par (ev_missing W r) (ev_missing W (r_moved r p)).
Proof. intros C. apply par_bind; [apply par_if; [apply par_ret|now apply par_report]|intros; apply par_ret]. Qed.
Lemma par_pathop r op : par (ev_pathop W r op) (ev_pathop W (r_moved r p) op).
Proof. destruct op; cbn [ev_pathop]; repeat (apply par_bind; [|intros]); first [apply par_lift|apply par_ret]. Qed.
Lemma par_unit e e' : par e e' -> par (ev_unit e) (ev_unit e').
Proof. intros H. apply par_bind; [exact H|intros; apply par_ret]. Qed.
Lemma par_prog r q : r_mode r = Collect -> par (ev_prog W r q) (ev_prog W (r_moved r p) q).
Proof.
  intros C. induction q; cbn [ev_prog]; try apply par_ret; try apply par_raise; apply par_catch; auto;
    first [apply par_lift|apply par_unit, par_setattr|apply par_unit, par_delattr|apply par_item|apply par_pathop|now apply par_unit, par_report].
Qed.
Lemma par_hook r h args : r_mode r = Collect -> par (ev_hook W r h args) (ev_hook W (r_moved r p) h args).
Proof. intros C. apply par_bind; [apply par_if; [apply par_ret|apply par_lift]|intros; now apply par_prog]. Qed.
Lemma par_default r f : r_mode r = Collect -> par (ev_default W r f) (ev_default W (r_moved r p) f).
Proof.
  intros C. unfold ev_default. apply par_if; [now apply par_missing|]. destruct (o_default (f_opts f)) as [[h|]|v|q]; [now apply par_hook|now apply par_missing| |now apply par_prog].
  destruct v; try apply par_ret. destruct c; try apply par_ret. now apply par_missing.
Qed.
Lemma par_validate r f v : r_mode r = Collect -> par (ev_validate W r f v) (ev_validate W (r_moved r p) f v).
Proof.
  intros C es es' h Q. unfold ev_validate. cbn [snd]. destruct (field_violation (w_env W) (hents h) f v) as [[x|]|e]; [|cbn; auto|cbn; auto].
  apply (par_bind _ _ (fun _ => eret false) (fun _ => eret false) (par_report r (Invalid x) C)); [intros; apply par_ret|exact Q].
Qed.
Lemma par_hook_or {A} r o args (d : A) g : r_mode r = Collect -> par (ev_hook_or W r o args d g) (ev_hook_or W (r_moved r p) o args d g).
Proof. intros C. destruct o; cbn [ev_hook_or]; [|apply par_ret]. apply par_bind; [now apply par_hook|intros; apply par_ret]. Qed.
Lemma par_translate f v : par (ev_translate f v) (ev_translate f v).
Proof. unfold ev_translate. destruct (o_translations (f_opts f)); [apply par_ret|]. apply par_if; [apply par_ret|apply par_raise]. Qed.
Lemma par_after r f v : r_mode r = Collect -> par (ev_after W r f v) (ev_after W (r_moved r p) f v).
Proof.
  intros C. unfold ev_after. apply par_bind; [apply par_translate|intros v1]. apply par_bind; [apply par_if; [apply par_ret|now apply par_hook_or]|intros v2].
  apply par_if; [now apply par_default|]. apply par_if; [apply par_ret|]. apply par_if; [now apply par_default|].
  apply par_bind; [now apply par_hook_or|intros b]. apply par_if; [now apply par_default|].
  apply par_bind; [now apply par_validate|intros b2]. apply par_if; [apply par_ret|].
  apply par_bind; [now apply par_hook_or|intros b3]. apply par_ret.
Qed.

Variable rec : rd -> field -> val -> Ev val.
Hypothesis REC : forall r f v, r_mode r = Collect -> par (rec r f v) (rec (r_moved r p) f v).
Lemma par_fields r id tags fs : r_mode r = Collect -> par (ev_fields rec r id tags fs) (ev_fields rec (r_moved r p) id tags fs).
Proof.
  intros C. induction fs as [|f fs IH]; cbn [ev_fields]; [apply par_ret|]. apply par_bind; [|auto].
  apply par_if; [|apply par_ret]. apply par_bind; [now apply REC|intros v]. apply par_if; [apply par_ret|apply par_set].
Qed.
Lemma par_unmapped r id u : r_mode r = Collect -> par (ev_unmapped rec r id u) (ev_unmapped rec (r_moved r p) id u).
Proof.
  intros C. destruct u; cbn [ev_unmapped]; try apply par_ret; try apply par_raise; (apply par_bind; [now apply REC|intros; apply par_ret]).
Qed.
Lemma par_form_map r id tags u : r_mode r = Collect -> par (ev_form_map W rec r id tags u) (ev_form_map W rec (r_moved r p) id tags u).
Proof.
  intros C. unfold ev_form_map. apply par_bind; [apply par_lift|intros _]. apply par_bind; [apply par_type|intros t].
  apply par_bind; [exact (par_fields (r_inform r id) id tags (ft_fields t) C)|intros _]. apply par_bind; [now apply par_unmapped|intros o].
  destruct o as [v|]; [|apply par_ret]. destruct v; try apply par_raise; try apply par_ret.
  apply par_bind; [apply par_entries|intros; apply par_set_entries].
Qed.
Lemma par_form r t rs u : r_mode r = Collect -> par (ev_form W rec r t rs u) (ev_form W rec (r_moved r p) t rs u).
Proof.
  intros C. unfold ev_form. apply par_bind; [apply par_new|intros id]. apply par_bind; [apply par_if; [apply par_reset|apply par_ret]|intros _].
  intros es es' h Q. unfold ebind, ev_sub.
  destruct (par_form_map (r_collecting r Collect) id (r_tags r) u eq_refl [] [] h eq_refl) as (E1 & E2 & E3).
  change (r_tags (r_moved r p)) with (r_tags r). change (r_collecting (r_moved r p) Collect) with (r_moved (r_collecting r Collect) p).
  destruct (ev_form_map W rec (r_collecting r Collect) id (r_tags r) u ([], h)) as [x [es1 h1]].
  destruct (ev_form_map W rec (r_moved (r_collecting r Collect) p) id (r_tags r) u ([], h)) as [x' [es1' h1']]. cbn [fst snd] in *. subst x' h1'.
  destruct x as [x|x]; cbn; [|auto]. rewrite !map_app, Q, E2. split; [|auto]. destruct es1, es1'; try discriminate; reflexivity.
Qed.
Lemma par_at r k f v : r_mode r = Collect -> par (rec (r_at W r k) f v) (rec (r_at W (r_moved r p) k) f v).
Proof. intros C. exact (REC (r_at W r k) f v C). Qed.
Lemma par_tuple r : r_mode r = Collect -> forall fs i acc, par (ev_tuple W rec r i fs acc) (ev_tuple W rec (r_moved r p) i fs acc).
Proof. intros C. induction fs as [|f fs IH]; intros i acc; cbn [ev_tuple]; [apply par_ret|]. apply par_bind; [now apply par_at|intros; apply IH]. Qed.
Lemma par_list r f : r_mode r = Collect -> forall n i acc, par (ev_list W rec r i n f acc) (ev_list W rec (r_moved r p) i n f acc).
Proof. intros C. induction n as [|n IH]; intros i acc; cbn [ev_list]; [apply par_ret|]. apply par_bind; [now apply par_at|intros; apply IH]. Qed.
Lemma par_dict r keyf kf vf : r_mode r = Collect -> forall l acc, par (ev_dict W rec r keyf kf vf l acc) (ev_dict W rec (r_moved r p) keyf kf vf l acc).
Proof.
  intros C. induction l as [|k l IH]; intros acc; cbn [ev_dict]; [apply par_ret|]. apply par_bind; [now apply par_hook_or|intros b]. apply par_if; [apply IH|].
  apply par_bind; [now apply par_at|intros v]. apply par_if; [apply IH|]. apply par_bind; [now apply REC|intros k']. apply par_if; [apply IH|].
  apply par_if; [apply IH|apply par_raise].
Qed.
Lemma par_group r g : r_mode r = Collect -> forall l n acc, par (ev_group W rec r g l n acc) (ev_group W rec (r_moved r p) g l n acc).
Proof.
  intros C. induction l as [|k l IH]; intros n acc; cbn [ev_group]; [apply par_ret|]. apply par_bind; [apply par_lift|intros [[f c]|]; [|apply IH]].
  apply par_bind; [now apply par_at|intros; apply IH].
Qed.
Lemma par_probe r probe tf v : par (ev_probe W rec r probe tf v) (ev_probe W rec (r_moved r p) probe tf v).
Proof.
  apply (par_blind (ev_probe W rec r probe tf v)). intros es es' h. unfold ev_probe.
  destruct v; cbn [fst snd]; auto.
  destruct (ev_form_map W rec (r_probe r (VDict l)) (length h) (r_tags r) UIgnore ([], h ++ [(probe, [])])) as [[x|x] [[|e es1] h1]]; cbn; auto.
Qed.
Lemma par_poly r probe tf table rs u : r_mode r = Collect ->
  par (ev_poly W rec r probe tf table rs u) (ev_poly W rec (r_moved r p) probe tf table rs u).
Proof.
  intros C. unfold ev_poly. apply par_bind; [apply par_lift|intros v]. apply par_catch; [apply par_probe|]. intros [i|e].
  - apply par_if; [apply par_ret|]. apply par_if; [apply par_raise|].
    destruct (dict_get _ i) as [w|]; [|now apply par_invalid]. destruct w; try now apply par_invalid.
    destruct (w_class W s); [now apply par_form|apply par_raise].
  - apply par_if; [now apply par_invalid|apply par_raise].
Qed.
Lemma par_need v : par (ev_need_str v) (ev_need_str v).
Proof. destruct v; try apply par_raise. apply par_ret. Qed.
Ltac leaf := first [apply par_ret|apply par_raise|apply par_lift|apply par_need|now apply par_invalid].
Lemma par_parse r k : r_mode r = Collect -> par (ev_parse W rec r k) (ev_parse W rec (r_moved r p) k).
Proof.
  intros C.
  destruct k as [|c|lo hi|lo hi|lo hi| |formats lo hi|format lo hi|format lo hi|fs|f lo hi allow|kf vf keyf rq mx| | |t rs u|p1 p2 p3 p4 p5|l]; cbn [ev_parse]; try apply par_lift.
  - unfold ev_decimal. apply par_bind; [leaf|intros w].
    destruct w; try leaf; (destruct (dec_of_number _); [leaf|]; apply par_bind; [leaf|]; intros w2; destruct w2; try leaf;
      match goal with |- context [match ?o with Some _ => _ | None => _ end] => destruct o end; leaf).
  - unfold ev_date. apply par_bind; [leaf|intros w]. destruct w; try leaf; (apply par_bind; [leaf|intros w2]; destruct formats; [leaf|]; apply par_bind; [leaf|intros; leaf]).
  - unfold ev_time. apply par_bind; [leaf|intros w]. destruct w; try leaf;
      (apply par_bind; [leaf|intros w2]; destruct format; [|leaf]; apply par_bind; [leaf|intros t0]; destruct (e_strptime_time _ _ _); leaf).
  - unfold ev_datetime. apply par_bind; [leaf|intros w]. destruct w; try leaf;
      (apply par_bind; [leaf|intros w2]; destruct format; [|leaf]; apply par_bind; [leaf|intros t0]; apply par_if; [destruct (e_iso _ _)|destruct (e_strp _ _ _)]; leaf).
  - apply par_bind; [leaf|intros n]. apply par_if; [|leaf]. apply par_bind; [now apply par_tuple|intros; leaf].
  - apply par_catch; [leaf|]. intros [n|e]; [apply par_bind; [now apply par_list|intros; leaf]|]. destruct e; try leaf. apply par_if; [|leaf].
    apply par_bind; [now apply REC|intros; leaf].
  - apply par_bind; [leaf|intros vw]. apply par_bind; [leaf|intros l]. apply par_bind; [now apply par_dict|intros; leaf].
  - unfold ev_code. apply par_bind; [leaf|intros w]. destruct w; try leaf. apply par_if; [destruct (e_compile _ s)|destruct (e_import _ s) as [[]|]]; leaf.
  - unfold ev_uuid.
    assert (X : par (w <~ ev_primitive W r TyStr; match w with VStr s => match e_uuid (w_env W) s with Some u => eret u | None => eraise (EValue "badly formed hexadecimal UUID string") end | _ => eraise (EAttr "no attribute 'replace'") end)
       (w <~ ev_primitive W (r_moved r p) TyStr; match w with VStr s => match e_uuid (w_env W) s with Some u => eret u | None => eraise (EValue "badly formed hexadecimal UUID string") end | _ => eraise (EAttr "no attribute 'replace'") end)).
    { apply par_bind; [leaf|intros w]. destruct w; try leaf. destruct (e_uuid _ s); leaf. }
    apply par_bind; [leaf|intros w]. destruct w; try exact X. apply par_if; [leaf|exact X].
  - now apply par_form.
  - now apply par_poly.
  - apply par_bind; [leaf|intros vw]. apply par_bind; [leaf|intros ks]. now apply par_group.
Qed.
Lemma par_compute r f : r_mode r = Collect -> par (ev_compute W rec r f) (ev_compute W rec (r_moved r p) f).
Proof.
  intros C. unfold ev_compute. apply par_bind; [leaf|intros b]. apply par_if; [leaf|]. apply par_bind; [leaf|intros n]. apply par_if; [leaf|].
  apply par_catch; [destruct (o_parse (f_opts f)); [now apply par_hook|now apply par_parse]|]. intros [v|e]; [leaf|]. apply par_if; leaf.
Qed.
Lemma par_body r f v : r_mode r = Collect -> par (ev_body W rec r f v) (ev_body W rec (r_moved r p) f v).
Proof.
  intros C. unfold ev_body. apply par_if; [|now apply par_after]. apply par_bind; [destruct (o_compute (f_opts f)); [now apply par_hook|now apply par_compute]|intros w].
  apply par_if.
  - destruct (o_default (f_opts f)) as [[h|]|x|q]; [now apply par_hook|now apply par_default|now apply par_default|now apply par_default].
  - apply par_if; [leaf|now apply par_after].
Qed.
Lemma par_field_body r f v : r_mode r = Collect -> par (ev_field_body W rec r f v) (ev_field_body W rec (r_moved r p) f v).
Proof.
  intros C. unfold ev_field_body. apply par_bind.
  - apply par_if; [|leaf]. unfold ev_where. destruct (o_resolve (f_opts f)); [|leaf]. apply par_bind; [exact (par_hook (r_for r f) h [] C)|intros; leaf].
  - intros k. apply par_bind; [destruct k as [k|]; [exact (par_body (r_at W (r_for r f) k) f v C)|exact (par_body (r_for r f) f v C)]|].
    intros w. apply par_bind; [apply par_if; [apply par_parent|leaf]|intros; leaf].
Qed.
End Par.
Lemma par_field W p fuel : forall r f v, r_mode r = Collect -> par (ev_field W fuel r f v) (ev_field W fuel (r_moved r p) f v).
Proof. induction fuel as [|n IH]; intros r f v C; cbn [ev_field]; [apply par_raise|]. now apply par_field_body. Qed.
