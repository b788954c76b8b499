(** * OthersProofs: mapping a form changes that form and the forms it makes, and no others (C110). *)
From Coq Require Import List Lia.
From Verif Require Import PyBase PyStr Source Field Context Fields SpecSrc SpecField SpecForm SpecOthers Eval Refine Regime CfgRegime Balance OrderProofs HooksProofs.

Lemma no_parent_found t : no_parent t -> find_field "parent" t = None.
Proof.
  unfold no_parent, find_field. induction (ft_fields t) as [|f fs IH]; intros N; [reflexivity|]. cbn [find].
  destruct (name_is "parent" f) eqn:Q; [|apply IH; intros g I; apply N; now right].
  exfalso. apply (N f); [now left|]. revert Q. unfold name_is, fname. destruct (f_name f); [|discriminate]. intros Q. now apply String.eqb_eq in Q.
Qed.

Section Others.
Variables (W : world) (h0 : heap) (K : nat -> Prop).
Hypothesis K0 : forall j, K j -> exists t x, nth_error h0 j = Some (t, x) /\ find_field "parent" t = None.
Definition kept (h : heap) : Prop := forall j, K j -> nth_error h j = nth_error h0 j.
Definition keeps {A} (m : Ev A) : Prop := forall es h, kept h -> kept (snd (snd (m (es, h)))).
Definition stays {A} (m : Ev A) : Prop := forall es h, snd (snd (m (es, h))) = h.
Lemma stay {A} (m : Ev A) : stays m -> keeps m.
Proof. intros S es h H. now rewrite S. Qed.
Lemma k_ret {A} (a : A) : keeps (eret a).
Proof. now intros es h H. Qed.
Lemma k_raise {A} e : keeps (eraise e : Ev A).
Proof. now intros es h H. Qed.
Lemma k_lift {A} (x : res A) : keeps (elift x).
Proof. now intros es h H. Qed.
Lemma k_bind {A B} (m : Ev A) (k : A -> Ev B) : keeps m -> (forall a, keeps (k a)) -> keeps (ebind m k).
Proof.
  intros M N es h H. specialize (M es h H). unfold ebind. destruct (m (es, h)) as [[a|e] [e1 h1]]; cbn in M |- *; [apply N|]; exact M.
Qed.
Lemma k_catch {A B} (m : Ev A) (k : res A -> Ev B) : keeps m -> (forall a, keeps (k a)) -> keeps (ecatch m k).
Proof. intros M N es h H. specialize (M es h H). unfold ecatch. destruct (m (es, h)) as [x [e1 h1]]; cbn in M |- *. apply N. exact M. Qed.
Lemma k_report r k : keeps (ev_report W r k).
Proof. apply stay. intros es h. unfold ev_report. destruct (r_field r); [destruct (pkeys_str _ _ _)|]; reflexivity. Qed.
Lemma k_invalid r x : keeps (ev_invalid W r x).
Proof. apply k_bind; [apply k_report|]. intros _. apply k_ret. Qed.
Lemma k_missing r : keeps (ev_missing W r).
Proof. apply k_bind; [|intros _; apply k_ret]. destruct (r_igm r); [apply k_ret|apply k_report]. Qed.
Lemma k_entries id : keeps (ev_entries id).
Proof. now intros es h H. Qed.
Lemma k_type id : keeps (ev_type id).
Proof. now intros es h H. Qed.
Lemma k_item id k : keeps (ev_item id k).
Proof. unfold ev_item. destruct (hashable k); [|apply k_raise]. apply k_bind; [apply k_entries|]. intros x. destruct (dict_get x k); [apply k_ret|apply k_raise]. Qed.
Lemma k_put id x : ~ K id -> keeps (ev_set_entries id x).
Proof.
  intros N es h H. unfold ev_set_entries. cbn [fst snd]. destruct (nth_error h id) as [[t y]|]; [|exact H].
  cbn. intros j J. rewrite nth_replace_neq; [exact (H j J)|]. intros ->. exact (N J).
Qed.
Lemma k_set id k v : ~ K id -> keeps (ev_set id k v).
Proof. intros N. apply k_bind; [apply k_entries|]. intros x. now apply k_put. Qed.
Lemma k_del f id : ~ K id -> keeps (ev_del f id).
Proof. intros N. apply k_bind; [apply k_entries|]. intros x. destruct (dict_has _ _); [now apply k_put|apply k_ret]. Qed.
Lemma k_reset id tags : ~ K id -> forall fs, keeps (ev_reset id tags fs).
Proof.
  intros N. induction fs as [|f fs IH]; cbn [ev_reset]; [apply k_ret|]. apply k_bind; [|intros _; exact IH].
  destruct (selected tags f); [now apply k_del|apply k_ret].
Qed.
Lemma k_val r : keeps (ev_value r).
Proof. apply k_lift. Qed.
Lemma k_prim r t : keeps (ev_primitive W r t).
Proof. apply k_lift. Qed.
Lemma k_seq r : keeps (ev_sequence W r).
Proof. apply k_lift. Qed.
Lemma k_map r : keeps (ev_mapping W r).
Proof. apply k_lift. Qed.
Lemma k_op r op : keeps (ev_pathop W r op).
Proof.
  destruct op; cbn [ev_pathop]; repeat (apply k_bind; [apply k_lift|intro]); try apply k_ret; apply k_lift.
Qed.
(** attach_parent sets [parent] of a form that has a field of that name. *)
Lemma k_parent v : keeps (ev_parent v).
Proof.
  destruct v; try apply k_raise; [|apply k_ret]. intros es h H. unfold ev_parent, ev_setattr, ebind at 1, ev_type. cbn [snd].
  destruct (find_field "parent" _) as [f|] eqn:F; [|exact H]. apply k_set; [|exact H]. intros J.
  destruct (K0 _ J) as (t & x & Q & N). rewrite (H _ J), Q in F. congruence.
Qed.

(** ** Hooks *)
Lemma k_prog r : forall p, reading_prog p -> keeps (ev_prog W r p).
Proof.
  fix IH 1. intros p. destruct p; cbn [reading_prog]; try (intros []; fail); intros Q; cbn [ev_prog]; try apply k_ret; try apply k_raise;
    (apply k_catch; [|intros x; apply IH, Q]).
  - apply k_lift.
  - apply k_item.
  - apply k_op.
  - apply k_bind; [apply k_report|]. intros _. apply k_ret.
  - apply k_bind; [apply k_report|]. intros _. apply k_ret.
Qed.
Notation rhook := (hooked_hook reading_prog).
Lemma k_hook r o h args : rhook o -> o = Some h -> keeps (ev_hook W r h args).
Proof. intros O Q. apply k_bind; [destruct (hk_attached h); [apply k_ret|apply k_lift]|]. intros t. apply k_prog. exact (O h Q t args). Qed.
Lemma k_hook_or {T} r o args (x : T) g : rhook o -> keeps (ev_hook_or W r o args x g).
Proof.
  intros O. destruct o as [h|] eqn:Q; cbn [ev_hook_or]; [|apply k_ret]. apply k_bind; [eapply k_hook; [exact O|reflexivity]|]. intros v. apply k_ret.
Qed.
Lemma k_default r f : hooked_opts reading_prog (f_opts f) -> keeps (ev_default W r f).
Proof.
  intros H. unfold ev_default. destruct (r_igd r); [apply k_missing|].
  pose proof (ho_default _ H) as D. destruct (o_default (f_opts f)) as [[h|]|v|p].
  - eapply k_hook; [exact D|reflexivity].
  - apply k_missing.
  - destruct v as [| | | | | | | | | | | | | |[]| | | | |]; try (now apply k_ret). apply k_missing.
  - now apply k_prog.
Qed.
Lemma k_validate r f v : keeps (ev_validate W r f v).
Proof.
  intros es h H. unfold ev_validate. cbn [snd]. destruct (field_violation _ _ f v) as [[x|]|e]; try exact H.
  assert (B : keeps (ev_report W r (Invalid x);;; eret false)) by (apply k_bind; [apply k_report|intros _; apply k_ret]). exact (B es h H).
Qed.
Lemma k_after r f v : hooked_opts reading_prog (f_opts f) -> keeps (ev_after W r f v).
Proof.
  intros H. unfold ev_after. apply k_bind.
  { unfold ev_translate. destruct (o_translations (f_opts f)); [apply k_ret|]. destruct (hashable v); [apply k_ret|apply k_raise]. }
  intros w. apply k_bind; [destruct (ignored w); [apply k_ret|apply k_hook_or, (ho_munge _ H)]|]. intros x.
  destruct (is_NONE x); [now apply k_default|]. destruct (ignored x); [apply k_ret|].
  destruct (negb (field_filter f x)); [now apply k_default|].
  apply k_bind; [apply k_hook_or, (ho_filter _ H)|]. intros b. destruct b; cbn [negb]; [|now apply k_default].
  apply k_bind; [apply k_validate|]. intros b. destruct b; cbn [negb]; [|apply k_ret].
  apply k_bind; [apply k_hook_or, (ho_validate _ H)|]. intros b. apply k_ret.
Qed.

(** ** Parsing *)
Ltac walk := repeat (first [apply k_ret | apply k_raise | apply k_invalid | apply k_val | apply k_prim
  | match goal with |- keeps (match ?x with _ => _ end) => destruct x end | apply k_bind; [|intro] ]).
Lemma k_decimal r : keeps (ev_decimal W r).
Proof. unfold ev_decimal. walk. Qed.
Lemma k_date r fmts : keeps (ev_date W r fmts).
Proof. unfold ev_date, ev_need_str. walk. Qed.
Lemma k_time r fmt : keeps (ev_time W r fmt).
Proof. unfold ev_time, ev_need_str. walk. Qed.
Lemma k_datetime r fmt : keeps (ev_datetime W r fmt).
Proof. unfold ev_datetime, ev_need_str. walk. Qed.
Lemma k_code r : keeps (ev_code W r).
Proof. unfold ev_code. walk. Qed.
Lemma k_uuid r : keeps (ev_uuid W r).
Proof. unfold ev_uuid. cbv zeta. walk. Qed.

Section Rec.
Variable rec : rd -> field -> val -> Ev val.
Notation rfield := (hooked reading_prog).
Hypothesis REC : forall r f v, rfield f -> keeps (rec r f v).
Lemma k_list r f : rfield f -> forall n i acc, keeps (ev_list W rec r i n f acc).
Proof. intros O. induction n as [|n IH]; intros i acc; cbn [ev_list]; [apply k_ret|]. apply k_bind; [now apply REC|]. intros v. apply IH. Qed.
Lemma k_tuple r : forall fs i acc, (forall f, In f fs -> rfield f) -> keeps (ev_tuple W rec r i fs acc).
Proof.
  induction fs as [|f fs IH]; intros i acc O; cbn [ev_tuple]; [apply k_ret|].
  apply k_bind; [apply REC, O; now left|]. intros v. apply IH. intros g I. apply O. now right.
Qed.
Lemma k_dict r keyf kf vf : rhook keyf -> rfield kf -> rfield vf -> forall keys acc, keeps (ev_dict W rec r keyf kf vf keys acc).
Proof.
  intros A B C. induction keys as [|k keys IH]; intros acc; cbn [ev_dict]; [apply k_ret|].
  apply k_bind; [now apply k_hook_or|]. intros b. destruct b; cbn [negb]; [|apply IH].
  apply k_bind; [now apply REC|]. intros v. destruct (ignored v); [apply IH|].
  apply k_bind; [now apply REC|]. intros k'. destruct (ignored k'); [apply IH|]. destruct (hashable k'); [apply IH|apply k_raise].
Qed.
Lemma k_group r ml : (forall m f, In (m, f) ml -> rfield f) -> forall keys n acc, keeps (ev_group W rec r ml keys n acc).
Proof.
  intros O. induction keys as [|k keys IH]; intros n acc; cbn [ev_group]; [apply k_ret|].
  unfold ebind at 1. cbn [elift]. intros es h H. destruct (group_match W ml k) as [[[f c]|]|e] eqn:G; cbn; [|now apply IH|exact H].
  revert es h H. apply k_bind; [|intros v; apply IH]. apply REC. destruct (Refine.group_In W ml k f c G) as (m & I). exact (O m f I).
Qed.
Lemma k_fields r id tags : ~ K id -> forall fs, (forall f, In f fs -> rfield f) -> keeps (ev_fields rec r id tags fs).
Proof.
  intros N. induction fs as [|f fs IH]; intros O; cbn [ev_fields]; [apply k_ret|]. apply k_bind.
  - destruct (selected tags f); [|apply k_ret]. apply k_bind; [apply REC, O; now left|]. intros v. destruct (ignored v); [apply k_ret|now apply k_set].
  - intros _. apply IH. intros g I. apply O. now right.
Qed.
Lemma reading_no_opts : hooked_opts reading_prog no_opts.
Proof. split; cbn; try discriminate; try reflexivity; now intros h Q. Qed.
Lemma k_unmapped r id u : hooked_unmapped reading_prog u -> keeps (ev_unmapped rec r id u).
Proof.
  intros U. assert (G : forall kf vf, rfield kf -> rfield vf -> keeps (v <~ rec r (unmapped_dict id kf vf) NONEv; eret (Some v))).
  { intros kf vf A B. apply k_bind; [|intros v; apply k_ret]. apply REC. constructor; [apply reading_no_opts|]. constructor; auto.
    intros h [= <-] t [|k args]; cbn; [exact I|]. intros [v|e]; exact I. }
  assert (P : rfield plain_string /\ rfield plain_field) by (split; (constructor; [apply reading_no_opts|constructor])).
  destruct P as [P1 P2]. destruct U; cbn [ev_unmapped]; try apply k_ret; try apply k_raise; now apply G.
Qed.
Lemma k_form_map r id tags u t es h : ~ K id -> hooked_unmapped reading_prog u -> (forall f, In f (ft_fields t) -> rfield f) -> form_is t id h -> kept h ->
  kept (snd (snd (ev_form_map W rec r id tags u (es, h)))).
Proof.
  intros N U O F H. rewrite (form_run W rec _ _ _ _ t _ _ F). assert (M := k_map r es h H). destruct (ev_mapping W r (es, h)) as [[v|e] s1]; [|exact M].
  assert (B : keeps (rest rec r id tags u t)); [|exact (B es h H)].
  unfold rest. apply k_bind; [now apply k_fields|]. intros _. apply k_bind; [now apply k_unmapped|]. intros [w|]; [|apply k_ret].
  destruct w; try apply k_raise; [apply k_ret|]. apply k_bind; [apply k_entries|]. intros y. now apply k_put.
Qed.
Lemma k_form r t rs u : hooked_unmapped reading_prog u -> (forall f, In f (ft_fields t) -> rfield f) -> keeps (ev_form W rec r t rs u).
Proof.
  intros U O es h H. set (id := length h). assert (F : form_is t id (h ++ [(t, [])])).
  { exists []. unfold id. rewrite nth_error_app2 by lia. now rewrite Nat.sub_diag. }
  assert (B : forall j, K j -> (j < length h)%nat).
  { intros j J. destruct (K0 j J) as (t0 & x & Q & _). apply nth_error_Some. rewrite (H j J), Q. discriminate. }
  assert (N : ~ K id) by (intros J; specialize (B id J); unfold id in B; lia).
  assert (H1 : kept (h ++ [(t, [])])) by (intros j J; rewrite nth_error_app1; [exact (H j J)|exact (B j J)]).
  assert (R : exists h1 : heap, form_is t id h1 /\ kept h1 /\ (if rs then ev_reset id (r_tags r) (ft_fields t) else eret tt) (es, h ++ [(t, [])]) = (Ok tt, (es, h1))).
  { destruct rs; [|exists (h ++ [(t, [])]); repeat split; [exact F|exact H1]].
    destruct (reset_keeps id (r_tags r) t (ft_fields t) _ F) as (h1 & Q & F1). exists h1. split; [exact F1|]. split; [|apply Q].
    pose proof (k_reset id (r_tags r) N (ft_fields t) es _ H1) as Z. now rewrite Q in Z. }
  destruct R as (h1 & F1 & H2 & R). unfold ev_form, ebind, ev_new. cbn [fst snd]. fold id. rewrite R. unfold ev_sub.
  pose proof (k_form_map (r_collecting r Collect) id (r_tags r) u t [] h1 N U O F1 H2) as Z.
  destruct (ev_form_map W rec (r_collecting r Collect) id (r_tags r) u ([], h1)) as [[v|e] [e1 h2]]; exact Z.
Qed.
Lemma k_parse r k : hooked_kind reading_prog k -> keeps (ev_parse W rec r k).
Proof.
  intros Q. destruct Q as [|c|lo hi|lo hi|lo hi| |fmts lo hi|fmt lo hi|fmt lo hi|fs O|f lo hi a O|kf vf keyf rq mx A B C| | |n fs rs u O U|ml O]; cbn [ev_parse].
  - apply k_prim.
  - apply k_prim.
  - apply k_prim.
  - apply k_prim.
  - apply k_decimal.
  - apply k_prim.
  - apply k_date.
  - apply k_time.
  - apply k_datetime.
  - apply k_bind; [apply k_seq|]. intros n. destruct (Nat.eqb n (length fs)); [|apply k_invalid]. apply k_bind; [now apply k_tuple|]. intros x. apply k_ret.
  - apply k_catch; [apply k_seq|]. intros [n|e].
    + apply k_bind; [now apply k_list|]. intros x. apply k_ret.
    + destruct e; try apply k_raise. destruct a; [|apply k_raise]. apply k_bind; [now apply REC|]. intros v. apply k_ret.
  - apply k_bind; [apply k_map|]. intros vw. apply k_bind; [apply k_lift|]. intros x. apply k_bind; [now apply k_dict|]. intros y. apply k_ret.
  - apply k_code.
  - apply k_uuid.
  - now apply k_form.
  - apply k_bind; [apply k_map|]. intros vw. apply k_bind; [apply k_lift|]. intros ks. now apply k_group.
Qed.
Lemma k_field r f v : rfield f -> keeps (ev_field_body W rec r f v).
Proof.
  intros [o k H Q]. clear f. set (f := MkField o k). unfold ev_field_body. apply k_bind.
  { destruct (is_NONE v); [|apply k_ret]. unfold ev_where. change (f_opts f) with o. rewrite (ho_resolve _ H). apply k_ret. }
  intros q. apply k_bind.
  - unfold ev_body. destruct (is_NONE v); [|now apply k_after]. apply k_bind.
    + pose proof (ho_compute _ H) as C. change (f_opts f) with o. destruct (o_compute o) as [h|]; [eapply k_hook; [exact C|reflexivity]|].
      unfold ev_compute. apply k_bind; [apply k_lift|]. intros b. destruct b; cbn [negb]; [|apply k_ret]. apply k_bind; [apply k_lift|]. intros b. destruct b; [apply k_ret|].
      apply k_catch.
      * pose proof (ho_parse _ H) as P. change (f_opts f) with o. destruct (o_parse o) as [h|]; [eapply k_hook; [exact P|reflexivity]|now apply k_parse].
      * intros [a|e]; [apply k_ret|]. destruct (caught_by_compute e); [apply k_invalid|apply k_raise].
    + intros w. destruct (is_NONE w).
      * pose proof (ho_default _ H) as D. change (f_opts f) with o. destruct (o_default o) as [[h|]| |] eqn:Z; try (now apply k_default).
        eapply k_hook; [exact D|reflexivity].
      * destruct (ignored w); [apply k_ret|now apply k_after].
  - intros w. apply k_bind; [|intros _; apply k_ret]. destruct (_ && _)%bool; [apply k_parent|apply k_ret].
Qed.
End Rec.
Lemma ev_field_keeps : forall fuel r f v, hooked reading_prog f -> keeps (ev_field W fuel r f v).
Proof. induction fuel as [|n IH]; intros r f v O; cbn [ev_field]; [apply k_raise|]. now apply k_field. Qed.
Lemma ev_map_keeps fuel o src root id tags rs u m t x0 : ~ K id -> nth_error h0 id = Some (t, x0) -> hooked_unmapped reading_prog u ->
  (forall f, In f (ft_fields t) -> hooked reading_prog f) -> kept (snd (ev_map W fuel o src root id tags rs u m h0)).
Proof.
  intros N T U O. set (tg := match tags with [] => ou_tags o | _ => tags end).
  assert (F : form_is t id h0) by now exists x0. assert (H0 : kept h0) by now intros j J.
  assert (Q : exists h1, form_is t id h1 /\ kept h1 /\ (if rs then ev_reset id tg (ft_fields t) else eret tt) ([], h0) = (Ok tt, ([], h1))).
  { destruct rs; [|exists h0; now repeat split]. destruct (reset_keeps id tg t (ft_fields t) h0 F) as (h1 & Q & F1). exists h1. split; [exact F1|]. split; [|apply Q].
    pose proof (k_reset id tg N (ft_fields t) [] h0 H0) as Z. now rewrite Q in Z. }
  destruct Q as (h1 & F1 & H1 & Q). rewrite (map_run W fuel o src root id tags rs u m h0 t x0 h1 T Q). fold tg.
  pose proof (k_form_map (ev_field W fuel) (ev_field_keeps fuel) (r_start o src m root) id tg u t [] h1 N U O F1 H1) as Z.
  destruct (ev_form_map W (ev_field W fuel) (r_start o src m root) id tg u ([], h1)) as [[v|e] [e1 h2]]; exact Z.
Qed.
End Others.

Lemma reading_direct : forall p, reading_prog p -> direct_prog p.
Proof. fix IH 1. intros p. destruct p; cbn; try (intros []; fail); try (intros _; exact I); intros K x; apply IH, K. Qed.
Lemma reading_form t : (forall f, In f (ft_fields t) -> hooked reading_prog f) -> direct_form t.
Proof. intros O. destruct t; constructor; intros f I. apply (proj1 (hooked_direct _ reading_direct)). now apply O. Qed.
Lemma reading_unm u : hooked_unmapped reading_prog u -> direct_unm u.
Proof. exact (proj2 (hooked_direct _ reading_direct) u). Qed.
Lemma others_by W fuel src root id t l tags rs u m s j t' l' : nth_error (forms s) id = Some (t, l) ->
  (forall f, In f (ft_fields t) -> hooked reading_prog f) -> hooked_unmapped reading_prog u ->
  j <> id -> nth_error (forms s) j = Some (t', l') -> no_parent t' ->
  (let x := Form_map W fuel id (ASrc (SBase (BPlain src))) tags rs u m s in
   (fst x, forms (snd x)) = ev_map W fuel (outer_of s) src root id tags rs u m (forms s) /\ stk (snd x) = stk s) ->
  nth_error (forms (snd (Form_map W fuel id (ASrc (SBase (BPlain src))) tags rs u m s))) j = Some (t', l').
Proof.
  intros T O U J TJ N [X _]. apply (f_equal snd) in X. cbn [snd] in X. rewrite X, <- TJ.
  apply (ev_map_keeps W (forms s) (fun i => i = j)) with (t := t) (x0 := l); try assumption; try reflexivity.
  - intros i ->. exists t', l'. split; [exact TJ|now apply no_parent_found].
  - intros ->. now apply J.
Qed.
Lemma C110_json_lem W fuel d strict loc id t l tags rs u m s j t' l' :
  json_val d = true -> nth_error (forms s) id = Some (t, l) -> (forall f, In f (ft_fields t) -> hooked reading_prog f) -> hooked_unmapped reading_prog u -> mapping_context s ->
  j <> id -> nth_error (forms s) j = Some (t', l') -> no_parent t' ->
  nth_error (forms (snd (Form_map W fuel id (ASrc (SBase (BPlain (SJson d strict loc)))) tags rs u m s))) j = Some (t', l').
Proof.
  intros D T O U C J TJ N. apply (others_by W fuel _ d id t l); try assumption.
  apply (C30_json_lem W fuel _ _ _ id t l); try assumption; [exact (reading_form t O)|exact (reading_unm u U)].
Qed.
Lemma C110_native_lem W fuel P d loc id t l tags rs u m s j t' l' :
  plain_native (w_env W) P -> P d -> nth_error (forms s) id = Some (t, l) -> (forall f, In f (ft_fields t) -> hooked reading_prog f) -> hooked_unmapped reading_prog u -> mapping_context s ->
  j <> id -> nth_error (forms s) j = Some (t', l') -> no_parent t' ->
  nth_error (forms (snd (Form_map W fuel id (ASrc (SBase (BPlain (SDefault d [] [] loc)))) tags rs u m s))) j = Some (t', l').
Proof.
  intros PN D T O U C J TJ N. apply (others_by W fuel _ d id t l); try assumption.
  apply (C30_native_lem W fuel P _ _ id t l); try assumption; [exact (reading_form t O)|exact (reading_unm u U)].
Qed.
Lemma C110_config_lem W fuel cfg sec d loc id t l tags rs u m s j t' l' :
  config_given cfg sec d -> nth_error (forms s) id = Some (t, l) -> (forall f, In f (ft_fields t) -> hooked reading_prog f) -> hooked_unmapped reading_prog u -> mapping_context s ->
  j <> id -> nth_error (forms s) j = Some (t', l') -> no_parent t' ->
  nth_error (forms (snd (Form_map W fuel id (ASrc (SBase (BPlain (SConfig cfg sec d loc)))) tags rs u m s))) j = Some (t', l').
Proof.
  intros G T O U C J TJ N. apply (others_by W fuel _ (config_start cfg sec d) id t l); try assumption.
  apply (C30_config_lem W fuel _ _ _ _ id t l); try assumption; [exact (reading_form t O)|exact (reading_unm u U)].
Qed.
