(** * OwnProofs: forms hold entries of their fields only (C111). *)
From Coq Require Import List Lia.
From Verif Require Import PyBase PyStr Source Field Context Fields SpecSrc SpecField SpecForm SpecOwn Eval Refine Regime CfgRegime Balance OrderProofs.

Lemma set_keys l k v : forall a b, In (a, b) (dict_set l k v) -> a = k \/ exists c, In (a, c) l.
Proof.
  induction l as [|[k' v'] l IH]; intros a b; cbn [dict_set].
  - intros [[= <- <-]|[]]. now left.
  - destruct (py_eq k' k).
    + intros [[= <- <-]|I]; right; [exists v'; now left|exists b; now right].
    + intros [[= <- <-]|I]; [right; exists v'; now left|]. destruct (IH a b I) as [->|(c & J)]; [now left|right; exists c; now right].
Qed.
Section Own.
Variable W : world.
Definition own (t : formty) (l : list (val * val)) : Prop := forall k v, In (k, v) l -> exists f, In f (ft_fields t) /\ k = VStr (fname f).
Definition kept (h : heap) : Prop := forall j t l, nth_error h j = Some (t, l) -> own t l.
Definition typed (h h' : heap) : Prop := forall id t, form_is t id h -> form_is t id h'.
Definition keeps {A} (m : Ev A) : Prop := forall es h, kept h -> kept (snd (snd (m (es, h)))) /\ typed h (snd (snd (m (es, h)))).
Definition stays {A} (m : Ev A) : Prop := forall es h, snd (snd (m (es, h))) = h.
Lemma stay {A} (m : Ev A) : stays m -> keeps m.
Proof. intros S es h H. rewrite S. split; [exact H|now intros id t]. Qed.
Lemma k_ret {A} (a : A) : keeps (eret a).
Proof. now apply stay. Qed.
Lemma k_raise {A} e : keeps (eraise e : Ev A).
Proof. now apply stay. Qed.
Lemma k_lift {A} (x : res A) : keeps (elift x).
Proof. now apply stay. Qed.
Lemma k_bind {A B} (m : Ev A) (k : A -> Ev B) : keeps m -> (forall a, keeps (k a)) -> keeps (ebind m k).
Proof.
  intros M N es h H. specialize (M es h H). unfold ebind. destruct (m (es, h)) as [[a|e] [e1 h1]]; cbn in M |- *; [|exact M].
  destruct M as [M1 M2]. destruct (N a e1 h1 M1) as [N1 N2]. split; [exact N1|]. intros id t F. apply N2, M2, F.
Qed.
Lemma k_catch {A B} (m : Ev A) (k : res A -> Ev B) : keeps m -> (forall a, keeps (k a)) -> keeps (ecatch m k).
Proof.
  intros M N es h H. specialize (M es h H). unfold ecatch. destruct (m (es, h)) as [x [e1 h1]]; cbn in M |- *.
  destruct M as [M1 M2]. destruct (N x e1 h1 M1) as [N1 N2]. split; [exact N1|]. intros id t F. apply N2, M2, F.
Qed.
Lemma bind_at {A B} (m : Ev A) (k : A -> Ev B) es h : kept (snd (snd (m (es, h)))) /\ typed h (snd (snd (m (es, h)))) ->
  (forall a e1 h1, typed h h1 -> kept h1 -> kept (snd (snd (k a (e1, h1)))) /\ typed h1 (snd (snd (k a (e1, h1))))) ->
  kept (snd (snd (ebind m k (es, h)))) /\ typed h (snd (snd (ebind m k (es, h)))).
Proof.
  intros M N. unfold ebind. destruct (m (es, h)) as [[a|e] [e1 h1]]; cbn in M |- *; [|exact M].
  destruct M as [M1 M2]. destruct (N a e1 h1 M2 M1) as [N1 N2]. split; [exact N1|]. intros id t F. apply N2, M2, F.
Qed.
Lemma k_report r k : keeps (ev_report W r k).
Proof. apply stay. intros es h. unfold ev_report. destruct (r_field r); [destruct (pkeys_str _ _ _)|]; reflexivity. Qed.
Lemma k_invalid r x : keeps (ev_invalid W r x).
Proof. apply k_bind; [apply k_report|]. intros _. apply k_ret. Qed.
Lemma k_missing r : keeps (ev_missing W r).
Proof. apply k_bind; [|intros _; apply k_ret]. destruct (r_igm r); [apply k_ret|apply k_report]. Qed.
Lemma k_entries id : keeps (ev_entries id).
Proof. now apply stay. Qed.
Lemma k_type id : keeps (ev_type id).
Proof. now apply stay. Qed.
Lemma k_item id k : keeps (ev_item id k).
Proof. unfold ev_item. destruct (hashable k); [|apply k_raise]. apply k_bind; [apply k_entries|]. intros x. destruct (dict_get x k); [apply k_ret|apply k_raise]. Qed.
Lemma put_kept id t y x es h : nth_error h id = Some (t, y) -> (own t y -> own t x) -> kept h ->
  kept (snd (snd (ev_set_entries id x (es, h)))) /\ typed h (snd (snd (ev_set_entries id x (es, h)))).
Proof.
  intros T O H. unfold ev_set_entries. cbn [fst snd]. rewrite T. cbn [fst snd].
  assert (L : (id < length h)%nat) by (apply nth_error_Some; now rewrite T). split.
  - intros j t' l'. destruct (Nat.eq_dec id j) as [<-|N].
    + rewrite nth_replace_eq by exact L. intros [= <- <-]. apply O. exact (H id t y T).
    + rewrite nth_replace_neq by exact N. apply H.
  - intros j t' (l' & F). destruct (Nat.eq_dec id j) as [<-|N].
    + exists x. rewrite nth_replace_eq by exact L. congruence.
    + exists l'. now rewrite nth_replace_neq.
Qed.
Lemma set_kept id t f v es h : form_is t id h -> In f (ft_fields t) -> kept h ->
  kept (snd (snd (ev_set id (VStr (fname f)) v (es, h)))) /\ typed h (snd (snd (ev_set id (VStr (fname f)) v (es, h)))).
Proof.
  intros (y & T) I H. unfold ev_set, ebind, ev_entries. cbn [snd]. apply (put_kept id t y); [exact T| |exact H].
  assert (E : hents h id = y) by (unfold hents; now rewrite T). rewrite E. intros O k w J. destruct (set_keys _ _ _ _ _ J) as [->|(c & Q)]; [now exists f|exact (O k c Q)].
Qed.
Lemma k_del f id : keeps (ev_del f id).
Proof.
  intros es h H. unfold ev_del, ebind, ev_entries. cbn [snd]. destruct (dict_has _ _); [|split; [exact H|now intros j t]].
  destruct (nth_error h id) as [[t y]|] eqn:T.
  - apply (put_kept id t y); [exact T| |exact H]. assert (E : hents h id = y) by (unfold hents; now rewrite T). rewrite E.
    intros O k w J. apply filter_In in J. exact (O k w (proj1 J)).
  - unfold ev_set_entries. cbn [snd]. rewrite T. split; [exact H|now intros j t].
Qed.
Lemma setattr_run id a v (es : list err) (h : heap) : ev_setattr id a v (es, h) =
  match nth_error h id with
  | Some (t, _) => match find_field a t with Some f => ev_set id (VStr (fname f)) v (es, h) | None => (Ok tt, (es, h)) end
  | None => (Ok tt, (es, h))
  end.
Proof. unfold ev_setattr, ebind at 1, ev_type. cbn [snd]. destruct (nth_error h id) as [[t y]|]; [destruct (find_field a t)|]; reflexivity. Qed.
Lemma k_setattr id a v : keeps (ev_setattr id a v).
Proof.
  intros es h H. rewrite setattr_run. destruct (nth_error h id) as [[t y]|] eqn:T; [|split; [exact H|intros j t F; exact F]].
  destruct (find_field a t) as [f|] eqn:F; [|split; [exact H|intros j t' X; exact X]]. apply (set_kept id t); [now exists y| |exact H].
  unfold find_field in F. now apply find_some in F.
Qed.
Lemma k_delattr id a : keeps (ev_delattr id a).
Proof. apply k_bind; [apply k_type|]. intros t. destruct (find_field a t); [apply k_del|apply k_raise]. Qed.
Lemma k_reset id tags : forall fs, keeps (ev_reset id tags fs).
Proof.
  induction fs as [|f fs IH]; cbn [ev_reset]; [apply k_ret|]. apply k_bind; [|intros _; exact IH]. destruct (selected tags f); [apply k_del|apply k_ret].
Qed.
Lemma k_val r : keeps (ev_value r).
Proof. apply k_lift. Qed.
Lemma k_prim r t : keeps (ev_primitive W r t).
Proof. apply k_lift. Qed.
Lemma k_seq r : keeps (ev_sequence W r).
Proof. apply k_lift. Qed.
Lemma k_map r : keeps (ev_mapping W r).
Proof. apply k_lift. Qed.
Lemma k_op r op : keeps (ev_pathop W r op).
Proof.
  destruct op; cbn [ev_pathop]; repeat (apply k_bind; [apply k_lift|intro]); try apply k_ret; apply k_lift.
Qed.
Lemma k_parent v : keeps (ev_parent v).
Proof. destruct v; try apply k_raise; [|apply k_ret]. apply k_setattr. Qed.

(** ** Hooks *)
Lemma k_prog r : forall p, keeps (ev_prog W r p).
Proof.
  fix IH 1. intros p. destruct p; cbn [ev_prog]; try apply k_ret; try apply k_raise; (apply k_catch; [|intros x; apply IH]).
  - apply k_lift.
  - apply k_bind; [apply k_setattr|]. intros _. apply k_ret.
  - apply k_bind; [apply k_delattr|]. intros _. apply k_ret.
  - apply k_item.
  - apply k_op.
  - apply k_bind; [apply k_report|]. intros _. apply k_ret.
  - apply k_bind; [apply k_report|]. intros _. apply k_ret.
Qed.
Lemma k_hook r h args : keeps (ev_hook W r h args).
Proof. apply k_bind; [destruct (hk_attached h); [apply k_ret|apply k_lift]|]. intros t. apply k_prog. Qed.
Lemma k_hook_or {T} r o args (x : T) g : keeps (ev_hook_or W r o args x g).
Proof. destruct o as [h|]; cbn [ev_hook_or]; [|apply k_ret]. apply k_bind; [apply k_hook|]. intros v. apply k_ret. Qed.
Lemma k_default r f : keeps (ev_default W r f).
Proof.
  unfold ev_default. destruct (r_igd r); [apply k_missing|]. destruct (o_default (f_opts f)) as [[h|]|v|p].
  - apply k_hook.
  - apply k_missing.
  - destruct v as [| | | | | | | | | | | | | |[]| | | | |]; try (now apply k_ret). apply k_missing.
  - apply k_prog.
Qed.
Lemma k_validate r f v : keeps (ev_validate W r f v).
Proof.
  intros es h H. unfold ev_validate. cbn [snd].
  assert (B : forall x, keeps (ev_report W r (Invalid x);;; eret false)) by (intros x; apply k_bind; [apply k_report|intros _; apply k_ret]).
  destruct (field_violation _ _ f v) as [[x|]|e]; [exact (B x es h H)| |]; (split; [exact H|now intros j t]).
Qed.
Lemma k_after r f v : keeps (ev_after W r f v).
Proof.
  unfold ev_after. apply k_bind.
  { unfold ev_translate. destruct (o_translations (f_opts f)); [apply k_ret|]. destruct (hashable v); [apply k_ret|apply k_raise]. }
  intros w. apply k_bind; [destruct (ignored w); [apply k_ret|apply k_hook_or]|]. intros x.
  destruct (is_NONE x); [apply k_default|]. destruct (ignored x); [apply k_ret|].
  destruct (negb (field_filter f x)); [apply k_default|].
  apply k_bind; [apply k_hook_or|]. intros b. destruct b; cbn [negb]; [|apply k_default].
  apply k_bind; [apply k_validate|]. intros b. destruct b; cbn [negb]; [|apply k_ret].
  apply k_bind; [apply k_hook_or|]. intros b. apply k_ret.
Qed.

(** ** Parsing *)
Ltac walk := repeat (first [apply k_ret | apply k_raise | apply k_invalid | apply k_val | apply k_prim
  | match goal with |- keeps (match ?x with _ => _ end) => destruct x end | apply k_bind; [|intro] ]).
Lemma k_decimal r : keeps (ev_decimal W r).
Proof. unfold ev_decimal. walk. Qed.
Lemma k_date r fmts : keeps (ev_date W r fmts).
Proof. unfold ev_date, ev_need_str. walk. Qed.
Lemma k_time r fmt : keeps (ev_time W r fmt).
Proof. unfold ev_time, ev_need_str. walk. Qed.
Lemma k_datetime r fmt : keeps (ev_datetime W r fmt).
Proof. unfold ev_datetime, ev_need_str. walk. Qed.
Lemma k_code r : keeps (ev_code W r).
Proof. unfold ev_code. walk. Qed.
Lemma k_uuid r : keeps (ev_uuid W r).
Proof. unfold ev_uuid. cbv zeta. walk. Qed.

Section Rec.
Variable rec : rd -> field -> val -> Ev val.
Hypothesis REC : forall r f v, uncaptured f -> keeps (rec r f v).
Lemma k_list r f : uncaptured f -> forall n i acc, keeps (ev_list W rec r i n f acc).
Proof. intros O. induction n as [|n IH]; intros i acc; cbn [ev_list]; [apply k_ret|]. apply k_bind; [now apply REC|]. intros v. apply IH. Qed.
Lemma k_tuple r : forall fs i acc, (forall f, In f fs -> uncaptured f) -> keeps (ev_tuple W rec r i fs acc).
Proof.
  induction fs as [|f fs IH]; intros i acc O; cbn [ev_tuple]; [apply k_ret|].
  apply k_bind; [apply REC, O; now left|]. intros v. apply IH. intros g I. apply O. now right.
Qed.
Lemma k_dict r keyf kf vf : uncaptured kf -> uncaptured vf -> forall keys acc, keeps (ev_dict W rec r keyf kf vf keys acc).
Proof.
  intros B C. induction keys as [|k keys IH]; intros acc; cbn [ev_dict]; [apply k_ret|].
  apply k_bind; [apply k_hook_or|]. intros b. destruct b; cbn [negb]; [|apply IH].
  apply k_bind; [now apply REC|]. intros v. destruct (ignored v); [apply IH|].
  apply k_bind; [now apply REC|]. intros k'. destruct (ignored k'); [apply IH|]. destruct (hashable k'); [apply IH|apply k_raise].
Qed.
Lemma k_group r ml : (forall m f, In (m, f) ml -> uncaptured f) -> forall keys n acc, keeps (ev_group W rec r ml keys n acc).
Proof.
  intros O. induction keys as [|k keys IH]; intros n acc; cbn [ev_group]; [apply k_ret|].
  unfold ebind at 1. cbn [elift]. intros es h H. destruct (group_match W ml k) as [[[f c]|]|e] eqn:G; cbn; [|now apply IH|split; [exact H|now intros j t]].
  revert es h H. apply k_bind; [|intros v; apply IH]. apply REC. destruct (Refine.group_In W ml k f c G) as (m & I). exact (O m f I).
Qed.
Lemma fields_kept r id tags t : forall fs, (forall f, In f fs -> uncaptured f /\ In f (ft_fields t)) -> forall es h, form_is t id h -> kept h ->
  kept (snd (snd (ev_fields rec r id tags fs (es, h)))) /\ typed h (snd (snd (ev_fields rec r id tags fs (es, h)))).
Proof.
  induction fs as [|f fs IH]; intros O es h F H; cbn [ev_fields]; [split; [exact H|now intros j t']|].
  assert (B : let m := (if selected tags f then v <~ rec r f NONEv; (if ignored v then eret tt else ev_set id (VStr (fname f)) v) else eret tt) in
    kept (snd (snd (m (es, h)))) /\ typed h (snd (snd (m (es, h))))).
  { cbv zeta. destruct (selected tags f); [|split; [exact H|now intros j t']]. destruct (O f (or_introl eq_refl)) as [U I].
    destruct (REC r f NONEv U es h H) as [R1 R2]. unfold ebind. destruct (rec r f NONEv (es, h)) as [[v|e] [e1 h1]]; cbn in R1, R2 |- *; [|now split].
    destruct (ignored v); [now split|]. destruct (set_kept id t f v e1 h1 (R2 id t F) I R1) as [S1 S2]. split; [exact S1|]. intros j t' X. apply S2, R2, X. }
  apply bind_at; [exact B|]. intros _ e1 h1 B2 B1. exact (IH (fun g I => O g (or_intror I)) e1 h1 (B2 id t F) B1).
Qed.
Lemma k_form_map r id tags u t es h : ignores u -> (forall f, In f (ft_fields t) -> uncaptured f) -> form_is t id h -> kept h ->
  kept (snd (snd (ev_form_map W rec r id tags u (es, h)))) /\ typed h (snd (snd (ev_form_map W rec r id tags u (es, h)))).
Proof.
  intros U O F H. rewrite (form_run W rec _ _ _ _ t _ _ F). assert (M := k_map r es h H). destruct (ev_mapping W r (es, h)) as [[v|e] s1]; [|exact M].
  destruct (fields_kept (r_inform r id) id tags t (ft_fields t) (fun f I => conj (O f I) I) es h F H) as [B1 B2].
  unfold rest, ebind. destruct (ev_fields rec (r_inform r id) id tags (ft_fields t) (es, h)) as [[v1|e] [e1 h1]]; cbn in B1, B2 |- *; [|now split].
  destruct u; try contradiction; cbn; now split.
Qed.
Lemma k_form r t rs u : ignores u -> (forall f, In f (ft_fields t) -> uncaptured f) -> keeps (ev_form W rec r t rs u).
Proof.
  intros U O es h H. set (id := length h). assert (F : form_is t id (h ++ [(t, [])])).
  { exists []. unfold id. rewrite nth_error_app2 by lia. now rewrite Nat.sub_diag. }
  assert (H1 : kept (h ++ [(t, [])])).
  { intros j t' l' Q. destruct (Nat.lt_ge_cases j (length h)) as [L|L]; [rewrite nth_error_app1 in Q by exact L; exact (H j t' l' Q)|].
    rewrite nth_error_app2 in Q by exact L. destruct (j - length h)%nat as [|[|i]]; cbn in Q; try discriminate. injection Q as <- <-. intros k v []. }
  assert (Y : typed h (h ++ [(t, [])])).
  { intros j t' (l' & Q). exists l'. rewrite nth_error_app1; [exact Q|]. apply nth_error_Some. now rewrite Q. }
  assert (R : exists h1 : heap, form_is t id h1 /\ kept h1 /\ typed h h1 /\ (if rs then ev_reset id (r_tags r) (ft_fields t) else eret tt) (es, h ++ [(t, [])]) = (Ok tt, (es, h1))).
  { destruct rs; [|exists (h ++ [(t, [])]); split; [exact F|split; [exact H1|split; [exact Y|reflexivity]]]].
    destruct (reset_keeps id (r_tags r) t (ft_fields t) _ F) as (h1 & Q & F1). exists h1. split; [exact F1|].
    pose proof (k_reset id (r_tags r) (ft_fields t) es _ H1) as Z. rewrite Q in Z. cbn in Z. destruct Z as [Z1 Z2].
    split; [exact Z1|]. split; [|apply Q]. intros j t' X. apply Z2, Y, X. }
  destruct R as (h1 & F1 & H2 & Y1 & R). unfold ev_form, ebind, ev_new. cbn [fst snd]. fold id. rewrite R. unfold ev_sub.
  pose proof (k_form_map (r_collecting r Collect) id (r_tags r) u t [] h1 U O F1 H2) as Z.
  destruct (ev_form_map W rec (r_collecting r Collect) id (r_tags r) u ([], h1)) as [[v|e] [e1 h2]]; cbn in Z |- *; destruct Z as [Z1 Z2];
    (split; [exact Z1|]; intros j t' X; apply Z2, Y1, X).
Qed.
Lemma k_parse r k : uncaptured_kind k -> keeps (ev_parse W rec r k).
Proof.
  intros Q. destruct Q as [k S|fs O|f lo hi a O|kf vf keyf rq mx B C|c fs rs u O U|ml O].
  - destruct k; try contradiction; cbn [ev_parse]; try apply k_prim; [apply k_decimal|apply k_date|apply k_time|apply k_datetime|apply k_code|apply k_uuid].
  - cbn [ev_parse]. apply k_bind; [apply k_seq|]. intros n. destruct (Nat.eqb n (length fs)); [|apply k_invalid]. apply k_bind; [now apply k_tuple|]. intros x. apply k_ret.
  - cbn [ev_parse]. apply k_catch; [apply k_seq|]. intros [n|e].
    + apply k_bind; [now apply k_list|]. intros x. apply k_ret.
    + destruct e; try apply k_raise. destruct a; [|apply k_raise]. apply k_bind; [now apply REC|]. intros v. apply k_ret.
  - cbn [ev_parse]. apply k_bind; [apply k_map|]. intros vw. apply k_bind; [apply k_lift|]. intros x. apply k_bind; [now apply k_dict|]. intros y. apply k_ret.
  - cbn [ev_parse]. now apply k_form.
  - cbn [ev_parse]. apply k_bind; [apply k_map|]. intros vw. apply k_bind; [apply k_lift|]. intros ks. now apply k_group.
Qed.
Lemma k_field r f v : uncaptured f -> keeps (ev_field_body W rec r f v).
Proof.
  intros [o k Q]. clear f. set (f := MkField o k). unfold ev_field_body. apply k_bind.
  { destruct (is_NONE v); [|apply k_ret]. unfold ev_where. destruct (o_resolve _) as [h|]; [|apply k_ret]. apply k_bind; [apply k_hook|]. intros x. apply k_ret. }
  intros q. apply k_bind.
  - unfold ev_body. destruct (is_NONE v); [|apply k_after]. apply k_bind.
    + destruct (o_compute _) as [h|]; [apply k_hook|].
      unfold ev_compute. apply k_bind; [apply k_lift|]. intros b. destruct b; cbn [negb]; [|apply k_ret]. apply k_bind; [apply k_lift|]. intros b. destruct b; [apply k_ret|].
      apply k_catch.
      * destruct (o_parse _) as [h|]; [apply k_hook|now apply k_parse].
      * intros [a|e]; [apply k_ret|]. destruct (caught_by_compute e); [apply k_invalid|apply k_raise].
    + intros w. destruct (is_NONE w).
      * destruct (o_default _) as [[h|]| |]; try apply k_default. apply k_hook.
      * destruct (ignored w); [apply k_ret|apply k_after].
  - intros w. apply k_bind; [|intros _; apply k_ret]. destruct (_ && _)%bool; [apply k_parent|apply k_ret].
Qed.
End Rec.
Lemma ev_field_keeps : forall fuel r f v, uncaptured f -> keeps (ev_field W fuel r f v).
Proof. induction fuel as [|n IH]; intros r f v O; cbn [ev_field]; [apply k_raise|]. now apply k_field. Qed.
Lemma ev_map_keeps fuel o src root id tags rs u m h0 t x0 : kept h0 -> nth_error h0 id = Some (t, x0) -> ignores u ->
  (forall f, In f (ft_fields t) -> uncaptured f) -> kept (snd (ev_map W fuel o src root id tags rs u m h0)).
Proof.
  intros H0 T U O. set (tg := match tags with [] => ou_tags o | _ => tags end).
  assert (F : form_is t id h0) by now exists x0.
  assert (Q : exists h1, form_is t id h1 /\ kept h1 /\ (if rs then ev_reset id tg (ft_fields t) else eret tt) ([], h0) = (Ok tt, ([], h1))).
  { destruct rs; [|exists h0; now repeat split]. destruct (reset_keeps id tg t (ft_fields t) h0 F) as (h1 & Q & F1). exists h1. split; [exact F1|]. split; [|apply Q].
    pose proof (k_reset id tg (ft_fields t) [] h0 H0) as Z. rewrite Q in Z. exact (proj1 Z). }
  destruct Q as (h1 & F1 & H1 & Q). rewrite (map_run W fuel o src root id tags rs u m h0 t x0 h1 T Q). fold tg.
  pose proof (k_form_map (ev_field W fuel) (ev_field_keeps fuel) (r_start o src m root) id tg u t [] h1 U O F1 H1) as [Z _].
  destruct (ev_form_map W (ev_field W fuel) (r_start o src m root) id tg u ([], h1)) as [[v|e] [e1 h2]]; exact Z.
Qed.
End Own.
Lemma own_by W fuel src root id t l tags rs u m s : nth_error (forms s) id = Some (t, l) -> (forall f, In f (ft_fields t) -> uncaptured f) -> ignores u -> own_entries s ->
  (let x := Form_map W fuel id (ASrc (SBase (BPlain src))) tags rs u m s in
   (fst x, forms (snd x)) = ev_map W fuel (outer_of s) src root id tags rs u m (forms s) /\ stk (snd x) = stk s) ->
  own_entries (snd (Form_map W fuel id (ASrc (SBase (BPlain src))) tags rs u m s)).
Proof.
  intros T O U E [X _]. apply (f_equal snd) in X. cbn [snd] in X. intros j t' l' k v. rewrite X.
  intros Q. revert k v. apply (ev_map_keeps W fuel (outer_of s) src root id tags rs u m (forms s) t l) with (j := j); try assumption.
  intros i a b Z k v. exact (E i a b k v Z).
Qed.
Lemma C111_json_lem W fuel d strict loc id t l tags rs u m s :
  json_val d = true -> nth_error (forms s) id = Some (t, l) -> direct_form t -> (forall f, In f (ft_fields t) -> uncaptured f) -> direct_unm u -> ignores u -> mapping_context s ->
  own_entries s -> own_entries (snd (Form_map W fuel id (ASrc (SBase (BPlain (SJson d strict loc)))) tags rs u m s)).
Proof. intros J T D O DU U C E. apply (own_by W fuel _ d id t l); try assumption. now apply (C30_json_lem W fuel _ _ _ id t l). Qed.
Lemma C111_native_lem W fuel P d loc id t l tags rs u m s :
  plain_native (w_env W) P -> P d -> nth_error (forms s) id = Some (t, l) -> direct_form t -> (forall f, In f (ft_fields t) -> uncaptured f) -> direct_unm u -> ignores u -> mapping_context s ->
  own_entries s -> own_entries (snd (Form_map W fuel id (ASrc (SBase (BPlain (SDefault d [] [] loc)))) tags rs u m s)).
Proof. intros PN J T D O DU U C E. apply (own_by W fuel _ d id t l); try assumption. now apply (C30_native_lem W fuel P _ _ id t l). Qed.
Lemma C111_config_lem W fuel cfg sec d loc id t l tags rs u m s :
  config_given cfg sec d -> nth_error (forms s) id = Some (t, l) -> direct_form t -> (forall f, In f (ft_fields t) -> uncaptured f) -> direct_unm u -> ignores u -> mapping_context s ->
  own_entries s -> own_entries (snd (Form_map W fuel id (ASrc (SBase (BPlain (SConfig cfg sec d loc)))) tags rs u m s)).
Proof. intros G T D O DU U C E. apply (own_by W fuel _ (config_start cfg sec d) id t l); try assumption. now apply (C30_config_lem W fuel _ _ _ _ id t l). Qed.
