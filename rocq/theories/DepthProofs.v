(** * DepthProofs: a mapping that has the stack it needs does not depend on how much there is (C108). *)
From Coq Require Import List Lia.
From Verif Require Import PyBase PyStr Source Field Context Fields SpecSrc SpecField SpecForm SpecDepth Eval Refine Regime CfgRegime Balance OrderProofs.

Scheme wi_ind2 := Minimality for within Sort Prop with wk_ind2 := Minimality for within_kind Sort Prop with wu_ind2 := Minimality for within_unmapped Sort Prop.
Lemma within_up : (forall n f, within n f -> within (S n) f) /\ (forall n u, within_unmapped n u -> within_unmapped (S n) u).
Proof.
  split; [apply (wi_ind2 (fun n f => within (S n) f) (fun n k => within_kind (S n) k) (fun n u => within_unmapped (S n) u))
    |apply (wu_ind2 (fun n f => within (S n) f) (fun n k => within_kind (S n) k) (fun n u => within_unmapped (S n) u))];
    intros; first [now apply wk_single|now apply wk_tuple|now apply wk_list|now apply wk_dict|now apply wk_form|now apply wk_group|now constructor].
Qed.
Lemma within_le n m f : (n <= m)%nat -> within n f -> within m f.
Proof. intros L. induction L as [|m L IH]; [easy|]. intros O. apply (proj1 within_up), IH, O. Qed.
Lemma within_unm_le n m u : (n <= m)%nat -> within_unmapped n u -> within_unmapped m u.
Proof. intros L. induction L as [|m L IH]; [easy|]. intros O. apply (proj2 within_up), IH, O. Qed.

(** ** Every form is nested some way deep *)
Lemma bounded {A} (g : A -> field) : forall l : list A, (forall a, In a l -> exists n, within n (g a)) -> exists n, forall a, In a l -> within n (g a).
Proof.
  induction l as [|a l IH]; intros O; [exists 0%nat; intros a []|].
  destruct (O a (or_introl eq_refl)) as (n & N), IH as (m & M); [intros b I; apply O; now right|].
  exists (Nat.max n m). intros b [<-|I]; [eapply within_le; [|exact N]; lia|eapply within_le; [|exact (M b I)]; lia].
Qed.
Scheme df_ind2 := Minimality for direct Sort Prop with dk_ind2 := Minimality for direct_kind Sort Prop
  with dt_ind2 := Minimality for direct_form Sort Prop with du_ind2 := Minimality for direct_unm Sort Prop.
Definition some_depth : Prop :=
  (forall f, direct f -> exists n, within n f) /\ (forall t, direct_form t -> exists n, forall f, In f (ft_fields t) -> within n f) /\
  (forall u, direct_unm u -> exists n, within_unmapped n u).
Lemma every_depth : some_depth.
Proof.
  pose (A := fun f => exists n, within n f). pose (B := fun k => exists n, within_kind n k).
  pose (C := fun t => exists n, forall f, In f (ft_fields t) -> within n f). pose (D := fun u => exists n, within_unmapped n u).
  assert (S1 : forall k, single k -> B k) by (intros k K; exists 0%nat; now apply wk_single).
  assert (F : forall o k, direct_opts o -> direct_kind k -> B k -> A (MkField o k)) by (intros o k _ _ (n & K); exists (S n); now constructor).
  assert (T : forall fs, (forall f, In f fs -> direct f) -> (forall f, In f fs -> A f) -> B (KTuple fs)).
  { intros fs _ O. destruct (bounded (fun f => f) fs O) as (n & N). exists n. now apply wk_tuple. }
  assert (L : forall f lo hi a, direct f -> A f -> B (KList f lo hi a)) by (intros f lo hi a _ (n & N); exists n; now apply wk_list).
  assert (DD : forall kf vf keyf rq mx, direct kf -> A kf -> direct vf -> A vf -> direct_ohook keyf -> B (KDict kf vf keyf rq mx)).
  { intros kf vf keyf rq mx _ (n & N) _ (m & M) _. exists (Nat.max n m). apply wk_dict; eapply within_le; try eassumption; lia. }
  assert (SF : forall t rs u, direct_form t -> C t -> direct_unm u -> D u -> B (KSubForm t rs u)).
  { intros [c fs] rs u _ (n & N) _ (m & M). exists (Nat.max n m). apply wk_form; [intros f I; eapply within_le; [|exact (N f I)]; lia|eapply within_unm_le; [|exact M]; lia]. }
  assert (G : forall l, (forall m f, In (m, f) l -> direct f) -> (forall m f, In (m, f) l -> A f) -> B (KGroup l)).
  { intros l _ O. destruct (bounded snd l) as (n & N); [intros [m f] I; exact (O m f I)|]. exists n. apply wk_group. intros m f I. exact (N (m, f) I). }
  assert (FT : forall c fs, (forall f, In f fs -> direct f) -> (forall f, In f fs -> A f) -> C (FormTy c fs)) by (intros c fs _ O; exact (bounded (fun f => f) fs O)).
  assert (UF : forall f, direct f -> A f -> D (UField f)) by (intros f _ (n & N); exists (S n); now constructor).
  assert (UP : forall kf vf, direct kf -> A kf -> direct vf -> A vf -> D (UPair kf vf)).
  { intros kf vf _ (n & N) _ (m & M). exists (S (Nat.max n m)). constructor; eapply within_le; try eassumption; lia. }
  assert (U0 : D UIgnore /\ D UCapture /\ D UFalsy /\ forall s, D (UBad s)) by (repeat split; [exists 0%nat|exists 2%nat|exists 0%nat|intros s; exists 0%nat]; constructor).
  destruct U0 as (U1 & U2 & U3 & U4).
  split; [|split]; [apply (df_ind2 A B C D)|apply (dt_ind2 A B C D)|apply (du_ind2 A B C D)]; try assumption; intros; apply S1; exact I.
Qed.

(** ** With enough fuel *)
Definition alike {A} (m m' : Ev A) : Prop := forall s, m s = m' s.
Lemma alike_refl {A} (m : Ev A) : alike m m.
Proof. now intros s. Qed.
Lemma alike_bind {A B} (m m' : Ev A) (k k' : A -> Ev B) : alike m m' -> (forall a, alike (k a) (k' a)) -> alike (ebind m k) (ebind m' k').
Proof. intros M K s. unfold ebind. rewrite M. destruct (m' s) as [[a|e] s1]; [apply K|reflexivity]. Qed.
Lemma alike_catch {A B} (m m' : Ev A) (k k' : res A -> Ev B) : alike m m' -> (forall a, alike (k a) (k' a)) -> alike (ecatch m k) (ecatch m' k').
Proof. intros M K s. unfold ecatch. rewrite M. destruct (m' s) as [x s1]. apply K. Qed.

Section Rec.
Variables (W : world) (rec rec' : rd -> field -> val -> Ev val) (n : nat).
Hypothesis REC : forall r f v, within n f -> alike (rec r f v) (rec' r f v).
Lemma atuple r : forall fs i acc, (forall f, In f fs -> within n f) -> alike (ev_tuple W rec r i fs acc) (ev_tuple W rec' r i fs acc).
Proof.
  induction fs as [|f fs IH]; intros i acc O; cbn [ev_tuple]; [apply alike_refl|].
  apply alike_bind; [apply REC, O; now left|]. intros v. apply IH. intros g I. apply O. now right.
Qed.
Lemma alist r f : within n f -> forall k i acc, alike (ev_list W rec r i k f acc) (ev_list W rec' r i k f acc).
Proof.
  intros O. induction k as [|k IH]; intros i acc; cbn [ev_list]; [apply alike_refl|]. apply alike_bind; [now apply REC|]. intros v. apply IH.
Qed.
Lemma adict r keyf kf vf : within n kf -> within n vf -> forall keys acc, alike (ev_dict W rec r keyf kf vf keys acc) (ev_dict W rec' r keyf kf vf keys acc).
Proof.
  intros A B. induction keys as [|k keys IH]; intros acc; cbn [ev_dict]; [apply alike_refl|].
  apply alike_bind; [apply alike_refl|]. intros b. destruct (negb b); [apply IH|].
  apply alike_bind; [now apply REC|]. intros v. destruct (ignored v); [apply IH|].
  apply alike_bind; [now apply REC|]. intros k'. destruct (ignored k'); [apply IH|]. destruct (hashable k'); [apply IH|apply alike_refl].
Qed.
Lemma agroup r ml : (forall m f, In (m, f) ml -> within n f) -> forall keys k acc, alike (ev_group W rec r ml keys k acc) (ev_group W rec' r ml keys k acc).
Proof.
  intros O. induction keys as [|k keys IH]; intros c acc; cbn [ev_group]; [apply alike_refl|].
  unfold ebind at 1 3. cbn [elift]. intros s. destruct (group_match W ml k) as [[[f g]|]|e] eqn:G; cbn; [|apply IH|reflexivity].
  revert s. apply alike_bind; [|intros v; apply IH]. apply REC. destruct (Refine.group_In W ml k f g G) as (m & I). exact (O m f I).
Qed.
Lemma afields r id tags : forall fs, (forall f, In f fs -> within n f) -> alike (ev_fields rec r id tags fs) (ev_fields rec' r id tags fs).
Proof.
  induction fs as [|f fs IH]; intros O; cbn [ev_fields]; [apply alike_refl|]. apply alike_bind.
  - destruct (selected tags f); [|apply alike_refl]. apply alike_bind; [apply REC, O; now left|]. intros v. apply alike_refl.
  - intros _. apply IH. intros g I. apply O. now right.
Qed.
Lemma aunmapped r id u : within_unmapped n u -> alike (ev_unmapped rec r id u) (ev_unmapped rec' r id u).
Proof.
  intros U. assert (G : forall k kf vf, n = S k -> within k kf -> within k vf ->
    alike (v <~ rec r (unmapped_dict id kf vf) NONEv; eret (Some v)) (v <~ rec' r (unmapped_dict id kf vf) NONEv; eret (Some v))).
  { intros k kf vf -> A B. apply alike_bind; [|intros v; apply alike_refl]. apply REC. constructor. now apply wk_dict. }
  assert (P : forall k, within (S k) plain_string /\ within (S k) plain_field) by (intros k; split; constructor; apply wk_single; exact I).
  destruct U as [k|k|k s|k|k f F|k kf vf F F']; cbn [ev_unmapped]; try apply alike_refl.
  - apply (G (S k)); [reflexivity|apply P|apply P].
  - apply (G k); [reflexivity| |exact F]. inversion F. apply P.
  - now apply (G k).
Qed.
Lemma aform_map r id tags u t es h : (forall f, In f (ft_fields t) -> within n f) -> within_unmapped n u -> form_is t id h ->
  ev_form_map W rec r id tags u (es, h) = ev_form_map W rec' r id tags u (es, h).
Proof.
  intros O U F. rewrite (form_run W rec _ _ _ _ t _ _ F), (form_run W rec' _ _ _ _ t _ _ F).
  destruct (ev_mapping W r (es, h)) as [[v|e] s1]; [|reflexivity]. unfold rest.
  assert (B : alike (ebind (ev_fields rec (r_inform r id) id tags (ft_fields t)) (fun _ => ebind (ev_unmapped rec r id u) (fun o =>
      match o with None => eret tt | Some VNone => eret tt | Some (VDict d) => ebind (ev_entries id) (fun l => ev_set_entries id (dict_update l d)) | Some _ => eraise (EType "not iterable") end)))
    (ebind (ev_fields rec' (r_inform r id) id tags (ft_fields t)) (fun _ => ebind (ev_unmapped rec' r id u) (fun o =>
      match o with None => eret tt | Some VNone => eret tt | Some (VDict d) => ebind (ev_entries id) (fun l => ev_set_entries id (dict_update l d)) | Some _ => eraise (EType "not iterable") end)))); [|apply B].
  apply alike_bind; [now apply afields|]. intros _. apply alike_bind; [now apply aunmapped|]. intros o. apply alike_refl.
Qed.
Lemma aform r t rs u : (forall f, In f (ft_fields t) -> within n f) -> within_unmapped n u -> alike (ev_form W rec r t rs u) (ev_form W rec' r t rs u).
Proof.
  intros O U [es h]. set (id := length h). assert (F : form_is t id (h ++ [(t, [])])).
  { exists []. unfold id. rewrite nth_error_app2 by lia. now rewrite Nat.sub_diag. }
  assert (R : exists h1, form_is t id h1 /\ (if rs then ev_reset id (r_tags r) (ft_fields t) else eret tt) (es, h ++ [(t, [])]) = (Ok tt, (es, h1))).
  { destruct rs; [|exists (h ++ [(t, [])]); split; [exact F|reflexivity]].
    destruct (reset_keeps id (r_tags r) t (ft_fields t) _ F) as (h1 & Q & F1). exists h1. split; [exact F1|apply Q]. }
  destruct R as (h1 & F1 & R). unfold ev_form, ebind, ev_new. cbn [fst snd]. fold id. rewrite R. unfold ev_sub.
  now rewrite (aform_map (r_collecting r Collect) id (r_tags r) u t [] h1 O U F1).
Qed.
Lemma aparse r k : within_kind n k -> alike (ev_parse W rec r k) (ev_parse W rec' r k).
Proof.
  intros K. assert (N : forall m, m = n -> within_kind m k -> alike (ev_parse W rec r k) (ev_parse W rec' r k)); [clear K|exact (N n eq_refl K)].
  intros m Q K. destruct K as [m k S|m fs O|m f lo hi a O|m kf vf keyf rq mx A B|m c fs rs u O U|m l O]; subst m.
  - destruct k; try contradiction; apply alike_refl.
  - cbn [ev_parse]. apply alike_bind; [apply alike_refl|]. intros i. destruct (Nat.eqb i (length fs)); [|apply alike_refl].
    apply alike_bind; [now apply atuple|]. intros x. apply alike_refl.
  - cbn [ev_parse]. apply alike_catch; [apply alike_refl|]. intros [i|e].
    + apply alike_bind; [now apply alist|]. intros x. apply alike_refl.
    + destruct e; try apply alike_refl. destruct a; [|apply alike_refl]. apply alike_bind; [now apply REC|]. intros x. apply alike_refl.
  - cbn [ev_parse]. apply alike_bind; [apply alike_refl|]. intros vw. apply alike_bind; [apply alike_refl|]. intros ks.
    apply alike_bind; [now apply adict|]. intros x. apply alike_refl.
  - cbn [ev_parse]. now apply aform.
  - cbn [ev_parse]. apply alike_bind; [apply alike_refl|]. intros vw. apply alike_bind; [apply alike_refl|]. intros ks. now apply agroup.
Qed.
Lemma afield r f v : within (S n) f -> alike (ev_field_body W rec r f v) (ev_field_body W rec' r f v).
Proof.
  intros O. inversion O as [m o k K Q1 Q2]. subst m. set (f' := MkField o k). unfold ev_field_body.
  apply alike_bind; [apply alike_refl|]. intros q. apply alike_bind; [|intros w; apply alike_refl].
  unfold ev_body. destruct (is_NONE v); [|apply alike_refl]. apply alike_bind; [|intros w; apply alike_refl].
  destruct (o_compute (f_opts f')); [apply alike_refl|]. unfold ev_compute. apply alike_bind; [apply alike_refl|]. intros b. destruct (negb b); [apply alike_refl|].
  apply alike_bind; [apply alike_refl|]. intros b'. destruct b'; [apply alike_refl|]. apply alike_catch; [|intros x; apply alike_refl].
  destruct (o_parse (f_opts f')); [apply alike_refl|]. now apply aparse.
Qed.
End Rec.
Lemma ev_field_enough W : forall n fuel fuel' r f v, within n f -> (n <= fuel)%nat -> (n <= fuel')%nat -> alike (ev_field W fuel r f v) (ev_field W fuel' r f v).
Proof.
  induction n as [|n IH]; intros fuel fuel' r f v O A B; [inversion O|].
  destruct fuel as [|fuel], fuel' as [|fuel']; try lia. cbn [ev_field]. apply (afield W _ _ n); [|exact O].
  intros r0 f0 v0 O0. apply IH; [exact O0|lia|lia].
Qed.
Lemma ev_map_enough W n fuel fuel' o src root id tags rs u m h t x0 : nth_error h id = Some (t, x0) ->
  (forall f, In f (ft_fields t) -> within n f) -> within_unmapped n u -> (n <= fuel)%nat -> (n <= fuel')%nat ->
  ev_map W fuel o src root id tags rs u m h = ev_map W fuel' o src root id tags rs u m h.
Proof.
  intros T O U A B. set (tg := match tags with [] => ou_tags o | _ => tags end).
  assert (F : form_is t id h) by now exists x0.
  assert (Q : exists h1, form_is t id h1 /\ (if rs then ev_reset id tg (ft_fields t) else eret tt) ([], h) = (Ok tt, ([], h1))).
  { destruct rs; [|exists h; now split]. destruct (reset_keeps id tg t (ft_fields t) h F) as (h1 & Q & F1). exists h1. now split. }
  destruct Q as (h1 & F1 & Q).
  rewrite (map_run W fuel o src root id tags rs u m h t x0 h1 T Q), (map_run W fuel' o src root id tags rs u m h t x0 h1 T Q). fold tg.
  rewrite (aform_map W (ev_field W fuel) (ev_field W fuel') n) with (t := t); try assumption; [reflexivity|].
  intros r f v O0. now apply (ev_field_enough W n).
Qed.

Section Final.
Variables (W : world) (n fuel fuel' : nat) (id : nat) (t : formty) (x0 : list (val * val)) (tags : list string) (rs : bool) (u : unm) (m : mode) (s : st).
Hypothesis NT : nth_error (forms s) id = Some (t, x0).
Hypothesis O : forall f, In f (ft_fields t) -> within n f.
Hypothesis U : within_unmapped n u.
Hypothesis A : (n <= fuel)%nat.
Hypothesis B : (n <= fuel')%nat.
Lemma enough_by src root :
  (forall k, let x := Form_map W k id (ASrc (SBase (BPlain src))) tags rs u m s in
   (fst x, forms (snd x)) = ev_map W k (outer_of s) src root id tags rs u m (forms s) /\ stk (snd x) = stk s) ->
  let x := Form_map W fuel id (ASrc (SBase (BPlain src))) tags rs u m s in
  let y := Form_map W fuel' id (ASrc (SBase (BPlain src))) tags rs u m s in
  fst x = fst y /\ forms (snd x) = forms (snd y) /\ stk (snd x) = stk (snd y).
Proof.
  intros E. destruct (E fuel) as [X X'], (E fuel') as [Y Y'].
  rewrite (ev_map_enough W n fuel fuel' _ _ _ _ _ _ _ _ _ t x0 NT O U A B), <- Y in X. injection X as X1 X2. cbv zeta. now rewrite X', Y'.
Qed.
End Final.
Lemma C108_json_lem W n fuel fuel' d strict loc id t x0 tags rs u m s :
  json_val d = true -> nth_error (forms s) id = Some (t, x0) -> direct_form t -> direct_unm u -> mapping_context s ->
  (forall f, In f (ft_fields t) -> within n f) -> within_unmapped n u -> (n <= fuel)%nat -> (n <= fuel')%nat ->
  let x := Form_map W fuel id (ASrc (SBase (BPlain (SJson d strict loc)))) tags rs u m s in
  let y := Form_map W fuel' id (ASrc (SBase (BPlain (SJson d strict loc)))) tags rs u m s in
  fst x = fst y /\ forms (snd x) = forms (snd y) /\ stk (snd x) = stk (snd y).
Proof.
  intros J NT D DU C O U A B. apply (enough_by W n fuel fuel' id t x0 tags rs u m s NT O U A B _ d).
  intros k. now apply (C30_json_lem W k _ _ _ id t x0).
Qed.
Lemma C108_native_lem W n fuel fuel' P d loc id t x0 tags rs u m s :
  plain_native (w_env W) P -> P d -> nth_error (forms s) id = Some (t, x0) -> direct_form t -> direct_unm u -> mapping_context s ->
  (forall f, In f (ft_fields t) -> within n f) -> within_unmapped n u -> (n <= fuel)%nat -> (n <= fuel')%nat ->
  let x := Form_map W fuel id (ASrc (SBase (BPlain (SDefault d [] [] loc)))) tags rs u m s in
  let y := Form_map W fuel' id (ASrc (SBase (BPlain (SDefault d [] [] loc)))) tags rs u m s in
  fst x = fst y /\ forms (snd x) = forms (snd y) /\ stk (snd x) = stk (snd y).
Proof.
  intros PN Pd NT D DU C O U A B. apply (enough_by W n fuel fuel' id t x0 tags rs u m s NT O U A B _ d).
  intros k. now apply (C30_native_lem W k P _ _ id t x0).
Qed.
Lemma C108_config_lem W n fuel fuel' cfg sec d loc id t x0 tags rs u m s :
  config_given cfg sec d -> nth_error (forms s) id = Some (t, x0) -> direct_form t -> direct_unm u -> mapping_context s ->
  (forall f, In f (ft_fields t) -> within n f) -> within_unmapped n u -> (n <= fuel)%nat -> (n <= fuel')%nat ->
  let x := Form_map W fuel id (ASrc (SBase (BPlain (SConfig cfg sec d loc)))) tags rs u m s in
  let y := Form_map W fuel' id (ASrc (SBase (BPlain (SConfig cfg sec d loc)))) tags rs u m s in
  fst x = fst y /\ forms (snd x) = forms (snd y) /\ stk (snd x) = stk (snd y).
Proof.
  intros G NT D DU C O U A B. apply (enough_by W n fuel fuel' id t x0 tags rs u m s NT O U A B _ (config_start cfg sec d)).
  intros k. now apply (C30_config_lem W k _ _ _ _ id t x0).
Qed.
Lemma C108_depth_lem t u : direct_form t -> direct_unm u -> exists n, (forall f, In f (ft_fields t) -> within n f) /\ within_unmapped n u.
Proof.
  intros D DU. destruct every_depth as (_ & T & V). destruct (T t D) as (n & N), (V u DU) as (m & M). exists (Nat.max n m).
  split; [intros f I; eapply within_le; [|exact (N f I)]; lia|eapply within_unm_le; [|exact M]; lia].
Qed.
