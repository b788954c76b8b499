(** * ModeProofs: collect and raise mode (C40, C41). *)
From Verif Require Import PyBase PyStr Source Field Context Fields SpecSrc SrcPath SrcProofs Shape Balance Eval Refine Regime CfgRegime SpecForm SpecJson CrashProofs.
From Coq Require Import Lia.

(** Errors are only appended. *)
Definition ext {A} (x : Ev A) : Prop := forall s, exists new, fst (snd (x s)) = fst s ++ new.
(** Two runs, [x] collecting and [y] raising: either they are the same, or [y] raises a
    [FormError] that has an error in common with [x], after the same errors.  With [b], at
    most one error is reported, and then [y] raises it. *)
Definition tw {A} (b : bool) (x y : Ev A) : Prop :=
  ext x /\ forall s,
    (y s = x s /\ (b = true -> fst (snd (x s)) = fst s)) \/
    exists new e more more' h,
      y s = (Exn (EForm (fst s ++ new ++ e :: more')), (fst s ++ new ++ e :: more', h)) /\
      fst (snd (x s)) = fst s ++ new ++ e :: more /\ (b = true -> new = [] /\ more' = []).

Lemma ext_ret {A} (a : A) : ext (eret a). Proof. intros s. exists []. cbn. now rewrite app_nil_r. Qed.
Lemma ext_raise {A} e : ext (@eraise A e). Proof. intros s. exists []. cbn. now rewrite app_nil_r. Qed.
Lemma ext_bind {A B} (x : Ev A) (k : A -> Ev B) : ext x -> (forall a, ext (k a)) -> ext (ebind x k).
Proof.
  intros X K s. unfold ebind. destruct (X s) as (n1 & H1). destruct (x s) as [[a|e] s1]; cbn [fst snd] in *; [|eauto].
  destruct (K a s1) as (n2 & H2). exists (n1 ++ n2). now rewrite H2, H1, app_assoc.
Qed.
Lemma tw_same {A} (x : Ev A) : (forall s, fst (snd (x s)) = fst s) -> tw true x x.
Proof. intros H. split; [intros s; exists []; now rewrite H, app_nil_r|]. intros s. left. auto. Qed.
Lemma tw_ext {A} (x : Ev A) : ext x -> tw false x x.
Proof. intros H. split; [exact H|]. intros s. left. split; [reflexivity|discriminate]. Qed.
Lemma tw_weak {A} b (x y : Ev A) : tw true x y -> tw b x y.
Proof.
  intros [E H]. split; [exact E|]. intros s. destruct (H s) as [[H1 H2]|(n & e & m1 & m2 & h & H1 & H2 & H3)]; [left; auto|].
  right. exists n, e, m1, m2, h. auto.
Qed.
Lemma tw_ret {A} b (a : A) : tw b (eret a) (eret a). Proof. apply tw_weak, tw_same. reflexivity. Qed.
Lemma tw_raise {A} b e : tw b (@eraise A e) (eraise e). Proof. apply tw_weak, tw_same. reflexivity. Qed.
Lemma tw_bind {A B} b (x y : Ev A) (k k' : A -> Ev B) : tw b x y -> (forall a, tw b (k a) (k' a)) -> tw b (ebind x k) (ebind y k').
Proof.
  intros [EX X] K. split; [apply ext_bind; [exact EX|intros a; exact (proj1 (K a))]|].
  intros s. unfold ebind. destruct (X s) as [[X1 X2]|(n & e & m1 & m2 & h & X1 & X2 & X3)].
  - rewrite X1. destruct (EX s) as (n0 & N0). destruct (x s) as [[a|e] s1] eqn:Q; cbn [fst snd] in *; [|left; auto].
    destruct (K a) as [_ KA]. destruct (KA s1) as [[K1 K2]|(n & e & m1 & m2 & h & K1 & K2 & K3)].
    + left. rewrite K1. split; [reflexivity|]. intros ->. rewrite K2, X2; auto.
    + right. exists (n0 ++ n), e, m1, m2, h. rewrite K1, K2, N0, <- !app_assoc. split; [reflexivity|]. split; [reflexivity|].
      intros ->. destruct (K3 eq_refl) as [-> ->]. rewrite (X2 eq_refl) in N0. split; [|reflexivity]. rewrite app_nil_r.
      apply (app_inv_head (fst s)). now rewrite app_nil_r, <- N0.
  - right. rewrite X1. destruct (x s) as [[a|e0] s1] eqn:Q; cbn [fst snd] in *.
    + destruct (proj1 (K a) s1) as (n2 & N2). exists n, e, (m1 ++ n2), m2, h. split; [reflexivity|]. split; [|exact X3].
      rewrite N2, X2, <- !app_assoc. cbn [app]. reflexivity.
    + exists n, e, m1, m2, h. auto.
Qed.

Lemma tw_eq {A} b (x x' y y' : Ev A) : (forall s, x s = x' s) -> (forall s, y s = y' s) -> tw b x' y' -> tw b x y.
Proof. intros X Y [EX H]. split; [intros s; rewrite X; apply EX|]. intros s. rewrite X, Y. apply H. Qed.

Section Mode.
Variables (W : world) (root : val) (Loc : val -> Prop).
Let E := w_env W.
Variable src : psource.
Hypothesis RG : regime E src root Loc.
Notation co r := (r_collecting r Collect).
Notation ra r := (r_collecting r Raise).

(** Places whose text can be written *)
Record told (r : rd) : Prop := {
  td_keys : Forall plain_key (r_keys r);
  td_src : r_src r = src;
  td_field : exists n, r_field r = Ok n
}.
(** Places from which fields are mapped *)
Record inv (r : rd) : Prop := {
  iv_keys : Forall plain_key (r_keys r);
  iv_src : r_src r = src;
  iv_val : exists v, r_val r = Ok v /\ (Loc v \/ (absorbing E src /\ v = VConst NONE))
}.
Lemma rest_str_ok ks : Forall plain_key ks -> exists t, rest_str ks = Ok t.
Proof. induction 1 as [|k ks K _ (t & IH)]; cbn [rest_str]; [eauto|]. rewrite IH. destruct k; [eauto|eauto|contradiction]. Qed.
Lemma pkeys_ok src0 ks : Forall plain_key ks -> exists t, pkeys_str E src0 ks = Ok t.
Proof. intros H. unfold pkeys_str, keys_str. destruct H as [|k ks K H]; [eauto|]. destruct (rest_str_ok ks H) as (t & ->). eauto. Qed.

Lemma tw_report r kd : told r -> tw true (ev_report W (co r) kd) (ev_report W (ra r) kd).
Proof.
  intros [K S (n & N)]. destruct (pkeys_ok (r_src r) (r_keys r) K) as (t & T). unfold E in T.
  split.
  - intros [es h]. unfold ev_report. cbn [r_collecting r_field r_src r_keys r_pid r_mode]. rewrite N, T. cbn. eauto.
  - intros [es h]. right. unfold ev_report. cbn [r_collecting r_field r_src r_keys r_pid r_mode]. rewrite N, T. cbn [fst snd].
    exists [], (MkErr kd t n (Some (r_pid r))), [], [], h. cbn. auto.
Qed.
Lemma tw_invalid b r x : told r -> tw b (ev_invalid W (co r) x) (ev_invalid W (ra r) x).
Proof. intros T. apply tw_bind; [apply tw_weak, tw_report, T|intros; apply tw_ret]. Qed.
Lemma tw_missing b r : told r -> tw b (ev_missing W (co r)) (ev_missing W (ra r)).
Proof. intros T. apply tw_bind; [|intros; apply tw_ret]. cbn [r_collecting r_igm]. destruct (r_igm r); [apply tw_ret|apply tw_weak, tw_report, T]. Qed.
Lemma tw_default b r f : bare_opts (f_opts f) -> told r -> tw b (ev_default W (co r) f) (ev_default W (ra r) f).
Proof.
  intros B T. unfold ev_default. cbn [r_collecting r_igd]. destruct (r_igd r); [now apply tw_missing|].
  destruct (br_default _ B) as [-> |(v & ->)]; [now apply tw_missing|]. destruct v; try apply tw_ret. destruct c; try apply tw_ret. now apply tw_missing.
Qed.
Lemma tw_translate b f v : tw b (ev_translate f v) (ev_translate f v).
Proof. apply tw_weak, tw_same. intros s. unfold ev_translate. destruct (o_translations (f_opts f)); [reflexivity|]. now destruct (hashable v). Qed.
Lemma tw_validate b r f v : told r -> tw b (ev_validate W (co r) f v) (ev_validate W (ra r) f v).
Proof.
  intros T. pose proof (tw_bind b _ _ (fun _ => eret false) (fun _ => eret false) (tw_weak b _ _ (tw_report r Missing T)) (fun _ => tw_ret b false)) as Z.
  assert (Y : forall x, tw b (ev_report W (co r) (Invalid x);;; eret false) (ev_report W (ra r) (Invalid x);;; eret false)).
  { intros x. apply tw_bind; [apply tw_weak, tw_report, T|intros; apply tw_ret]. }
  split.
  - intros s. unfold ev_validate. destruct (field_violation _ (hents (snd s)) f v) as [[x|]|e]; try (exists []; cbn; now rewrite app_nil_r).
    exact (proj1 (Y x) s).
  - intros s. unfold ev_validate. destruct (field_violation _ (hents (snd s)) f v) as [[x|]|e]; try (left; auto; fail). exact (proj2 (Y x) s).
Qed.
Lemma tw_after b r f v : bare_opts (f_opts f) -> told r -> tw b (ev_after W (co r) f v) (ev_after W (ra r) f v).
Proof.
  intros B T. unfold ev_after, ev_hook_or. rewrite (br_munge _ B), (br_filter _ B), (br_validate _ B).
  apply tw_bind; [apply tw_translate|]. intros w. apply tw_bind; [destruct (ignored w); apply tw_ret|]. intros x.
  destruct (is_NONE x); [now apply tw_default|]. destruct (ignored x); [apply tw_ret|]. destruct (negb (field_filter f x)); [now apply tw_default|].
  apply tw_bind; [apply tw_ret|]. intros ok. destruct (negb ok); [now apply tw_default|]. apply tw_bind; [now apply tw_validate|].
  intros ok'. destruct (negb ok'); [apply tw_ret|]. apply tw_bind; [apply tw_ret|]. intros; apply tw_ret.
Qed.

(** ** Places below *)
Lemma inv_here r v : inv r -> r_val r = Ok v -> is_NONE v = false -> Loc v.
Proof. intros [_ _ (w & V & L)] H N. rewrite V in H. injection H as ->. destruct L as [L|[_ ->]]; [exact L|discriminate]. Qed.
Lemma at_inv r k v w : Forall plain_key (r_keys r) -> r_src r = src -> r_val r = Ok v -> Loc v -> plain_key k ->
  psource_resolve E no_ents src [] v k = Ok w -> absorbing E src \/ is_NONE w = false -> inv (r_at W r k).
Proof.
  intros K S V L P R A. split; cbn [r_at r_keys r_src r_val].
  - apply Forall_app. auto.
  - exact S.
  - exists w. unfold r_child. rewrite V, S. split; [exact R|].
    destruct (rg_step _ _ _ _ RG v k w L P R) as [-> |H]; [|auto]. right. destruct A as [A|A]; [auto|discriminate].
Qed.
Lemma inv_told r : inv r -> (exists n, r_field r = Ok n) -> told r.
Proof. intros [A B _] F. split; assumption. Qed.

Variable rec : rd -> field -> val -> Ev val.
Hypothesis REC : forall r f v, bare f -> inv r -> tw (single f) (rec (co r) f v) (rec (ra r) f v).

Lemma tw_false {A} b (x y : Ev A) : tw b x y -> tw false x y.
Proof. destruct b; [apply tw_weak|auto]. Qed.
Lemma rec_false r f v : bare f -> inv r -> tw false (rec (co r) f v) (rec (ra r) f v).
Proof. intros B I0. eapply tw_false, REC; eauto. Qed.
Lemma tw_list r f v : bare f -> inv r -> r_val r = Ok v -> Loc v -> forall n i acc total,
  psource_sequence E src v = Ok total -> 0 <= i -> i + Z.of_nat n <= Z.of_nat total ->
  tw false (ev_list W rec (co r) i n f acc) (ev_list W rec (ra r) i n f acc).
Proof.
  intros B I0 V L. induction n as [|n IH]; intros i acc total Q P T; cbn [ev_list]; [apply tw_ret|].
  apply tw_bind; [|intros w; eapply IH; eauto; lia].
  destruct (rg_seq _ _ _ _ RG v total i L Q ltac:(lia)) as (w & R & A).
  apply (rec_false (r_at W r (KInt i)) f NONEv B). eapply at_inv; eauto using iv_keys, iv_src. exact I.
Qed.
Lemma tw_tuple r v : inv r -> r_val r = Ok v -> Loc v -> forall fs i acc total, (forall f, In f fs -> bare f) ->
  psource_sequence E src v = Ok total -> 0 <= i -> i + Z.of_nat (length fs) <= Z.of_nat total ->
  tw false (ev_tuple W rec (co r) i fs acc) (ev_tuple W rec (ra r) i fs acc).
Proof.
  intros I0 V L. induction fs as [|f fs IH]; intros i acc total B Q P T; cbn [ev_tuple length] in *; [apply tw_ret|].
  apply tw_bind; [|intros w; eapply IH; eauto; try lia; intros g G; apply B; now right].
  destruct (rg_seq _ _ _ _ RG v total i L Q ltac:(lia)) as (w & R & A).
  apply (rec_false (r_at W r (KInt i)) f NONEv (B f (or_introl eq_refl))). eapply at_inv; eauto using iv_keys, iv_src. exact I.
Qed.
Definition fine_keys (r : rd) (l : list val) : Prop := forall k, In k l -> inv (r_at W r (key_of_val k)).
Lemma map_fine r v d l : inv r -> r_val r = Ok v -> Loc v -> psource_mapping E no_ents src d v = Ok (Ok l) -> fine_keys r l.
Proof.
  intros I0 V L Q k Hk. destruct (rg_map _ _ _ _ RG v d l k L Q Hk) as (P & w & R & A). eapply at_inv; eauto using iv_keys, iv_src.
Qed.
Definition quiet_filter (keyf : option (hook prog)) : Prop := keyf = None \/ exists id, keyf = Some (not_in_form id).
Lemma tw_accept b r keyf k : quiet_filter keyf -> tw b (ev_accept W (co r) keyf k) (ev_accept W (ra r) keyf k).
Proof.
  intros [-> |(id & ->)]; [apply tw_ret|]. unfold ev_accept, ev_hook_or. apply tw_bind; [|intros; apply tw_ret].
  unfold ev_hook. cbn [hk_attached not_in_form hk_fun ev_prog]. apply tw_bind; [apply tw_ret|]. intros _.
  apply tw_weak. set (F := fun r0 => ecatch (ev_item id k) (fun x => ev_prog W r0 (match x with Ok _ => PRet (VBool false) | Exn _ => PRet (VBool true) end))).
  assert (X : forall r1 r2 s, F r1 s = F r2 s). { intros r1 r2 s. unfold F, ecatch. destruct (ev_item id k s) as [[]]; reflexivity. }
  assert (Y : forall r1 s, fst (snd (F r1 s)) = fst s).
  { intros r1 s. unfold F, ecatch, ev_item, ebind, ev_entries. destruct (hashable k); [|reflexivity]. cbn [snd]. destruct (dict_get _ k); reflexivity. }
  split; [intros s; exists []; rewrite app_nil_r; apply Y|]. intros s. left. split; [apply (X (ra r) (co r))|]. intros _. apply Y.
Qed.
Lemma tw_dict r keyf kf vf : quiet_filter keyf -> bare kf -> bare vf -> inv r -> forall l acc, fine_keys r l ->
  tw false (ev_dict W rec (co r) keyf kf vf l acc) (ev_dict W rec (ra r) keyf kf vf l acc).
Proof.
  intros QF BK BV I0. induction l as [|k l IH]; intros acc FK; cbn [ev_dict]; [apply tw_ret|].
  assert (FK' : fine_keys r l) by (intros x X; apply FK; now right).
  apply tw_bind; [now apply tw_accept|]. intros b. destruct (negb b); [now apply IH|].
  apply tw_bind; [apply (rec_false (r_at W r (key_of_val k)) vf NONEv BV), FK; now left|]. intros v. destruct (ignored v); [now apply IH|].
  apply tw_bind; [now apply rec_false|]. intros k'. destruct (ignored k'); [now apply IH|]. destruct (hashable k'); [now apply IH|apply tw_raise].
Qed.
Lemma tw_group r g : (forall m f, In (m, f) g -> bare f) -> inv r -> forall l n acc, fine_keys r l ->
  tw false (ev_group W rec (co r) g l n acc) (ev_group W rec (ra r) g l n acc).
Proof.
  intros B I0. induction l as [|k l IH]; intros n acc FK; cbn [ev_group]; [apply tw_ret|].
  assert (FK' : fine_keys r l) by (intros x X; apply FK; now right).
  pose proof (group_In W g k) as GM. destruct (group_match W g k) as [[[f c]|]|e].
  - destruct (GM f c eq_refl) as (m & Im).
    refine (tw_eq false _ _ _ _ (fun s => eq_refl) (fun s => eq_refl) _).
    apply (tw_bind false (rec (r_at W (co r) (key_of_val k)) f NONEv) (rec (r_at W (ra r) (key_of_val k)) f NONEv)
      (fun v => ev_group W rec (co r) g l (S n) (if ignored v then acc else acc ++ [VTuple [k; c; v]]))
      (fun v => ev_group W rec (ra r) g l (S n) (if ignored v then acc else acc ++ [VTuple [k; c; v]]))).
    + apply (rec_false (r_at W r (key_of_val k)) f NONEv (B m f Im)), FK. now left.
    + intros v. now apply IH.
  - exact (IH n acc FK').
  - apply (tw_raise false e).
Qed.

(** ** Forms *)
Lemma same_entries id l : forall s, fst (snd (ev_set_entries id l s)) = fst s.
Proof. intros s. unfold ev_set_entries. destruct (nth_error (snd s) id) as [[]|]; reflexivity. Qed.
Lemma tw_set b id k v : tw b (ev_set id k v) (ev_set id k v).
Proof. apply tw_weak, tw_same. intros s. unfold ev_set, ebind, ev_entries. apply same_entries. Qed.
Lemma tw_fields r id tags fs b : (forall f, In f fs -> bare f) -> (b = true -> forall f, In f fs -> single f = true) -> inv r ->
  tw b (ev_fields rec (co r) id tags fs) (ev_fields rec (ra r) id tags fs).
Proof.
  intros B SG I0. induction fs as [|f fs IH]; cbn [ev_fields]; [apply tw_ret|].
  apply tw_bind; [|intros _; apply IH; [intros g G; apply B; now right|intros Hb g G; apply SG; [exact Hb|now right]]].
  destruct (selected tags f); [|apply tw_ret]. apply tw_bind; [|intros v; destruct (ignored v); [apply tw_ret|apply tw_set]].
  pose proof (REC r f NONEv (B f (or_introl eq_refl)) I0) as X. destruct b; [|eapply tw_false; exact X].
  now rewrite (SG eq_refl f (or_introl eq_refl)) in X.
Qed.
Lemma bare_no_opts : bare_opts no_opts.
Proof. split; cbn; auto; discriminate. Qed.
Lemma bare_plain_string : bare plain_string. Proof. constructor; [apply bare_no_opts|constructor]. Qed.
Lemma bare_plain_field : bare plain_field. Proof. constructor; [apply bare_no_opts|constructor]. Qed.
Hypothesis UNM : forall r id kf vf, bare kf -> bare vf -> inv r ->
  tw false (rec (co r) (unmapped_dict id kf vf) NONEv) (rec (ra r) (unmapped_dict id kf vf) NONEv).
Lemma tw_unmapped r id u : bare_unm u -> inv r -> tw false (ev_unmapped rec (co r) id u) (ev_unmapped rec (ra r) id u).
Proof.
  intros B I0.
  assert (GO : forall kf vf, bare kf -> bare vf ->
    tw false (v <~ rec (co r) (unmapped_dict id kf vf) NONEv; eret (Some v)) (v <~ rec (ra r) (unmapped_dict id kf vf) NONEv; eret (Some v))).
  { intros kf vf A C. apply tw_bind; [now apply UNM|intros; apply tw_ret]. }
  destruct B; cbn [ev_unmapped]; try apply tw_ret; try apply tw_raise; apply GO; auto using bare_plain_string, bare_plain_field.
Qed.
Lemma tw_form_map r id tags u s t l b : bare_form t -> bare_unm u -> inv r -> nth_error (snd s) id = Some (t, l) ->
  (b = true -> (forall f, In f (ft_fields t) -> single f = true) /\ ignoring u) ->
  forall x y, x = ev_form_map W rec (co r) id tags u s -> y = ev_form_map W rec (ra r) id tags u s ->
    (y = x /\ (b = true -> fst (snd x) = fst s)) \/
    exists new e more more' h, y = (Exn (EForm (fst s ++ new ++ e :: more')), (fst s ++ new ++ e :: more', h)) /\
      fst (snd x) = fst s ++ new ++ e :: more /\ (b = true -> new = [] /\ more' = []).
Proof.
  intros BF BU I0 N SG x y -> ->. destruct BF as [nm fs B].
  assert (X : tw b (ev_mapping W (co r);;; ev_fields rec (r_inform (co r) id) id tags fs;;;
     o <~ ev_unmapped rec (co r) id u; match o with None => eret tt | Some VNone => eret tt | Some (VDict d) => l <~ ev_entries id; ev_set_entries id (dict_update l d) | Some _ => eraise (EType "not iterable") end)
    (ev_mapping W (ra r);;; ev_fields rec (r_inform (ra r) id) id tags fs;;;
     o <~ ev_unmapped rec (ra r) id u; match o with None => eret tt | Some VNone => eret tt | Some (VDict d) => l <~ ev_entries id; ev_set_entries id (dict_update l d) | Some _ => eraise (EType "not iterable") end)).
  { apply tw_bind; [apply tw_weak, tw_same; reflexivity|]. intros _.
    apply tw_bind.
    - apply (tw_fields (r_inform r id) id tags fs b B); [|destruct I0; split; assumption]. intros Hb. exact (proj1 (SG Hb)).
    - intros _. apply tw_bind.
      + destruct b; [|now apply tw_unmapped]. destruct (SG eq_refl) as [_ [-> | ->]]; apply tw_ret.
      + intros [v|]; [|apply tw_ret]. destruct v; try apply tw_ret; try apply tw_raise.
        apply tw_weak, tw_same. intros s0. unfold ebind, ev_entries. apply same_entries. }
  destruct X as [_ X]. specialize (X s).
  assert (Q : forall r0, ev_form_map W rec r0 id tags u s = (ev_mapping W r0;;; ev_fields rec (r_inform r0 id) id tags fs;;;
     o <~ ev_unmapped rec r0 id u; match o with None => eret tt | Some VNone => eret tt | Some (VDict d) => l <~ ev_entries id; ev_set_entries id (dict_update l d) | Some _ => eraise (EType "not iterable") end) s).
  { assert (TY : forall B (k : formty -> Ev B), ebind (ev_type id) k s = k (FormTy nm fs) s) by (intros; unfold ebind, ev_type; unfold heap in *; now rewrite N).
    intros r0. unfold ev_form_map, ev_mapping, on_val, elift. destruct (match r_val r0 with Ok v => _ | Exn e => _ end); [|reflexivity].
    unfold ebind at 1. cbv beta iota. etransitivity; [refine (TY _ _)|reflexivity]. }
  rewrite !Q. exact X.
Qed.
Lemma ext_sub (m : Ev unit) : ext (ev_sub m).
Proof. intros [es h]. unfold ev_sub. destruct (m ([], h)) as [[x|e] [es' h']]; cbn; eauto. exists []. now rewrite app_nil_r. Qed.
Lemma ext_same {A} (x : Ev A) : (forall s, fst (snd (x s)) = fst s) -> ext x.
Proof. intros H s. exists []. now rewrite H, app_nil_r. Qed.
Lemma same_reset id tags fs : forall s, fst (snd (ev_reset id tags fs s)) = fst s.
Proof.
  induction fs as [|f fs IH]; intros s; cbn [ev_reset]; [reflexivity|]. unfold ebind at 1.
  destruct (selected tags f); [|apply IH]. unfold ev_del, ev_entries, ebind at 1. destruct (dict_has _ _); [|apply IH].
  pose proof (same_entries id (dict_del (hents (snd s) id) (VStr (fname f))) s) as Q. destruct (ev_set_entries _ _ s) as [[|] s']; cbn [fst snd] in *; [now rewrite IH|exact Q].
Qed.
Lemma tw_sub r t rs u : tw false (ev_form W rec (co r) t rs u) (ev_form W rec (ra r) t rs u).
Proof.
  apply tw_ext. unfold ev_form. apply ext_bind; [apply ext_same; reflexivity|]. intros id. apply ext_bind.
  - destruct rs; [apply ext_same, same_reset|apply ext_ret].
  - intros _. apply ext_bind; [apply ext_sub|intros; apply ext_ret].
Qed.

(** ** Fields *)
Lemma tw_on {A B} b r v (g : val -> res A) (k k' : A -> Ev B) : r_val r = Ok v ->
  (forall a, g v = Ok a -> tw b (k a) (k' a)) -> tw b (ebind (on_val (co r) g) k) (ebind (on_val (ra r) g) k').
Proof.
  intros V K. unfold on_val. cbn [r_collecting r_val]. rewrite V. destruct (g v) as [a|e] eqn:Q.
  - exact (tw_eq b _ _ _ _ (fun s => eq_refl) (fun s => eq_refl) (K a eq_refl)).
  - exact (tw_raise b e).
Qed.
Lemma tw_const {A} (x : Ev A) : (forall s, fst (snd (x s)) = fst s) -> forall b, tw b x x.
Proof. intros H b. now apply tw_weak, tw_same. Qed.
Lemma tw_parse r f v : bare_kind (f_kind f) -> inv r -> told r -> r_val r = Ok v -> Loc v ->
  tw (single f) (ev_parse W rec (co r) (f_kind f)) (ev_parse W rec (ra r) (f_kind f)).
Proof.
  intros B I0 T V L.
  assert (PR : forall b ty, tw b (ev_primitive W (co r) ty) (ev_primitive W (ra r) ty)).
  { intros b ty. apply tw_weak, tw_same. reflexivity. }
  assert (VA : forall b, tw b (ev_value (co r)) (ev_value (ra r))) by (intros b; apply tw_weak, tw_same; reflexivity).
  assert (ST : forall b w, tw b (ev_need_str w) (ev_need_str w)) by (intros b w; destruct w; try apply tw_raise; apply tw_ret).
  unfold single. destruct B; cbn [ev_parse]; try apply PR.
  - unfold ev_decimal. apply tw_bind; [apply VA|]. intros w.
    assert (X : tw true (match dec_of_number w with Some d => eret (VDec d) | None => w0 <~ ev_primitive W (co r) TyStr;
        match w0 with VStr s => match e_dec (w_env W) s with Some d => eret (VDec d) | None => eraise EDecimal end | VDec _ => eret w0
        | _ => match dec_of_number w0 with Some d => eret (VDec d) | None => eraise (EType "Cannot convert to Decimal") end end end)
      (match dec_of_number w with Some d => eret (VDec d) | None => w0 <~ ev_primitive W (ra r) TyStr;
        match w0 with VStr s => match e_dec (w_env W) s with Some d => eret (VDec d) | None => eraise EDecimal end | VDec _ => eret w0
        | _ => match dec_of_number w0 with Some d => eret (VDec d) | None => eraise (EType "Cannot convert to Decimal") end end end)).
    { destruct (dec_of_number w); [apply tw_ret|]. apply tw_bind; [apply PR|]. intros x.
      destruct x; try apply tw_ret; try (destruct (dec_of_number _); [apply tw_ret|apply tw_raise]). destruct (e_dec _ s); [apply tw_ret|apply tw_raise]. }
    destruct w; try exact X. apply tw_ret.
  - set (b := match fmts with [] => false | _ => true end). unfold ev_date. apply tw_bind; [apply VA|]. intros w.
    assert (X : tw b (w0 <~ ev_primitive W (co r) TyStr; match fmts with [] => ev_invalid W (co r) (VioFormat w0) | _ => s <~ ev_need_str w0; eret (try_date W fmts s) end)
      (w0 <~ ev_primitive W (ra r) TyStr; match fmts with [] => ev_invalid W (ra r) (VioFormat w0) | _ => s <~ ev_need_str w0; eret (try_date W fmts s) end)).
    { apply tw_bind; [apply PR|]. intros x. destruct fmts; [now apply tw_invalid|]. apply tw_bind; [apply ST|intros; apply tw_ret]. }
    destruct w; try exact X; apply tw_ret.
  - set (b := match fmt with None => false | _ => true end). unfold ev_time. apply tw_bind; [apply VA|]. intros w.
    assert (X : tw b (w0 <~ ev_primitive W (co r) TyStr; match fmt with None => ev_invalid W (co r) (VioFormat w0)
        | Some fm => s <~ ev_need_str w0; match e_strptime_time (w_env W) s fm with Some t => eret (VTime t) | None => eraise (EValue "time data does not match format") end end)
      (w0 <~ ev_primitive W (ra r) TyStr; match fmt with None => ev_invalid W (ra r) (VioFormat w0)
        | Some fm => s <~ ev_need_str w0; match e_strptime_time (w_env W) s fm with Some t => eret (VTime t) | None => eraise (EValue "time data does not match format") end end)).
    { apply tw_bind; [apply PR|]. intros x. destruct fmt; [|now apply tw_invalid]. apply tw_bind; [apply ST|]. intros y. destruct (e_strptime_time _ _ _); [apply tw_ret|apply tw_raise]. }
    destruct w; try exact X; apply tw_ret.
  - unfold ev_datetime. apply tw_bind; [apply VA|]. intros w.
    assert (X : tw false (w0 <~ ev_primitive W (co r) TyStr; match fmt with None => ev_invalid W (co r) (VioFormat w0)
        | Some fm => s <~ ev_need_str w0; if String.eqb fm "iso8601" then match e_iso (w_env W) s with Some t => eret (VDatetime t) | None => ev_invalid W (co r) (VioText "Unable to parse date string") end
            else match e_strp (w_env W) s fm with Some t => eret (VDatetime t) | None => eraise (EValue "time data does not match format") end end)
      (w0 <~ ev_primitive W (ra r) TyStr; match fmt with None => ev_invalid W (ra r) (VioFormat w0)
        | Some fm => s <~ ev_need_str w0; if String.eqb fm "iso8601" then match e_iso (w_env W) s with Some t => eret (VDatetime t) | None => ev_invalid W (ra r) (VioText "Unable to parse date string") end
            else match e_strp (w_env W) s fm with Some t => eret (VDatetime t) | None => eraise (EValue "time data does not match format") end end)).
    { apply tw_bind; [apply PR|]. intros x. destruct fmt as [fm|]; [|now apply tw_invalid]. apply tw_bind; [apply ST|]. intros y.
      destruct (String.eqb fm "iso8601"); [destruct (e_iso _ y); [apply tw_ret|now apply tw_invalid]|destruct (e_strp _ y fm); [apply tw_ret|apply tw_raise]]. }
    destruct w; try exact X; apply tw_ret.
  - unfold ev_sequence. cbn [r_collecting r_src]. rewrite (iv_src _ I0). apply (tw_on false r v); [exact V|]. intros n Q.
    destruct (Nat.eqb_spec n (length fs)) as [-> |_]; [|now apply tw_invalid].
    apply tw_bind; [eapply tw_tuple; eauto; lia|intros; apply tw_ret].
  - unfold ev_sequence, on_val. cbn [r_collecting r_val r_src]. rewrite V, (iv_src _ I0).
    destruct (psource_sequence (w_env W) src v) as [n|e] eqn:Q.
    + refine (tw_eq false _ (l <~ ev_list W rec (co r) 0 n f0 []; eret (VList l)) _ (l <~ ev_list W rec (ra r) 0 n f0 []; eret (VList l)) (fun s => eq_refl) (fun s => eq_refl) _).
      apply tw_bind; [eapply tw_list; eauto; lia|intros; apply tw_ret].
    + destruct e; try apply (tw_raise false). destruct a; [|apply (tw_raise false)].
      refine (tw_eq false _ (v <~ rec (co r) f0 NONEv; eret (if ignored v then v else VList [v])) _ (v <~ rec (ra r) f0 NONEv; eret (if ignored v then v else VList [v])) (fun s => eq_refl) (fun s => eq_refl) _).
      apply tw_bind; [now apply rec_false|intros; apply tw_ret].
  - unfold ev_mapping. cbn [r_collecting r_src r_keys]. rewrite (iv_src _ I0). apply (tw_on false r v); [exact V|]. intros vw Q. destruct vw as [l|e].
    + refine (tw_eq false _ (d <~ ev_dict W rec (co r) None kf vf l []; eret (VDict d)) _ (d <~ ev_dict W rec (ra r) None kf vf l []; eret (VDict d)) (fun s => eq_refl) (fun s => eq_refl) _).
      apply tw_bind; [apply tw_dict; auto; [now left|eapply map_fine; eauto]|intros; apply tw_ret].
    + apply (tw_raise false).
  - unfold ev_code. apply tw_bind; [apply PR|]. intros w. destruct w; try apply tw_ret. destruct (has_char newline s).
    + destruct (e_compile _ s); [apply tw_ret|now apply tw_invalid].
    + destruct (e_import _ s) as [[]|]; [apply tw_ret|now apply tw_invalid|now apply tw_invalid].
  - unfold ev_uuid. apply tw_bind; [apply PR|]. intros w.
    assert (X : tw true (w <~ ev_primitive W (co r) TyStr; match w with VStr s => match e_uuid (w_env W) s with Some u => eret u | None => eraise (EValue "badly formed hexadecimal UUID string") end | _ => eraise (EAttr "no attribute 'replace'") end)
       (w <~ ev_primitive W (ra r) TyStr; match w with VStr s => match e_uuid (w_env W) s with Some u => eret u | None => eraise (EValue "badly formed hexadecimal UUID string") end | _ => eraise (EAttr "no attribute 'replace'") end)).
    { apply tw_bind; [apply PR|]. intros x. destruct x; try apply tw_raise. destruct (e_uuid _ s); [apply tw_ret|apply tw_raise]. }
    destruct w; try exact X. destruct (String.eqb cls "UUID"); [apply tw_ret|exact X].
  - apply tw_sub.
  - unfold ev_mapping. cbn [r_collecting r_src r_keys]. rewrite (iv_src _ I0). apply (tw_on false r v); [exact V|]. intros vw Q. destruct vw as [ks|e].
    + refine (tw_eq false _ (ev_group W rec (co r) l ks O []) _ (ev_group W rec (ra r) l ks O []) (fun s => eq_refl) (fun s => eq_refl) _).
      apply tw_group; auto. eapply map_fine; eauto.
    + apply (tw_raise false).
Qed.
Definition fit_kind (k : kind) : Prop :=
  bare_kind k \/ exists id kf vf, k = KDict kf vf (Some (not_in_form id)) [] None /\ bare kf /\ bare vf.
Lemma tw_parse_fit r f v : fit_kind (f_kind f) -> inv r -> told r -> r_val r = Ok v -> Loc v ->
  tw (single f) (ev_parse W rec (co r) (f_kind f)) (ev_parse W rec (ra r) (f_kind f)).
Proof.
  intros [B|(id & kf & vf & K & BK & BV)] I0 T V L; [now apply (tw_parse r f v)|]. unfold single. rewrite K. cbn [ev_parse].
  unfold ev_mapping. cbn [r_collecting r_src r_keys]. rewrite (iv_src _ I0). apply (tw_on false r v); [exact V|]. intros vw Q. destruct vw as [l|e].
  - refine (tw_eq false _ (d <~ ev_dict W rec (co r) _ kf vf l []; eret (VDict d)) _ (d <~ ev_dict W rec (ra r) _ kf vf l []; eret (VDict d)) (fun s => eq_refl) (fun s => eq_refl) _).
    apply tw_bind; [apply tw_dict; auto; [right; eauto|eapply map_fine; eauto]|intros; apply tw_ret].
  - apply (tw_raise false).
Qed.
Definition quiet {A} (x : Ev A) : Prop := forall s, fst (snd (x s)) = fst s.
Lemma quiet_ret {A} (a : A) : quiet (eret a). Proof. now intros s. Qed.
Lemma quiet_raise {A} e : quiet (@eraise A e). Proof. now intros s. Qed.
Lemma quiet_bind {A B} (x : Ev A) (k : A -> Ev B) : quiet x -> (forall a, quiet (k a)) -> quiet (ebind x k).
Proof. intros X K s. unfold ebind. pose proof (X s) as H. destruct (x s) as [[a|e] s1]; cbn [fst snd] in *; [now rewrite K|exact H]. Qed.
Lemma quiet_on {A} r (g : val -> res A) : quiet (on_val r g). Proof. now intros s. Qed.
Lemma quiet_str w : quiet (ev_need_str w). Proof. intros s0; destruct w; reflexivity. Qed.
Lemma single_parse r f : single f = true ->
  ev_parse W rec (ra r) (f_kind f) = ev_parse W rec (co r) (f_kind f) /\ quiet (ev_parse W rec (co r) (f_kind f)).
Proof.
  unfold single. destruct (f_kind f) as [| | | | | |fmts ? ?|fmt ? ?| | | | | | | | |]; try discriminate; intros S; cbn [ev_parse]; try (split; [reflexivity|apply quiet_on]).
  - split; [reflexivity|]. unfold ev_decimal. apply quiet_bind; [apply quiet_on|]. intros w.
    destruct w; try apply quiet_ret; destruct (dec_of_number _); try apply quiet_ret; (apply quiet_bind; [apply quiet_on|]); intros x;
    destruct x; try apply quiet_ret; try (destruct (dec_of_number _); [apply quiet_ret|apply quiet_raise]); (destruct (e_dec _ _); [apply quiet_ret|apply quiet_raise]).
  - destruct fmts; [discriminate|]. split; [reflexivity|]. unfold ev_date. apply quiet_bind; [apply quiet_on|]. intros w.
    destruct w; try apply quiet_ret; (apply quiet_bind; [apply quiet_on|]); intros x; (apply quiet_bind; [apply quiet_str|intros; apply quiet_ret]).
  - destruct fmt; [|discriminate]. split; [reflexivity|]. unfold ev_time. apply quiet_bind; [apply quiet_on|]. intros w.
    destruct w; try apply quiet_ret; (apply quiet_bind; [apply quiet_on|]); intros x; (apply quiet_bind; [apply quiet_str|intros y; destruct (e_strptime_time _ _ _); [apply quiet_ret|apply quiet_raise]]).
  - split; [reflexivity|]. unfold ev_uuid. 
    assert (X : quiet (w <~ ev_primitive W (co r) TyStr; match w with VStr s => match e_uuid (w_env W) s with Some u => eret u | None => eraise (EValue "badly formed hexadecimal UUID string") end | _ => eraise (EAttr "no attribute 'replace'") end)).
    { apply quiet_bind; [apply quiet_on|]. intros x. destruct x; try apply quiet_raise. destruct (e_uuid _ _); [apply quiet_ret|apply quiet_raise]. }
    apply quiet_bind; [apply quiet_on|]. intros w. destruct w; try exact X. destruct (String.eqb cls "UUID"); [apply quiet_ret|exact X].
Qed.
Definition settle (r : rd) (x : res val) : Ev val :=
  match x with
  | Ok v => eret v
  | Exn e => if caught_by_compute e then ev_invalid W r (VioExn (spoken e)) else eraise e
  end.
Lemma tw_settle b r x : told r -> tw b (settle (co r) x) (settle (ra r) x).
Proof. intros T. destruct x as [v|e]; cbn [settle]; [apply tw_ret|]. destruct (caught_by_compute e); [now apply tw_invalid|apply tw_raise]. Qed.
Lemma tw_catch b r (x y : Ev val) : told r -> tw b x y -> (b = true -> y = x /\ quiet x) ->
  tw b (ecatch x (settle (co r))) (ecatch y (settle (ra r))).
Proof.
  intros T X SG. split.
  - intros s. destruct (proj1 X s) as (n1 & H1). unfold ecatch. destruct (x s) as [a s1]. cbn [fst snd] in H1.
    destruct (proj1 (tw_settle b r a T) s1) as (n2 & H2). exists (n1 ++ n2). now rewrite H2, H1, app_assoc.
  - intros s. unfold ecatch. destruct b.
    + destruct (SG eq_refl) as [-> Q]. specialize (Q s). destruct (x s) as [a s1]. cbn [fst snd] in Q. rewrite <- Q. exact (proj2 (tw_settle true r a T) s1).
    + destruct (proj2 X s) as [[-> _]|(n & e & m1 & m2 & h & X1 & X2 & _)].
      * destruct (proj1 X s) as (n0 & N0). destruct (x s) as [a s1]. cbn [fst snd] in N0.
        destruct (proj2 (tw_settle false r a T) s1) as [[K1 K2]|(n & e & m1 & m2 & h & K1 & K2 & K3)]; [left; auto; split; [exact K1|discriminate]|].
        right. exists (n0 ++ n), e, m1, m2, h. rewrite K1, K2, N0, <- !app_assoc. split; [reflexivity|]. split; [reflexivity|discriminate].
      * right. rewrite X1. cbn [settle caught_by_compute].
        destruct T as [K S (nm & N)]. destruct (pkeys_ok (r_src r) (r_keys r) K) as (t & T'). unfold E in T'.
        assert (Y : exists e2, ev_invalid W (ra r) (VioExn (spoken (EForm (fst s ++ n ++ e :: m2)))) (fst s ++ n ++ e :: m2, h)
           = (Exn (EForm (fst s ++ n ++ e :: m2 ++ [e2])), (fst s ++ n ++ e :: m2 ++ [e2], h))).
        { eexists. unfold ev_invalid, ebind, ev_report. cbn [r_collecting r_field r_src r_keys r_pid r_mode]. rewrite N, T'. rewrite <- !app_assoc. cbn [app]. reflexivity. }
        destruct Y as (e2 & Y). rewrite Y. destruct (x s) as [a s1]. cbn [fst snd] in X2.
        assert (TT : told r) by (split; [exact K|exact S|exists nm; exact N]).
        destruct (proj1 (tw_settle false r a TT) s1) as (n2 & H2). exists n, e, (m1 ++ n2), (m2 ++ [e2]), h. split; [reflexivity|]. split; [|discriminate].
        rewrite H2, X2, <- !app_assoc. cbn [app]. reflexivity.
Qed.
(** Where a field reads: any value found is one of the regime's. *)
Lemma tw_compute r f : bare_opts (f_opts f) -> fit_kind (f_kind f) -> told r ->
  (forall v, r_val r = Ok v -> is_NONE v = false -> Loc v) ->
  tw (single f) (ev_compute W rec (co r) f) (ev_compute W rec (ra r) f).
Proof.
  intros B K T HL. unfold ev_compute, ev_exists, ev_null, on_val. cbn [r_collecting r_val].
  destruct (r_val r) as [v|e] eqn:V; [|exact (tw_raise _ e)].
  refine (tw_eq _ _ (if negb (negb (is_NONE v)) then eret NONEv else if is_None v then eret VNone else ecatch (match o_parse (f_opts f) with Some h => ev_hook W (co r) h [VNone] | None => ev_parse W rec (co r) (f_kind f) end) (settle (co r)))
    _ (if negb (negb (is_NONE v)) then eret NONEv else if is_None v then eret VNone else ecatch (match o_parse (f_opts f) with Some h => ev_hook W (ra r) h [VNone] | None => ev_parse W rec (ra r) (f_kind f) end) (settle (ra r))) _ _ _).
  1, 2: intros s; unfold ebind at 1, elift; cbv beta iota; destruct (negb (negb (is_NONE v))); [reflexivity|]; unfold ebind at 1; destruct (is_None v); reflexivity.
  rewrite negb_involutive. destruct (is_NONE v) eqn:NV; [apply tw_ret|]. destruct (is_None v); [apply tw_ret|].
  rewrite (br_parse _ B). pose proof (HL v eq_refl NV) as L.
  assert (I0 : inv r) by (split; [exact (td_keys _ T)|exact (td_src _ T)|eauto]).
  apply tw_catch; [exact T|now apply (tw_parse_fit r f v)|apply single_parse].
Qed.
Lemma tw_body r f v : bare_opts (f_opts f) -> fit_kind (f_kind f) -> told r ->
  (forall v, r_val r = Ok v -> is_NONE v = false -> Loc v) ->
  tw (single f) (ev_body W rec (co r) f v) (ev_body W rec (ra r) f v).
Proof.
  intros B K T HL. unfold ev_body. destruct (is_NONE v); [|now apply tw_after]. rewrite (br_compute _ B).
  apply tw_bind; [now apply tw_compute|]. intros w. destruct (is_NONE w); [|destruct (ignored w); [apply tw_ret|now apply tw_after]].
  destruct (br_default _ B) as [D|(d & D)]; rewrite D; now apply tw_default.
Qed.
Lemma told_for r f : inv r -> told (r_for r f).
Proof. intros [A B _]. split; cbn; eauto. Qed.
Lemma tw_field_body r f v : bare_opts (f_opts f) -> fit_kind (f_kind f) -> inv r ->
  tw (single f) (ev_field_body W rec (co r) f v) (ev_field_body W rec (ra r) f v).
Proof.
  intros B K I0. unfold ev_field_body, ev_where. rewrite (br_resolve _ B).
  pose proof (told_for r f I0) as TF. destruct (iv_val _ I0) as (v0 & V & L).
  assert (HL : forall v, r_val (r_for r f) = Ok v -> is_NONE v = false -> Loc v).
  { cbn [r_for r_val]. intros x X N. exact (inv_here r x I0 X N). }
  assert (T : forall w, tw (single f) ((if o_attach_parent (f_opts f) && negb (ignored w) then ev_parent w else eret tt);;; eret w)
      ((if o_attach_parent (f_opts f) && negb (ignored w) then ev_parent w else eret tt);;; eret w)).
  { intros w. apply tw_bind; [|intros; apply tw_ret]. destruct (_ && _); [|apply tw_ret].
    destruct w; try apply tw_ret; try apply tw_raise. apply tw_weak, tw_same. intros s. cbn [ev_parent]. unfold ev_setattr, ebind at 1, ev_type.
    destruct (find_field _ _); [|reflexivity]. unfold ev_set, ebind, ev_entries. apply same_entries. }
  set (ko := match f_kind f with KGroup _ => None | _ => o_src (f_opts f) end).
  refine (tw_eq _ _ (w <~ ev_body W rec (match (if is_NONE v then ko else None) with Some k => r_at W (r_for (co r) f) k | None => r_for (co r) f end) f v;
         (if o_attach_parent (f_opts f) && negb (ignored w) then ev_parent w else eret tt);;; eret w)
     _ (w <~ ev_body W rec (match (if is_NONE v then ko else None) with Some k => r_at W (r_for (ra r) f) k | None => r_for (ra r) f end) f v;
         (if o_attach_parent (f_opts f) && negb (ignored w) then ev_parent w else eret tt);;; eret w) _ _ _).
  1, 2: intros s; destruct (is_NONE v); reflexivity.
  apply tw_bind; [|exact T].
  destruct (if is_NONE v then ko else None) as [k|] eqn:KO; [|exact (tw_body (r_for r f) f v B K TF HL)].
  assert (PK : plain_key k).
  { destruct (is_NONE v); [|discriminate]. unfold ko in KO. apply (br_src _ B). destruct (f_kind f); try discriminate; exact KO. }
  apply (tw_body (r_at W (r_for r f) k) f v B K).
  - destruct TF as [A C D]. split; cbn [r_at r_keys r_src r_field]; [apply Forall_app; auto|exact C|exact D].
  - cbn [r_at r_val]. unfold r_child. cbn [r_for r_val r_src]. rewrite V, (iv_src _ I0). intros w R N.
    destruct L as [L|[A ->]].
    + destruct (rg_step _ _ _ _ RG v0 k w L PK R) as [-> |H]; [discriminate|exact H].
    + unfold absorbing, absorbs in A. pose proof (A k PK) as A2. unfold E in A2. rewrite A2 in R. injection R as <-. discriminate.
Qed.
End Mode.

Lemma tw_ev_field W root Loc src : regime (w_env W) src root Loc -> forall fuel r f v,
  bare_opts (f_opts f) -> fit_kind (f_kind f) -> inv W Loc src r ->
  tw (single f) (ev_field W fuel (r_collecting r Collect) f v) (ev_field W fuel (r_collecting r Raise) f v).
Proof.
  intros RG. induction fuel as [|fuel IH]; intros r f v B K I0; [apply tw_raise|].
  apply (tw_field_body W root Loc src RG (ev_field W fuel)); auto.
  intros r' f' v' BF I1. destruct BF as [o k Bo Bk]. apply IH; [exact Bo|left; exact Bk|exact I1].
Qed.
Lemma tw_ev_map W root Loc src fuel o id t l tags rs u h : regime (w_env W) src root Loc -> bare_form t -> bare_unm u ->
  nth_error h id = Some (t, l) ->
  forall x y, x = ev_map W fuel o src root id tags rs u Collect h -> y = ev_map W fuel o src root id tags rs u Raise h ->
  match fst x with
  | Ok [] => y = x
  | Ok (e :: es) => exists es', fst y = Exn (EForm (e :: es')) /\
      ((forall f, In f (ft_fields t) -> single f = true) -> ignoring u -> es' = [])
  | Exn e => y = x \/ exists e' es', fst y = Exn (EForm (e' :: es'))
  end.
Proof.
  intros RG BF BU N x y -> ->. unfold ev_map. rewrite N.
  set (tags' := match tags with [] => ou_tags o | _ => tags end).
  assert (X : exists x h', (if rs then ev_reset id tags' (ft_fields t) else eret tt) ([], h) = (x, ([], h')) /\ exists l', nth_error h' id = Some (t, l')).
  { destruct rs; [|eexists _, _; split; [reflexivity|eauto]].
    destruct (reset_ok id tags' (ft_fields t) ([], h)) as ([es' h'] & A & B & D & _). cbn [fst snd] in *. subst es'. eexists _, h'.
    split; [exact A|]. rewrite N in D. cbn in D. destruct (nth_error h' id) as [[t' l']|]; [|discriminate]. injection D as ->. eauto. }
  destruct X as (x & h' & X & l' & N1). unfold heap in X |- *. rewrite X. clear X.
  assert (I0 : inv W Loc src (r_start o src Collect root)).
  { split; cbn; [constructor|reflexivity|]. eexists. split; [reflexivity|]. left. exact (rg_root _ _ _ _ RG). }
  assert (F : forall b : bool, (b = true -> (forall f, In f (ft_fields t) -> single f = true) /\ ignoring u) -> forall x y,
    x = ev_form_map W (ev_field W fuel) (r_start o src Collect root) id tags' u ([], h') ->
    y = ev_form_map W (ev_field W fuel) (r_start o src Raise root) id tags' u ([], h') ->
    (y = x /\ (b = true -> fst (snd x) = [])) \/
    exists new e more more' h, y = (Exn (EForm (new ++ e :: more')), (new ++ e :: more', h)) /\
      fst (snd x) = new ++ e :: more /\ (b = true -> new = [] /\ more' = [])).
  { intros b Hb. refine (tw_form_map W Loc src (ev_field W fuel) _ _ (r_start o src Collect root) id tags' u ([], h') t l' b BF BU I0 N1 Hb).
    - intros r' f' v' B' I1. destruct B' as [o' k' Bo Bk]. apply (tw_ev_field W root Loc src RG); [exact Bo|left; exact Bk|exact I1].
    - intros r' id' kf vf Bk Bv I1. apply (tw_ev_field W root Loc src RG fuel r' (unmapped_dict id' kf vf)); [apply bare_no_opts|right; exists id', kf, vf; auto|exact I1]. }
  pose proof (F false ltac:(discriminate) _ _ eq_refl eq_refl) as F0. pose proof (F true) as F1. clear F. unfold heap in F0, F1 |- *.
  destruct (ev_form_map W (ev_field W fuel) (r_start o src Collect root) id tags' u (@pair (list err) (list (formty * list (val * val))) [] h')) as [[a|e] [es h2]] eqn:Q1;
  destruct (ev_form_map W (ev_field W fuel) (r_start o src Raise root) id tags' u (@pair (list err) (list (formty * list (val * val))) [] h')) as [[a'|e'] [es' h2']] eqn:Q2; cbn [fst snd] in *.
  - destruct F0 as [[F0 _]|(n & e & m1 & m2 & hh & F0 & _)]; [injection F0 as -> -> ->|discriminate]. destruct es as [|e es]; [reflexivity|].
    exists es. split; [reflexivity|]. intros SG U. exfalso. destruct (F1 (fun _ => conj SG U) _ _ eq_refl eq_refl) as [[_ F]|(n & e0 & m1 & m2 & hh & F & _)]; [|discriminate].
    specialize (F eq_refl). discriminate.
  - destruct F0 as [[F0 _]|(n & e & m1 & m2 & hh & F0 & F2 & _)]; [discriminate|]. injection F0 as -> -> ->. rewrite F2 in *.
    destruct n as [|e0 n]; cbn [app] in *.
    + exists m2. split; [reflexivity|]. intros SG U. destruct (F1 (fun _ => conj SG U) _ _ eq_refl eq_refl) as [[F _]|(n & e0 & m1' & m2' & hh' & F & F3 & F4)]; [discriminate|].
      destruct (F4 eq_refl) as [-> ->]. cbn [app] in F. inversion F. reflexivity.
    + exists (n ++ e :: m2). split; [reflexivity|]. intros SG U. destruct (F1 (fun _ => conj SG U) _ _ eq_refl eq_refl) as [[F _]|(n' & e0' & m1' & m2' & hh' & F & F3 & F4)]; [discriminate|].
      destruct (F4 eq_refl) as [-> ->]. cbn [app] in F. inversion F as [[Z1 Z2]]. destruct n; discriminate.
  - destruct F0 as [[F0 _]|(n & e0 & m1 & m2 & hh & F0 & _)]; [discriminate|discriminate].
  - destruct F0 as [[F0 _]|(n & e0 & m1 & m2 & hh & F0 & _)]; [injection F0 as -> -> ->; now left|]. injection F0 as -> _ _. right. destruct n; cbn; eauto.
Qed.

(** Fields without user code are covered by the evaluation theorem. *)
Lemma bare_direct_opts o : bare_opts o -> direct_opts o.
Proof.
  intros T. split; try (intros h H; rewrite ?(br_compute _ T), ?(br_parse _ T), ?(br_munge _ T), ?(br_filter _ T), ?(br_validate _ T) in H; discriminate).
  - exact (br_src _ T).
  - destruct (br_default _ T) as [-> |(v & ->)]; [intros h H; discriminate|exact I].
  - exact (br_resolve _ T).
Qed.
Scheme bare_ind2 := Induction for bare Sort Prop
with bare_kind_ind2 := Induction for bare_kind Sort Prop
with bare_form_ind2 := Induction for bare_form Sort Prop
with bare_unm_ind2 := Induction for bare_unm Sort Prop.
Combined Scheme bare_mutind from bare_ind2, bare_kind_ind2, bare_form_ind2, bare_unm_ind2.
Lemma bare_direct :
  (forall f, bare f -> direct f) /\ (forall k, bare_kind k -> direct_kind k) /\ (forall t, bare_form t -> direct_form t) /\ (forall u, bare_unm u -> direct_unm u).
Proof. apply bare_mutind; try (intros; constructor; auto using bare_direct_opts; fail). intros; constructor; auto. intros ? [=]. Qed.

Lemma modes_lem W fuel src root Loc id t l tags rs u s :
  psource_root src = Ok root -> regime (w_env W) src root Loc ->
  nth_error (forms s) id = Some (t, l) -> bare_form t -> bare_unm u -> mapping_context s ->
  let x := Form_map W fuel id (ASrc (SBase (BPlain src))) tags rs u Collect s in
  let y := Form_map W fuel id (ASrc (SBase (BPlain src))) tags rs u Raise s in
  match fst x with
  | Ok [] => fst y = Ok [] /\ forms (snd y) = forms (snd x)
  | Ok (e :: es) => exists es', fst y = Exn (EForm (e :: es')) /\
      ((forall f, In f (ft_fields t) -> single f = true) -> ignoring u -> es' = [])
  | Exn e => fst y = Exn e \/ exists e' es', fst y = Exn (EForm (e' :: es'))
  end.
Proof.
  intros HR RG T B Bu (C1 & C2 & C3). cbv zeta.
  pose proof (proj1 (proj2 (proj2 bare_direct)) t B) as D. pose proof (proj2 (proj2 (proj2 bare_direct)) u Bu) as Du.
  destruct (map_refines W fuel src root Loc id t l tags rs u Collect s HR RG T D Du C1 C2 C3) as (X1 & X2 & _).
  destruct (map_refines W fuel src root Loc id t l tags rs u Raise s HR RG T D Du C1 C2 C3) as (Y1 & Y2 & _).
  pose proof (tw_ev_map W root Loc src fuel (outer_of s) id t l tags rs u (forms s) RG B Bu T _ _ eq_refl eq_refl) as M.
  rewrite X1, Y1, X2, Y2. destruct (fst (ev_map W fuel (outer_of s) src root id tags rs u Collect (forms s))) as [[|e es]|e] eqn:Q.
  - rewrite M, Q. auto.
  - exact M.
  - destruct M as [M|M]; [left; now rewrite M|now right].
Qed.
(** ** The source given: a JSON document, or a tree of plain Python values. *)
Lemma plain_modes_lem W fuel a id t l tags rs u s :
  plain_data W a -> nth_error (forms s) id = Some (t, l) -> bare_form t -> bare_unm u -> mapping_context s ->
  let x := Form_map W fuel id a tags rs u Collect s in
  let y := Form_map W fuel id a tags rs u Raise s in
  match fst x with
  | Ok [] => fst y = Ok [] /\ forms (snd y) = forms (snd x)
  | Ok (e :: es) => exists es', fst y = Exn (EForm (e :: es')) /\
      ((forall f, In f (ft_fields t) -> single f = true) -> ignoring u -> es' = [])
  | Exn e => fst y = Exn e \/ exists e' es', fst y = Exn (EForm (e' :: es'))
  end.
Proof.
  intros [d strict loc J|P d loc PN Pd|cfg sec d loc G|P items PN Pd] T B Bu C.
  - exact (modes_lem W fuel (SJson d strict loc) d _ id t l tags rs u s eq_refl (json_regime _ _ _ _ J) T B Bu C).
  - exact (modes_lem W fuel (SDefault d [] [] loc) d _ id t l tags rs u s eq_refl (native_regime _ _ _ _ PN Pd) T B Bu C).
  - destruct (config_begins cfg sec d loc G) as [R L].
    exact (modes_lem W fuel (SConfig cfg sec d loc) _ _ id t l tags rs u s R (config_regime _ _ _ _ _ _ L) T B Bu C).
  - exact (modes_lem W fuel (SDefault (VDict items) [] [] None) (VDict items) _ id t l tags rs u s eq_refl (native_regime _ _ _ _ PN Pd) T B Bu C).
Qed.
Lemma C40_lem W fuel a id t l tags rs u s :
  plain_data W a -> nth_error (forms s) id = Some (t, l) -> bare_form t -> bare_unm u -> mapping_context s ->
  let x := Form_map W fuel id a tags rs u Collect s in
  let y := Form_map W fuel id a tags rs u Raise s in
  (fst x = Ok [] -> fst y = Ok [] /\ forms (snd y) = forms (snd x)) /\
  (forall e es, fst x = Ok (e :: es) -> exists es', fst y = Exn (EForm (e :: es'))) /\
  (forall e, fst x = Exn e -> fst y = Exn e \/ exists e' es', fst y = Exn (EForm (e' :: es'))) /\
  (forall es, fst y = Ok es -> fst x = Ok [] /\ es = []).
Proof.
  intros A T B Bu C. cbv zeta. pose proof (plain_modes_lem W fuel a id t l tags rs u s A T B Bu C) as M. cbv zeta in M.
  destruct (fst (Form_map W fuel id a tags rs u Collect s)) as [[|e es]|e].
  - destruct M as [M1 M2]. split; [auto|]. split; [discriminate|]. split; [discriminate|]. rewrite M1. intros es [= <-]. auto.
  - destruct M as (es' & M & _). rewrite M. split; [discriminate|]. split; [intros ? ? [= <- <-]; eauto|]. split; discriminate.
  - split; [discriminate|]. split; [discriminate|]. split; [intros ? [= <-]; exact M|]. intros es H. destruct M as [M|(e' & es' & M)]; congruence.
Qed.
Lemma C41_lem W fuel a id t l tags rs u s e es :
  plain_data W a -> nth_error (forms s) id = Some (t, l) -> bare_form t -> (forall f, In f (ft_fields t) -> single f = true) -> ignoring u -> mapping_context s ->
  fst (Form_map W fuel id a tags rs u Collect s) = Ok (e :: es) ->
  fst (Form_map W fuel id a tags rs u Raise s) = Exn (EForm [e]).
Proof.
  intros A T B SG U C X. assert (Bu : bare_unm u) by (destruct U as [-> | ->]; constructor).
  pose proof (plain_modes_lem W fuel a id t l tags rs u s A T B Bu C) as M. cbv zeta in M. rewrite X in M. destruct M as (es' & -> & H). now rewrite (H SG U).
Qed.
