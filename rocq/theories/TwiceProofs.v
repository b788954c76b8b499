From Coq Require Import Lia Permutation.
From Verif Require Import PyBase PyStr Source Field Context Fields SpecSrc Eval Refine Regime CfgRegime SpecTame TameProofs FormProofs Balance AgainProofs BoxProofs.
Open Scope ev_scope.

Definition out {A} (e : Ev A) : res A := fst (e (@pair (list err) heap [] [])).
Definition news {A} (e : Ev A) : list (ekind * string * option string) := map said (fst (snd (e (@pair (list err) heap [] [])))).
Lemma calm_out {A} p p' (e e' : Ev A) : calm Collect p p' e e' ->
  forall es h, e (es, h) = (out e, (es ++ map (put p) (news e), h)) /\ e' (es, h) = (out e, (es ++ map (put p') (news e), h)).
Proof.
  intros (o & new & H). assert (O : out e = o). { unfold out. pose proof (proj1 (H [] [])) as X. cbn in X. now rewrite X. }
  assert (N : news e = new). { unfold news. pose proof (proj1 (H [] [])) as X. cbn in X. rewrite X. cbn [fst snd app]. apply said_put. }
  rewrite O, N. exact H.
Qed.

(** *** Assigning again what is already there *)
Lemma upd_there S : forall E l, (forall a, In a (map fst S) -> dict_get E (VStr a) = dict_get (upd l S) (VStr a)) -> upd E S = E.
Proof.
  induction S as [|[k x] S IH]; intros E l H; [reflexivity|].
  change (upd (sset E k x) S = E). change (upd l ((k, x) :: S)) with (upd (sset l k x) S) in H.
  assert (HH : dict_get E (VStr k) = dict_get (upd (sset l k x) S) (VStr k)) by (apply H; now left).
  assert (R : upd E S = E). { apply (IH E (sset l k x)). intros a I. apply H. now right. }
  destruct (in_dec string_dec k (map fst S)) as [I|N].
  - rewrite upd_absorb; auto. apply dict_has_get. rewrite HH. apply dict_has_get, upd_has, set_has.
  - rewrite set_same; auto. rewrite HH, upd_get by auto. apply get_set_this.
Qed.
Lemma eq_str k a : py_eq (VStr a) k = true -> k = VStr a.
Proof. destruct k; try discriminate. cbn. intros H. apply String.eqb_eq in H. now subst. Qed.
Lemma get_set_apart l k v a : k <> VStr a -> dict_get (dict_set l k v) (VStr a) = dict_get l (VStr a).
Proof.
  intros N. unfold dict_get. induction l as [|[k' x] l IH]; cbn [dict_set find fst].
  - destruct (py_eq k (VStr a)) eqn:Q; [|reflexivity]. apply py_eq_str in Q. contradiction.
  - destruct (py_eq k' k) eqn:Q; cbn [find fst].
    + destruct (py_eq k' (VStr a)) eqn:Q'; [|reflexivity]. apply py_eq_str in Q'. subst. apply eq_str in Q. contradiction.
    + destruct (py_eq k' (VStr a)); [reflexivity|exact IH].
Qed.
Lemma update_apart D : forall l a, (forall k v, In (k, v) D -> k <> VStr a) -> dict_get (dict_update l D) (VStr a) = dict_get l (VStr a).
Proof.
  induction D as [|[k v] D IH]; intros l a H; [reflexivity|].
  change (dict_get (dict_update (dict_set l k v) D) (VStr a) = dict_get l (VStr a)). rewrite IH by (intros; eapply H; right; eauto).
  apply get_set_apart. eapply H. now left.
Qed.

(** *** Plain keys *)
Definition fair (k : val) : Prop := plain_key (key_of_val k).
Lemma fair_cases k : fair k -> (exists s, k = VStr s) \/ (exists z, k = VInt z) \/ (exists b, k = VBool b).
Proof. destruct k; cbn; try contradiction; eauto. Qed.
Lemma fair_eq k k' : fair k -> fair k' -> (py_eq k k' = true <-> key_of_val k = key_of_val k').
Proof.
  intros F F'. destruct (fair_cases k F) as [(s & ->)|[(z & ->)|(b & ->)]], (fair_cases k' F') as [(s' & ->)|[(z' & ->)|(b' & ->)]]; cbn [key_of_val];
    try (split; discriminate).
  - rewrite str_eq. rewrite String.eqb_eq. split; congruence.
  - change (Qeq_bool (inject_Z z) (inject_Z z') = true <-> KInt z = KInt z'). rewrite Qeq_bool_iff.
    unfold Qeq. cbn. rewrite !Z.mul_1_r. split; congruence.
  - change (Qeq_bool (inject_Z z) (inject_Z (Z.b2z b')) = true <-> KInt z = KInt (Z.b2z b')). rewrite Qeq_bool_iff.
    unfold Qeq. cbn. rewrite !Z.mul_1_r. split; congruence.
  - change (Qeq_bool (inject_Z (Z.b2z b)) (inject_Z z') = true <-> KInt (Z.b2z b) = KInt z'). rewrite Qeq_bool_iff.
    unfold Qeq. cbn. rewrite !Z.mul_1_r. split; congruence.
  - destruct b, b'; cbn; split; congruence.
Qed.

Lemma set_keys_in l k v : forall a b, In (a, b) (dict_set l k v) -> a = k \/ exists b', In (a, b') l.
Proof.
  induction l as [|[x y] l IH]; intros a b; cbn [dict_set]; [intros [[= <- _]|[]]; auto|].
  destruct (py_eq x k); intros [[= <- <-]|H]; try (right; eexists; now left).
  - right. exists b. now right.
  - destruct (IH a b H) as [->|(b' & I)]; [auto|]. right. exists b'. now right.
Qed.

(** *** Entries that are dropped and captured again *)
Lemma set_app_new l m k v : dict_has l k = false -> dict_set (l ++ m) k v = l ++ dict_set m k v.
Proof.
  unfold dict_has. induction l as [|[a b] l IH]; cbn [app dict_set existsb fst]; [reflexivity|].
  destruct (py_eq a k); [discriminate|]. intros H. now rewrite IH.
Qed.
Lemma has_app l m k : dict_has (l ++ m) k = dict_has l k || dict_has m k.
Proof. unfold dict_has. apply existsb_app. Qed.
Lemma upd_app S : forall l m, (forall a, In a (map fst S) -> dict_has l (VStr a) = false) -> upd (l ++ m) S = l ++ upd m S.
Proof.
  induction S as [|[k x] S IH]; intros l m H; [reflexivity|].
  change (upd (sset (l ++ m) k x) S = l ++ upd (sset m k x) S). unfold sset. rewrite set_app_new by (apply H; now left).
  apply IH. intros a I. apply H. now right.
Qed.
Definition distinct (l : list (val * val)) : Prop := ForallOrdPairs (fun a b => py_eq (fst a) (fst b) = false) l.
Lemma update_app D : forall l, distinct D -> (forall a b, In (a, b) D -> dict_has l a = false) -> dict_update l D = l ++ D.
Proof.
  induction D as [|[a b] D IH]; intros l X H; [now rewrite app_nil_r|].
  change (dict_update (dict_set l a b) D = l ++ (a, b) :: D). inversion X as [|? ? X1 X2]; subst.
  rewrite <- (app_nil_r l) at 1. rewrite set_app_new by (eapply H; now left). cbn [dict_set].
  rewrite IH; [now rewrite <- app_assoc|exact X2|].
  intros c d I. rewrite has_app, (H c d) by now right. cbn. rewrite Bool.orb_false_r. rewrite Forall_forall in X1. exact (X1 _ I).
Qed.
Lemma distinct_set l k v : distinct l -> distinct (dict_set l k v).
Proof.
  unfold distinct. induction l as [|[a b] l IH]; intros X; cbn [dict_set]; [repeat constructor|].
  inversion X as [|? ? X1 X2]; subst. destruct (py_eq a k) eqn:Q.
  - constructor; [|exact X2]. exact X1.
  - constructor; [|now apply IH]. apply Forall_forall. intros [c d] I. cbn [fst].
    destruct (set_keys_in l k v c d I) as [->|(d' & I')]; [exact Q|]. rewrite Forall_forall in X1. exact (X1 _ I').
Qed.
Lemma distinct_filter g l : distinct l -> distinct (filter g l).
Proof.
  unfold distinct. induction l as [|x l IH]; intros X; [constructor|]. inversion X as [|? ? X1 X2]; subst. cbn [filter].
  destruct (g x); [|auto]. constructor; [|auto]. apply Forall_forall. intros y I. apply filter_In in I. rewrite Forall_forall in X1. now apply X1.
Qed.
Lemma part_perm {A} (g : A -> bool) l : Permutation l (filter g l ++ filter (fun x => negb (g x)) l).
Proof.
  induction l as [|x l IH]; [constructor|]. cbn [filter]. destruct (g x); cbn [negb app]; [now constructor|].
  now apply Permutation_cons_app.
Qed.
(** the keys that stay when the selected fields are dropped *)
Definition stays (tags : list string) (fs : list field) (k : val) : bool :=
  negb (existsb (fun f => selected tags f && py_eq k (VStr (fname f))) fs).
Lemma dropped_filter tags fs : forall l, dropped tags fs l = filter (fun kv => stays tags fs (fst kv)) l.
Proof.
  induction fs as [|f fs IH]; intros l; cbn [dropped fold_left].
  { unfold stays. cbn. symmetry. induction l as [|x l IHl]; [reflexivity|]. cbn [filter]. now rewrite IHl. }
  change (dropped tags fs (if selected tags f then dict_del l (VStr (fname f)) else l) = filter (fun kv => stays tags (f :: fs) (fst kv)) l).
  rewrite IH. unfold stays. cbn [existsb]. destruct (selected tags f); cbn [andb orb]; [|reflexivity].
  unfold dict_del. induction l as [|[k v] l IHl]; [reflexivity|]. cbn [filter fst].
  destruct (py_eq k (VStr (fname f))); cbn [negb orb filter fst]; [exact IHl|]. now rewrite IHl.
Qed.
Lemma dropped_app tags fs l m : dropped tags fs (l ++ m) = dropped tags fs l ++ dropped tags fs m.
Proof. rewrite !dropped_filter. apply filter_app. Qed.
Lemma dropped_gone tags fs l a : named tags fs a -> dict_has (dropped tags fs l) (VStr a) = false.
Proof.
  intros (f & I & Sf & <-). rewrite dropped_filter. unfold dict_has. destruct (existsb _ _) eqn:X; [|reflexivity].
  apply existsb_exists in X. destruct X as ([k v] & K & Q). apply filter_In in K. destruct K as [_ K]. cbn [fst] in *.
  apply Bool.negb_true_iff in K. assert (Y : existsb (fun g => selected tags g && py_eq k (VStr (fname g))) fs = true); [|congruence].
  apply existsb_exists. exists f. now rewrite Sf, Q.
Qed.
Lemma stays_same tags fs k k' : fair k -> fair k' -> py_eq k k' = true -> stays tags fs k = stays tags fs k'.
Proof.
  intros F F' Q. unfold stays. f_equal. induction fs as [|f fs IH]; [reflexivity|]. cbn [existsb]. rewrite IH. f_equal. f_equal.
  destruct (fair_cases k F) as [(s & ->)|[(z & ->)|(b & ->)]], (fair_cases k' F') as [(s' & ->)|[(z' & ->)|(b' & ->)]]; try reflexivity; try discriminate Q.
  cbn in Q. apply String.eqb_eq in Q. now subst.
Qed.

Section Capture.
Variables (W : world) (root : val) (Loc : val -> Prop) (src : psource).
Let E := w_env W.
Hypothesis RG : regime E src root Loc.
Hypothesis STR : forall v w, psource_parse E src TyStr v = Ok w -> exists s, w = VStr s.

Lemma tame_plain_string : tame 1 plain_string.
Proof. split; [split; cbn; easy|exact I]. Qed.
Lemma tame_plain_field : tame 1 plain_field.
Proof. split; [split; cbn; easy|exact I]. Qed.

(** A plain field that yields a value reports nothing. *)
Lemma invalid_out r x es h : fst (ev_invalid W r x (es, h)) = Ok ERRORv \/ exists e, fst (ev_invalid W r x (es, h)) = Exn e.
Proof. unfold ev_invalid, ebind. destruct (ev_report W r (Invalid x) (es, h)) as [[u|e] s]; cbn; eauto. Qed.
Lemma plain_quiet n r v es h es' h' :
  ev_field W n r plain_field NONEv (es, h) = (Ok v, (es', h')) -> ignored v = false -> es' = es.
Proof.
  destruct n as [|n]; [discriminate|]. cbn [ev_field]. intros H N.
  unfold ev_field_body, ev_where in H. cbn [f_opts plain_field no_opts o_resolve o_src f_kind o_attach_parent is_NONE NONEv andb] in H.
  apply bind_ok in H. destruct H as (k & s1 & Hk & H). injection Hk as <- <-.
  apply bind_ok in H. destruct H as (w & s2 & H & Hr). apply bind_ok in Hr. destruct Hr as (u & s3 & Hu & Hr).
  injection Hu as _ <-. injection Hr as -> ->.
  set (q := r_for r plain_field) in *. unfold ev_body in H. cbn [f_opts plain_field no_opts o_compute o_default is_NONE NONEv] in H.
  assert (MISS : forall s, ev_default W q plain_field s = (Ok v, (es', h')) -> es' = es).
  { intros s Hd. exfalso. unfold ev_default in Hd. cbn [f_opts plain_field no_opts o_default] in Hd.
    assert (Hm : ev_missing W q s = (Ok v, (es', h'))) by (destruct (r_igd q); exact Hd).
    apply bind_ok in Hm. destruct Hm as (a & s4 & _ & Hm). injection Hm as <- _. discriminate. }
  apply bind_ok in H. destruct H as (x & s4 & Hx & H).
  destruct (is_NONE x) eqn:Nx; [eapply MISS; exact H|]. destruct (ignored x) eqn:Ix; [injection H as -> _; congruence|].
  assert (S4 : s4 = (es, h)).
  { unfold ev_compute in Hx. cbn [f_opts plain_field no_opts o_parse f_kind ev_parse] in Hx.
    apply bind_ok in Hx. destruct Hx as (ex & s5 & He & Hx). unfold ev_exists, on_val, elift in He. injection He as _ <-.
    destruct (negb ex); [injection Hx as <- _; discriminate|].
    apply bind_ok in Hx. destruct Hx as (nl & s5 & He & Hx). unfold ev_null, on_val, elift in He. injection He as _ <-.
    destruct nl; [now injection Hx|].
    apply catch_ok in Hx. destruct Hx as (a & s5 & He & Hx). unfold ev_primitive, on_val, elift in He. injection He as _ <-.
    destruct a as [a|e]; [now injection Hx|]. destruct (caught_by_compute e); [|discriminate].
    apply invalid_value in Hx. subst x. discriminate. }
  subst s4. unfold ev_after in H. cbn [f_opts plain_field no_opts o_munge o_filter o_validate ev_hook_or ev_translate o_translations] in H.
  apply bind_ok in H. destruct H as (y & s5 & Hy & H). injection Hy as <- <-.
  apply bind_ok in H. destruct H as (y & s5 & Hy & H). rewrite Ix in Hy. injection Hy as <- <-.
  rewrite Nx, Ix in H. destruct (negb (field_filter plain_field x)); [eapply MISS; exact H|].
  apply bind_ok in H. destruct H as (y & s5 & Hy & H). injection Hy as <- <-. cbn [negb] in H.
  apply bind_ok in H. destruct H as (ok & s5 & Hv & H).
  destruct ok; cbn [negb] in H; [|injection H as <- _; discriminate].
  apply bind_ok in H. destruct H as (y & s6 & Hy & H). injection Hy as <- <-. injection H as _ ->.
  unfold ev_validate in Hv. destruct (field_violation _ _ _ _) as [[z|]|e]; [|now injection Hv|discriminate].
  apply bind_ok in Hv. destruct Hv as (a & s6 & _ & Hv). discriminate.
Qed.
(** The key of a captured entry is kept as it is. *)
Lemma plain_key_kept n r k es h : fair k -> ev_field W (S n) r plain_string k (es, h) = (Ok k, (es, h)).
Proof.
  intros F. cbn [ev_field]. destruct (fair_cases k F) as [(s & ->)|[(z & ->)|(b & ->)]]; reflexivity.
Qed.

Section Run.
Variables (n : nat) (r r' : rd) (id : nat).
Hypothesis T : twin Collect Loc src r r'.
Hypothesis R : ready W src r.
Definition val_ev (q : rd) (k : val) : Ev val := ev_field W n (r_at W q (key_of_val k)) plain_field NONEv.
(** What capturing does with the keys that are not in the form, whose entries are [L]. *)
Fixpoint cap (L : list (val * val)) (ks : list val) (acc : list (val * val)) : res (list (val * val)) * list (ekind * string * option string) :=
  match ks with
  | [] => (Ok acc, [])
  | k :: ks =>
      if dict_has L k then cap L ks acc
      else match out (val_ev r k) with
           | Exn e => (Exn e, news (val_ev r k))
           | Ok v => if ignored v then (fst (cap L ks acc), news (val_ev r k) ++ snd (cap L ks acc))
                     else cap L ks (dict_set acc k v)
           end
  end.
Lemma val_calm k : fair k -> ready W src (r_at W r (key_of_val k)) ->
  calm Collect (r_pid r) (r_pid r') (val_ev r k) (val_ev r' k).
Proof.
  intros F Rk. change (r_pid r) with (r_pid (r_at W r (key_of_val k))). change (r_pid r') with (r_pid (r_at W r' (key_of_val k))).
  apply (calm_field Collect W root Loc src RG STR 1); auto; [apply tame_plain_field| |discriminate].
  eapply twin_at; eauto.
Qed.
Lemma accept_is q k es (h : heap) t L : fair k -> nth_error h id = Some (t, L) ->
  ev_accept W q (Some (not_in_form id)) k (es, h) = (Ok (negb (dict_has L k)), (es, h)).
Proof.
  intros F H. unfold ev_accept, ev_hook_or, ev_hook, not_in_form. cbn [hk_attached hk_fun]. unfold ebind, eret. cbn [ev_prog].
  assert (HK : hashable k = true) by (destruct (fair_cases k F) as [(s & ->)|[(z & ->)|(b & ->)]]; reflexivity).
  unfold ecatch, ev_item, ev_entries, ebind. rewrite HK. cbn [snd]. rewrite (hents_hit _ _ _ _ H).
  destruct (dict_has L k) eqn:D.
  - apply dict_has_get in D. destruct D as (v & ->). reflexivity.
  - destruct (dict_get L k) as [v|] eqn:G; [|reflexivity]. assert (dict_has L k = true) by (apply dict_has_get; eauto). congruence.
Qed.
Lemma val_quiet k : fair k -> ready W src (r_at W r (key_of_val k)) -> forall v, out (val_ev r k) = Ok v -> ignored v = false -> news (val_ev r k) = [].
Proof.
  intros F Rk v O N. destruct (calm_out _ _ _ _ (val_calm k F Rk) [] []) as [H _]. rewrite O in H.
  apply plain_quiet in H; [|exact N]. cbn [app] in H. destruct (news (val_ev r k)); [reflexivity|discriminate].
Qed.
Lemma dict_cap : forall ks acc es (h : heap) t L, fine_keys W src r ks -> nth_error h id = Some (t, L) ->
  ev_dict W (ev_field W n) r (Some (not_in_form id)) plain_string plain_field ks acc (es, h) =
    (fst (cap L ks acc), (es ++ map (put (r_pid r)) (snd (cap L ks acc)), h)) /\
  ev_dict W (ev_field W n) r' (Some (not_in_form id)) plain_string plain_field ks acc (es, h) =
    (fst (cap L ks acc), (es ++ map (put (r_pid r')) (snd (cap L ks acc)), h)).
Proof.
  induction ks as [|k ks IH]; intros acc es h t L FK H; cbn [ev_dict cap]; [cbn; now rewrite !app_nil_r|].
  assert (FK' : fine_keys W src r ks) by (intros x I; apply FK; now right).
  destruct (FK k (or_introl eq_refl)) as [F Rk]. change (fair k) in F.
  unfold ebind at 1 4. rewrite !(accept_is _ k es h t L F H), Bool.negb_involutive.
  destruct (dict_has L k); [now apply (IH acc es h t L)|].
  destruct (calm_out _ _ _ _ (val_calm k F Rk) es h) as [V V'].
  change (ev_field W n (r_at W r (key_of_val k)) plain_field NONEv) with (val_ev r k).
  change (ev_field W n (r_at W r' (key_of_val k)) plain_field NONEv) with (val_ev r' k).
  unfold ebind at 1 3. rewrite V, V'. destruct (out (val_ev r k)) as [v|e] eqn:O; [|auto].
  destruct (ignored v) eqn:Iv.
  - cbn [fst snd]. rewrite !map_app, !app_assoc.
    split; [exact (proj1 (IH acc _ h t L FK' H))|exact (proj2 (IH acc _ h t L FK' H))].
  - rewrite (val_quiet k F Rk v O Iv). cbn [map]. rewrite !app_nil_r.
    unfold val_ev in O. destruct n as [|n0]; [discriminate O|]. unfold ebind. rewrite !(plain_key_kept n0 _ k es h F).
    assert (IK : ignored k = false /\ hashable k = true) by (destruct (fair_cases k F) as [(s & ->)|[(z & ->)|(b & ->)]]; split; reflexivity).
    destruct IK as [-> ->]. now apply (IH (dict_set acc k v) es h t L).
Qed.

(** *** Capturing again *)
Lemma fair_same a k k' : fair k -> fair k' -> key_of_val k = key_of_val k' -> py_eq a k = py_eq a k'.
Proof.
  intros F F' Q. destruct (fair_cases k F) as [(s & ->)|[(z & ->)|(b & ->)]], (fair_cases k' F') as [(s' & ->)|[(z' & ->)|(b' & ->)]]; cbn [key_of_val] in Q;
    try discriminate; injection Q as Q; subst; try reflexivity.
  - destruct a; reflexivity.
  - destruct a; reflexivity.
  - destruct b, b'; try discriminate; reflexivity.
Qed.
Lemma has_same L k k' : fair k -> fair k' -> key_of_val k = key_of_val k' -> dict_has L k = dict_has L k'.
Proof.
  intros F F' Q. unfold dict_has. induction L as [|[a b] L IH]; cbn [existsb fst]; [reflexivity|]. now rewrite IH, (fair_same a k k').
Qed.
Lemma has_dict_set l k v k' : dict_has (dict_set l k v) k' = true -> dict_has l k' = true \/ py_eq k k' = true.
Proof.
  unfold dict_has. induction l as [|[a b] l IH]; cbn [dict_set existsb fst].
  - rewrite Bool.orb_false_r. auto.
  - destruct (py_eq a k) eqn:Q; cbn [existsb fst]; rewrite !Bool.orb_true_iff; [tauto|]. intros [H|H]; [tauto|]. destruct (IH H); tauto.
Qed.
Lemma has_kept l k v k' : dict_has l k' = true -> dict_has (dict_set l k v) k' = true.
Proof.
  unfold dict_has. induction l as [|[a b] l IH]; cbn [dict_set existsb fst]; [discriminate|].
  destruct (py_eq a k) eqn:Q; cbn [existsb fst]; rewrite !Bool.orb_true_iff; tauto.
Qed.
Lemma has_new l k v : fair k -> dict_has (dict_set l k v) k = true.
Proof.
  intros F. assert (X : py_eq k k = true) by now apply fair_eq.
  unfold dict_has. induction l as [|[a b] l IH]; cbn [dict_set existsb fst]; [now rewrite X|].
  destruct (py_eq a k) eqn:Q; cbn [existsb fst]; rewrite Q; auto.
Qed.
Lemma update_kept D : forall l k, dict_has l k = true -> dict_has (dict_update l D) k = true.
Proof.
  induction D as [|[a b] D IH]; intros l k H; [exact H|]. apply (IH (dict_set l a b)). now apply has_kept.
Qed.
Lemma has_update D : (forall k v, In (k, v) D -> fair k) -> forall l k, fair k ->
  dict_has (dict_update l D) k = dict_has l k || dict_has D k.
Proof.
  intros FD. induction D as [|[a b] D IH]; intros l k F; [cbn; now rewrite Bool.orb_false_r|].
  change (dict_has (dict_update (dict_set l a b) D) k = dict_has l k || (py_eq a k || dict_has D k)).
  assert (Fa : fair a) by (eapply FD; now left).
  rewrite IH; auto; [|intros; eapply FD; right; eauto].
  destruct (dict_has l k) eqn:L; cbn [orb]; [now rewrite has_kept|].
  destruct (py_eq a k) eqn:Q; cbn [orb].
  - apply (fair_eq a k Fa F) in Q. now rewrite <- (has_same _ a k Fa F Q), has_new.
  - destruct (dict_has (dict_set l a b) k) eqn:H; [|reflexivity]. destruct (has_dict_set _ _ _ _ H); congruence.
Qed.
Definition live (L : list (val * val)) (k : val) : bool :=
  negb (dict_has L k) && match out (val_ev r k) with Ok v => negb (ignored v) | Exn _ => false end.
Lemma set_keys l k v : forall a b, In (a, b) (dict_set l k v) -> a = k \/ exists b', In (a, b') l.
Proof.
  induction l as [|[x y] l IH]; intros a b; cbn [dict_set]; [intros [[= <- _]|[]]; auto|].
  destruct (py_eq x k); intros [[= <- <-]|H]; try (right; eexists; now left).
  - right. exists b. now right.
  - destruct (IH a b H) as [->|(b' & I)]; [auto|]. right. exists b'. now right.
Qed.
Lemma cap_keys L : forall ks acc D new, cap L ks acc = (Ok D, new) ->
  forall a b, In (a, b) D -> (exists b', In (a, b') acc) \/ (In a ks /\ dict_has L a = false).
Proof.
  induction ks as [|k ks IH]; intros acc D new; cbn [cap]; [intros [= <- <-] a b I; eauto|].
  destruct (dict_has L k) eqn:HL.
  { intros H a b I. destruct (IH _ _ _ H a b I) as [X|[X Y]]; [auto|]. right. split; [now right|exact Y]. }
  destruct (out (val_ev r k)) as [v|e]; [|discriminate]. destruct (ignored v).
  - intros [= H _] a b I. destruct (IH acc D (snd (cap L ks acc))) with (a := a) (b := b) as [X|[X Y]]; auto.
    + now rewrite <- H, <- surjective_pairing.
    + right. split; [now right|exact Y].
  - intros H a b I. destruct (IH _ _ _ H a b I) as [(b' & X)|[X Y]].
    + destruct (set_keys _ _ _ _ _ X) as [->|X']; [right; split; [now left|exact HL]|now left].
    + right. split; [now right|exact Y].
Qed.
Lemma cap_acc L : forall ks acc D new k, cap L ks acc = (Ok D, new) -> dict_has acc k = true -> dict_has D k = true.
Proof.
  induction ks as [|x ks IH]; intros acc D new k; cbn [cap]; [intros [= <- <-]; auto|].
  destruct (dict_has L x); [apply IH|]. destruct (out (val_ev r x)) as [v|e]; [|discriminate]. destruct (ignored v).
  - intros [= H _]. apply (IH acc D (snd (cap L ks acc))). now rewrite <- H, <- surjective_pairing.
  - intros H A. apply (IH _ _ _ k H). now apply has_kept.
Qed.
Lemma cap_has L : forall ks acc D new k, cap L ks acc = (Ok D, new) -> In k ks -> fair k -> live L k = true -> dict_has D k = true.
Proof.
  induction ks as [|x ks IH]; intros acc D new k; cbn [cap]; [intros _ []|].
  intros H I F Lv. destruct I as [->|I].
  - unfold live in Lv. apply Bool.andb_true_iff in Lv. destruct Lv as [N V]. destruct (dict_has L k); [discriminate|].
    destruct (out (val_ev r k)) as [v|e]; [|discriminate]. destruct (ignored v); [discriminate|].
    eapply cap_acc; [exact H|]. now apply has_new.
  - destruct (dict_has L x); [eapply IH; eauto|]. destruct (out (val_ev r x)) as [v|e]; [|discriminate]. destruct (ignored v).
    + injection H as H _. apply (IH acc D (snd (cap L ks acc)) k); auto. now rewrite <- H, <- surjective_pairing.
    + eapply IH; eauto.
Qed.
Lemma cap_only L : forall ks acc D new k, cap L ks acc = (Ok D, new) -> dict_has D k = true ->
  dict_has acc k = true \/ exists k0, In k0 ks /\ py_eq k0 k = true /\ live L k0 = true.
Proof.
  induction ks as [|x ks IH]; intros acc D new k; cbn [cap]; [intros [= <- <-]; auto|].
  assert (UP : (dict_has acc k = true \/ exists k0, In k0 ks /\ py_eq k0 k = true /\ live L k0 = true) ->
               dict_has acc k = true \/ exists k0, In k0 (x :: ks) /\ py_eq k0 k = true /\ live L k0 = true).
  { intros [A|(k0 & I & Q)]; [auto|]. right. exists k0. split; [now right|exact Q]. }
  destruct (dict_has L x) eqn:HL; [intros H A; apply UP; eapply IH; eauto|].
  destruct (out (val_ev r x)) as [v|e] eqn:O; [|discriminate]. destruct (ignored v) eqn:Iv.
  - intros [= H _] A. apply UP. apply (IH acc D (snd (cap L ks acc))); auto. now rewrite <- H, <- surjective_pairing.
  - intros H A. destruct (IH _ _ _ k H A) as [B|(k0 & I & Q)].
    + destruct (has_dict_set _ _ _ _ B) as [B'|B']; [auto|]. right. exists x. split; [now left|]. split; [exact B'|].
      unfold live. now rewrite HL, O, Iv.
    + right. exists k0. split; [now right|exact Q].
Qed.
Lemma cap_again L L2 : forall ks acc D new acc2, cap L ks acc = (Ok D, new) ->
  (forall k, In k ks -> dict_has L2 k = dict_has L k || live L k) -> cap L2 ks acc2 = (Ok acc2, new).
Proof.
  induction ks as [|x ks IH]; intros acc D new acc2; cbn [cap]; [intros [= <- <-]; auto|].
  intros H HL. rewrite (HL x (or_introl eq_refl)). unfold live at 1.
  assert (HL' : forall k, In k ks -> dict_has L2 k = dict_has L k || live L k) by (intros; apply HL; now right).
  destruct (dict_has L x) eqn:HX; cbn [orb negb andb]; [eapply IH; eauto|].
  destruct (out (val_ev r x)) as [v|e]; [|discriminate]. destruct (ignored v); cbn [negb].
  - injection H as H <-. rewrite (IH acc D (snd (cap L ks acc)) acc2); auto. now rewrite <- H, <- surjective_pairing.
  - eapply IH; eauto.
Qed.
Lemma captured_twice L ks D new : fine_keys W src r ks -> cap L ks [] = (Ok D, new) ->
  cap (dict_update L D) ks [] = (Ok [], new) /\ (forall a b, In (a, b) D -> dict_has L a = false).
Proof.
  intros FK H.
  assert (DK : forall a b, In (a, b) D -> In a ks /\ dict_has L a = false).
  { intros a b I. destruct (cap_keys L ks [] D new H a b I) as [(b' & [])|X]. exact X. }
  split; [|intros a b I; apply (DK a b I)].
  eapply cap_again; [exact H|]. intros k I. destruct (FK k I) as [F _]. change (fair k) in F.
  rewrite has_update; auto.
  2:{ intros a b Ia. destruct (DK a b Ia) as [Ik _]. apply (FK a Ik). }
  destruct (dict_has L k) eqn:HL; [reflexivity|]. cbn [orb].
  destruct (live L k) eqn:Lv; [eapply cap_has; eauto|].
  destruct (dict_has D k) eqn:HD; [|reflexivity].
  destruct (cap_only L ks [] D new k H HD) as [A|(k0 & I0 & Q & L0)]; [discriminate|].
  destruct (FK k0 I0) as [F0 _]. change (fair k0) in F0. apply (fair_eq k0 k F0 F) in Q.
  rewrite <- Lv, <- L0. unfold live, val_ev. rewrite Q. now rewrite (has_same L k0 k F0 F Q).
Qed.

Lemma cap_distinct L : forall ks acc D new, cap L ks acc = (Ok D, new) -> distinct acc -> distinct D.
Proof.
  induction ks as [|x ks IH]; intros acc D new; cbn [cap]; [intros [= <- <-]; auto|].
  destruct (dict_has L x); [apply IH|]. destruct (out (val_ev r x)) as [v|e]; [|discriminate]. destruct (ignored v).
  - intros [= H _]. apply (IH acc D (snd (cap L ks acc))). now rewrite <- H, <- surjective_pairing.
  - intros H A. apply (IH _ _ _ H). now apply distinct_set.
Qed.
Definition fair_keys (l : list (val * val)) : Prop := forall a b, In (a, b) l -> fair a.
Lemma filter_set K acc k v : fair k -> fair_keys acc -> 
  filter (fun kv => negb (dict_has K (fst kv))) (dict_set acc k v) =
  if dict_has K k then filter (fun kv => negb (dict_has K (fst kv))) acc else dict_set (filter (fun kv => negb (dict_has K (fst kv))) acc) k v.
Proof.
  intros F. induction acc as [|[a b] acc IH]; intros FA; cbn [dict_set filter fst].
  { destruct (dict_has K k) eqn:H; reflexivity. }
  assert (Fa : fair a) by (eapply FA; now left). assert (FA' : fair_keys acc) by (intros x y I; eapply FA; right; eauto).
  destruct (py_eq a k) eqn:Q; cbn [filter fst].
  - apply (fair_eq a k Fa F) in Q as Q'. rewrite (has_same K a k Fa F Q'). destruct (dict_has K k); cbn [negb]; [reflexivity|]. cbn [dict_set]. now rewrite Q.
  - rewrite (IH FA'). destruct (dict_has K a) eqn:Ha; cbn [negb]; [reflexivity|]. destruct (dict_has K k); [reflexivity|]. cbn [dict_set]. now rewrite Q.
Qed.
Lemma cap_less L L2 K : forall ks acc D new, fine_keys W src r ks -> cap L ks acc = (Ok D, new) -> fair_keys acc ->
  (forall k, In k ks -> dict_has L2 k = dict_has L k || dict_has K k) ->
  (forall k, In k ks -> dict_has K k = true -> live L k = true) ->
  cap L2 ks (filter (fun kv => negb (dict_has K (fst kv))) acc) = (Ok (filter (fun kv => negb (dict_has K (fst kv))) D), new).
Proof.
  induction ks as [|x ks IH]; intros acc D new FK; cbn [cap]; [intros [= <- <-]; auto|].
  intros H FA HL HV. assert (FK' : fine_keys W src r ks) by (intros y I; apply FK; now right).
  destruct (FK x (or_introl eq_refl)) as [F Rx]. change (fair x) in F.
  assert (HL' : forall k, In k ks -> dict_has L2 k = dict_has L k || dict_has K k) by (intros; apply HL; now right).
  assert (HV' : forall k, In k ks -> dict_has K k = true -> live L k = true) by (intros; apply HV; [now right|assumption]).
  rewrite (HL x (or_introl eq_refl)). pose proof (HV x (or_introl eq_refl)) as Hx. unfold live in Hx.
  destruct (dict_has L x) eqn:HX; cbn [orb negb andb] in *; [eapply IH; eauto|].
  destruct (out (val_ev r x)) as [v|e]; [|discriminate].
  destruct (ignored v); cbn [negb] in *.
  - destruct (dict_has K x); [discriminate (Hx eq_refl)|]. injection H as H <-.
    rewrite (IH acc D (snd (cap L ks acc))); auto. now rewrite <- H, <- surjective_pairing.
  - assert (FS : fair_keys (dict_set acc x v)).
    { intros a b I. destruct (set_keys_in _ _ _ _ _ I) as [->|(b' & I')]; [exact F|eapply FA; eauto]. }
    pose proof (filter_set K acc x v F FA) as FX. destruct (dict_has K x); rewrite <- FX; eapply IH; eauto.
Qed.
(** What capturing once more does when the captured entries that name a field were dropped. *)
Lemma captured_less tags fs L ks D new L2 : fine_keys W src r ks -> cap L ks [] = (Ok D, new) ->
  (forall k, In k ks -> dict_has L2 k = dict_has L k || dict_has (dropped tags fs D) k) ->
  distinct D /\ fair_keys D /\ (forall a b, In (a, b) D -> In a ks /\ dict_has L a = false) /\
  cap L2 ks [] = (Ok (filter (fun kv => negb (stays tags fs (fst kv))) D), new).
Proof.
  intros FK H HL.
  assert (DK : forall a b, In (a, b) D -> In a ks /\ dict_has L a = false).
  { intros a b I. destruct (cap_keys L ks [] D new H a b I) as [(b' & [])|X]. exact X. }
  assert (FD : fair_keys D) by (intros a b I; apply (FK a); now apply (DK a b)).
  split; [eapply cap_distinct; [exact H|constructor]|]. split; [exact FD|]. split; [exact DK|].
  assert (HD : forall k, fair k -> dict_has (dropped tags fs D) k = true -> stays tags fs k = true /\ dict_has D k = true).
  { intros k F X. rewrite dropped_filter in X. unfold dict_has in X. apply existsb_exists in X. destruct X as ([a b] & I & Q). apply filter_In in I. destruct I as [I G]. cbn [fst] in *.
    split; [rewrite <- (stays_same tags fs a k); auto; eapply FD; eauto|]. unfold dict_has. apply existsb_exists. exists (a, b). auto. }
  etransitivity; [apply (cap_less L L2 (dropped tags fs D) ks [] D new FK H)|].
  4:{ f_equal. f_equal. apply filter_ext_in. intros [a b] I. cbn [fst]. f_equal.
    assert (Fa : fair a) by (eapply FD; eauto).
    destruct (stays tags fs a) eqn:G.
    + unfold dict_has. apply existsb_exists. exists (a, b). split; [rewrite dropped_filter; apply filter_In; auto|]. now apply fair_eq.
    + destruct (dict_has (dropped tags fs D) a) eqn:X; [|reflexivity]. destruct (HD a Fa X). congruence. }
  - intros a b [].
  - exact HL.
  - intros k I X. destruct (FK k I) as [F _]. change (fair k) in F. destruct (HD k F X) as [_ X'].
    destruct (cap_only L ks [] D new k H X') as [A|(k0 & I0 & Q & L0)]; [discriminate|].
    destruct (FK k0 I0) as [F0 _]. change (fair k0) in F0. apply (fair_eq k0 k F0 F) in Q.
    rewrite <- L0. unfold live, val_ev. rewrite Q. now rewrite (has_same L k0 k F0 F Q).
Qed.
End Run.

(** *** The captured dictionary, and the whole form *)
Definition failed (r : rd) (e : exn) : Ev val := if caught_by_compute e then ev_invalid W r (VioExn (spoken e)) else eraise e.
Definition post (x : res val) : res unit :=
  match x with
  | Ok VNone | Ok (VDict _) => Ok tt
  | Ok _ => Exn (EType "not iterable")
  | Exn e => Exn e
  end.
Definition no_dict (x : res val) : Prop := match x with Ok (VDict _) => False | _ => True end.
Lemma post_none x (s : list err * heap) id : no_dict x ->
  match x with
  | Ok VNone => eret tt
  | Ok (VDict d) => l <~ ev_entries id; ev_set_entries id (dict_update l d)
  | Ok _ => eraise (EType "not iterable")
  | Exn e => eraise e
  end s = (post x, s).
Proof. destruct x as [[]|]; try reflexivity. contradiction. Qed.
Lemma dict_after r d es h : ev_after W r (unmapped_dict 0 plain_string plain_field) (VDict d) (es, h) = (Ok (VDict d), (es, h)).
Proof. reflexivity. Qed.
Lemma capture_is fuel r r' id : twin Collect Loc src r r' -> r_val r = Ok root -> ready W src r ->
  let go := fun q => ev_field W fuel q (unmapped_dict id plain_string plain_field) NONEv in
  (exists o new, no_dict o /\ forall es (h : heap) t L, nth_error h id = Some (t, L) ->
     go r (es, h) = (o, (es ++ map (put (r_pid r)) new, h)) /\ go r' (es, h) = (o, (es ++ map (put (r_pid r')) new, h))) \/
  (exists n ks, fine_keys W src (r_for r (unmapped_dict id plain_string plain_field)) ks /\ forall es (h : heap) t L, nth_error h id = Some (t, L) ->
     match cap n (r_for r (unmapped_dict id plain_string plain_field)) L ks [] with
     | (Ok D, new) => go r (es, h) = (Ok (VDict D), (es ++ map (put (r_pid r)) new, h)) /\
                      go r' (es, h) = (Ok (VDict D), (es ++ map (put (r_pid r')) new, h))
     | (Exn e, new) => no_dict (out (failed (r_for r (unmapped_dict id plain_string plain_field)) e)) /\
        let more := news (failed (r_for r (unmapped_dict id plain_string plain_field)) e) in
        let o := out (failed (r_for r (unmapped_dict id plain_string plain_field)) e) in
        go r (es, h) = (o, (es ++ map (put (r_pid r)) (new ++ more), h)) /\
        go r' (es, h) = (o, (es ++ map (put (r_pid r')) (new ++ more), h))
     end).
Proof.
  intros T V R go. destruct fuel as [|n].
  { left. exists (Exn ERecursion), []. split; [exact I|]. intros es h t L H. cbn. now rewrite !app_nil_r. }
  set (f := unmapped_dict id plain_string plain_field) in *.
  set (q := r_for r f). set (q' := r_for r' f).
  assert (TF : twin_f Collect Loc src q q') by now apply twin_for.
  assert (NN : is_NONE root = false) by apply (rg_some _ _ _ _ RG _ (rg_root _ _ _ _ RG)).
  assert (Hs : r_src q = src) by apply (tw_src _ _ _ _ _ (proj1 TF)).
  assert (Hs' : r_src q' = src) by apply (tw_src' _ _ _ _ _ (proj1 TF)).
  assert (V' : r_val r' = Ok root) by (rewrite (tw_val _ _ _ _ _ T); exact V).
  assert (TK : r_keys q' = r_keys q) by apply (tw_keys _ _ _ _ _ (proj1 TF)).
  assert (FAIL : forall e, calm Collect (r_pid q) (r_pid q') (failed q e) (failed q' e)).
  { intros e. unfold failed. apply calm_if; [eapply calm_invalid; eauto|apply calm_raise]. }
  assert (FND : forall e, no_dict (out (failed q e)) /\ forall v, out (failed q e) = Ok v -> v = ERRORv).
  { intros e. unfold failed. destruct (caught_by_compute e); [|split; [exact I|discriminate]].
    unfold out, ev_invalid, ebind. destruct (ev_report W q (Invalid (VioExn (spoken e))) _) as [[[]|x] z]; cbn; split; try exact I; congruence. }
  (* the steps before and after the keys *)
  assert (STEP : forall (p : rd) es (h : heap), r_val p = Ok root ->
    ev_field W (S n) p f NONEv (es, h) =
    (v <~ (if is_None root then eret VNone
           else ecatch (ev_parse W (ev_field W n) (r_for p f) (f_kind f)) (fun x => match x with Ok v => eret v | Exn e => failed (r_for p f) e end));
     if is_NONE v then ev_default W (r_for p f) f else if ignored v then eret v else ev_after W (r_for p f) f v) (es, h)).
  { intros p es h Vp. cbn [ev_field]. unfold ev_field_body, ev_where. change (f_opts f) with (@no_opts).
    cbn [no_opts o_resolve o_src o_attach_parent is_NONE NONEv andb].
    assert (K : match f_kind f with KGroup _ => None | _ => @None key end = None) by (destruct (f_kind f); reflexivity).
    unfold ebind at 1. unfold eret at 1. rewrite K. unfold ev_body. change (f_opts f) with (@no_opts).
    cbn [no_opts o_compute o_default is_NONE NONEv].
    unfold ev_compute. change (f_opts f) with (@no_opts). cbn [no_opts o_parse].
    unfold ev_exists, ev_null, on_val. change (r_val (r_for p f)) with (r_val p). rewrite Vp.
    unfold elift, ebind. rewrite NN. cbn [negb]. destruct (is_None root).
    - unfold eret. cbn [is_NONE ignored].
      match goal with |- context [ev_after ?a ?b ?c ?d ?g] => destruct (ev_after a b c d g) as [[w|e] [es2 h2]]; reflexivity end.
    - unfold failed. match goal with |- context [ecatch ?a ?b ?c] => destruct (ecatch a b c) as [[v|e] [es1 h1]] end; [|reflexivity].
      destruct (is_NONE v); [|destruct (ignored v); [reflexivity|]].
      + match goal with |- context [ev_default ?a ?b ?c ?d] => destruct (ev_default a b c d) as [[w|e] [es2 h2]]; reflexivity end.
      + match goal with |- context [ev_after ?a ?b ?c ?d ?g] => destruct (ev_after a b c d g) as [[w|e] [es2 h2]]; reflexivity end. }
  destruct (is_None root) eqn:NR.
  { left. exists (Ok VNone), []. split; [exact I|]. intros es h t L H. unfold go. rewrite !(STEP _ es h) by assumption. cbn. now rewrite !app_nil_r. }
  assert (PARSE : forall p es (h : heap), r_val p = Ok root -> r_src p = src -> length (r_keys p) = length (r_keys q) ->
    ev_parse W (ev_field W n) p (f_kind f) (es, h) =
    match psource_mapping E no_ents src (length (r_keys q)) root with
    | Exn e => (Exn e, (es, h))
    | Ok (Exn e) => (Exn e, (es, h))
    | Ok (Ok ks) => (d <~ ev_dict W (ev_field W n) p (Some (not_in_form id)) plain_string plain_field ks []; eret (VDict d)) (es, h)
    end).
  { intros p es h Vp Sp Kp. cbn [f unmapped_dict f_kind ev_parse]. unfold ev_mapping, on_val. rewrite Vp, Sp, Kp. unfold elift, ebind. fold E.
    destruct (psource_mapping E no_ents src (length (r_keys q)) root) as [[ks|e]|e]; reflexivity. }
  assert (EXN : forall e, (forall p es (h : heap), r_val p = Ok root -> r_src p = src -> length (r_keys p) = length (r_keys q) ->
      ev_parse W (ev_field W n) p (f_kind f) (es, h) = (Exn e, (es, h))) ->
    exists o new, no_dict o /\ forall es (h : heap) t L, nth_error h id = Some (t, L) ->
     go r (es, h) = (o, (es ++ map (put (r_pid r)) new, h)) /\ go r' (es, h) = (o, (es ++ map (put (r_pid r')) new, h))).
  { intros e P. exists (out (failed q e)), (news (failed q e)). split; [apply FND|]. intros es h t L H. unfold go.
    rewrite !(STEP _ es h) by assumption. fold q q'. unfold ebind, ecatch.
    rewrite (P q), (P q') by (auto; now rewrite TK).
    destruct (calm_out _ _ _ _ (FAIL e) es h) as [-> ->]. destruct (out (failed q e)) as [v|x] eqn:O; [|auto].
    pose proof (proj2 (FND e) v O) as ->. auto. }
  destruct (psource_mapping E no_ents src (length (r_keys q)) root) as [[ks|e]|e] eqn:M.
  2:{ left. apply (EXN e). intros p es h Vp Sp Kp. now rewrite PARSE by assumption. }
  2:{ left. apply (EXN e). intros p es h Vp Sp Kp. now rewrite PARSE by assumption. }
  right. exists n, ks.
  assert (FK : fine_keys W src r ks).
  { eapply (loc_map W root Loc src RG); [|exact M]. split; [exact Hs|]. split; [exact V|apply (rg_root _ _ _ _ RG)]. }
  split; [exact FK|]. intros es h t L H.
  assert (FKq : fine_keys W src q ks) by exact FK.
  destruct (dict_cap n q q' id (proj1 TF) R ks [] es h t L FKq H) as [D1 D2].
  fold q.
  assert (G : forall p x es1 , r_val p = Ok root -> ev_parse W (ev_field W n) (r_for p f) (f_kind f) (es, h) = (x, (es1, h)) ->
     ev_field W (S n) p f NONEv (es, h) =
     (v <~ (match x with Ok v => eret v | Exn e => failed (r_for p f) e end);
      if is_NONE v then ev_default W (r_for p f) f else if ignored v then eret v else ev_after W (r_for p f) f v) (es1, h)).
  { intros p x es1 Vp Hp. rewrite (STEP p es h Vp). unfold ebind, ecatch. rewrite Hp. reflexivity. }
  destruct (cap n q L ks []) as [[D|e] new]; cbn [fst snd] in D1, D2.
  - split; unfold go.
    + rewrite (G r (Ok (VDict D)) (es ++ map (put (r_pid r)) new)); [reflexivity|assumption|].
      fold q. rewrite PARSE by auto. unfold ebind. rewrite D1. reflexivity.
    + rewrite (G r' (Ok (VDict D)) (es ++ map (put (r_pid r')) new)); [reflexivity|assumption|].
      fold q'. rewrite PARSE by (auto; now rewrite TK). unfold ebind. rewrite D2. reflexivity.
  - split; [apply FND|]. cbv zeta. rewrite !map_app, !app_assoc.
    split; unfold go.
    + rewrite (G r (Exn e) (es ++ map (put (r_pid r)) new)); [|assumption|].
      * fold q. unfold ebind. destruct (calm_out _ _ _ _ (FAIL e) (es ++ map (put (r_pid r)) new) h) as [-> _].
        destruct (out (failed q e)) as [v|x] eqn:O; [|auto]. pose proof (proj2 (FND e) v O) as ->. auto.
      * fold q. rewrite PARSE by auto. unfold ebind. rewrite D1. reflexivity.
    + rewrite (G r' (Exn e) (es ++ map (put (r_pid r')) new)); [|assumption|].
      * fold q'. unfold ebind. destruct (calm_out _ _ _ _ (FAIL e) (es ++ map (put (r_pid r')) new) h) as [_ ->].
        destruct (out (failed q e)) as [v|x] eqn:O; [|auto]. pose proof (proj2 (FND e) v O) as ->. auto.
      * fold q'. rewrite PARSE by (auto; now rewrite TK). unfold ebind. rewrite D2. reflexivity.
Qed.
Lemma capture_form_alike d fuel o o' id tags t : ou_igd o' = ou_igd o -> ou_igm o' = ou_igm o -> tame_form d t ->
  exists F : list (val * val) -> res unit * list (ekind * string * option string) * list (val * val),
  (forall (h : heap) l, nth_error h id = Some (t, l) ->
    ev_form_map W (ev_field W fuel) (r_start o src Collect root) id tags UCapture ([], h) =
      (fst (fst (F l)), (map (put (ou_pid o)) (snd (fst (F l))), replace_nth id (t, snd (F l)) h)) /\
    ev_form_map W (ev_field W fuel) (r_start o' src Collect root) id tags UCapture ([], h) =
      (fst (fst (F l)), (map (put (ou_pid o')) (snd (fst (F l))), replace_nth id (t, snd (F l)) h))) /\
  (forall l, F (snd (F l)) = F l) /\
  (forall l, let l1 := dropped tags (ft_fields t) l in let l2 := dropped tags (ft_fields t) (snd (F l1)) in
    fst (F l2) = fst (F l1) /\ Permutation (snd (F l2)) (snd (F l1))).
Proof.
  intros A B D. unfold ev_form_map.
  destruct (psource_mapping E no_ents src 0 root) as [vw|e] eqn:M.
  2:{ exists (fun l => (Exn e, [], l)). split; [|split; [reflexivity|]].
      2:{ intros l. cbn [fst snd]. cbv zeta. rewrite dropped_twice. auto. }
      intros h l H. unfold ebind, ev_mapping, on_val, elift. cbn [r_start r_val r_src r_keys length].
      fold E. rewrite M. cbn. now rewrite (replace_id _ _ _ H). }
  pose proof (start_twin W root Loc src RG o o' A B) as T0. pose proof (start_ready W root Loc src RG o) as R0.
  set (r := r_start o src Collect root) in *. set (r' := r_start o' src Collect root) in *.
  assert (T : twin Collect Loc src (r_inform r id) (r_inform r' id)) by (destruct T0; split; auto).
  destruct (fields_alike W root Loc src RG STR d fuel fuel _ _ id id tags (ft_fields t) (or_introl eq_refl) D T R0) as (x & new & S & NS & FA).
  assert (START : forall (p : rd) (h : heap) l, r_val p = Ok root -> r_src p = src -> length (r_keys p) = 0%nat -> nth_error h id = Some (t, l) ->
    (ev_mapping W p;;; t <~ ev_type id; ev_fields (ev_field W fuel) (r_inform p id) id tags (ft_fields t);;;
     o <~ ev_unmapped (ev_field W fuel) p id UCapture;
     match o with
     | None => eret tt | Some VNone => eret tt | Some (VDict d) => l <~ ev_entries id; ev_set_entries id (dict_update l d)
     | Some _ => eraise (EType "not iterable") end) ([], h) =
    (ev_fields (ev_field W fuel) (r_inform p id) id tags (ft_fields t);;;
     v <~ ev_field W fuel p (unmapped_dict id plain_string plain_field) NONEv;
     match v with
     | VNone => eret tt | VDict d => l <~ ev_entries id; ev_set_entries id (dict_update l d)
     | _ => eraise (EType "not iterable") end) ([], h)).
  { intros p h l Vp Sp Kp H. unfold ebind, ev_mapping, on_val, elift. rewrite Vp, Sp, Kp. fold E. rewrite M.
    unfold ev_type. cbn [snd]. rewrite H. destruct (ev_fields _ _ _ _ _ _) as [[u|e] s1]; [|reflexivity].
    unfold ev_unmapped, ebind. destruct (ev_field W fuel p _ _ s1) as [[v|e] s2]; [|reflexivity]. destruct v; reflexivity. }
  assert (SAME : forall l, upd (dropped tags (ft_fields t) (upd (dropped tags (ft_fields t) l) S)) S = upd (dropped tags (ft_fields t) l) S).
  { intros l. rewrite dropped_upd by exact NS. now rewrite dropped_twice. }
  destruct x as [[]|e].
  2:{ exists (fun l => (Exn e, new, upd l S)). cbn [fst snd]. split; [|split; [|intros l; cbv zeta; now rewrite SAME]].
      - intros h l H. rewrite (START r h l), (START r' h l) by (auto; reflexivity). unfold ebind. destruct (FA [] h t l t l H H) as [-> ->]. auto.
      - intros l. now rewrite upd_twice. }
  destruct (capture_is fuel r r' id T0 eq_refl R0) as [(o2 & new2 & ND & CP)|(n & ks & FK & CP)].
  - exists (fun l => (post o2, new ++ new2, upd l S)). cbn [fst snd]. split; [|split; [|intros l; cbv zeta; now rewrite SAME]].
    + intros h l H. rewrite (START r h l), (START r' h l) by (auto; reflexivity). unfold ebind.
      destruct (FA [] h t l t l H H) as [-> ->]. cbn [app r_inform r_pid].
      assert (H1 : nth_error (replace_nth id (t, upd l S) h) id = Some (t, upd l S)) by (eapply replace_hit; eauto).
      destruct (CP (map (put (r_pid r)) new) _ t _ H1) as [C1 _]. destruct (CP (map (put (r_pid r')) new) _ t _ H1) as [_ C2].
      unfold heap in *. rewrite C1, C2, !map_app. destruct o2 as [v|e]; [|auto].
      split; [rewrite <- (post_none (Ok v) _ id ND)|rewrite <- (post_none (Ok v) _ id ND)]; destruct v; reflexivity.
    + intros l. now rewrite upd_twice.
  - set (q := r_for r (unmapped_dict id plain_string plain_field)) in *.
    exists (fun l => match cap n q (upd l S) ks [] with
                     | (Ok D, nw) => (Ok tt, new ++ nw, dict_update (upd l S) D)
                     | (Exn e, nw) => (post (out (failed q e)), new ++ (nw ++ news (failed q e)), upd l S)
                     end).
    split; [|split].
    + intros h l H. rewrite (START r h l), (START r' h l) by (auto; reflexivity). unfold ebind.
      destruct (FA [] h t l t l H H) as [-> ->]. cbn [app r_inform r_pid].
      assert (H1 : nth_error (replace_nth id (t, upd l S) h) id = Some (t, upd l S)) by (eapply replace_hit; eauto).
      pose proof (CP (map (put (r_pid r)) new) _ t _ H1) as C1. pose proof (CP (map (put (r_pid r')) new) _ t _ H1) as C2.
      destruct (cap n q (upd l S) ks []) as [[D0|e] nw]; cbn [fst snd].
      * destruct C1 as [C1 _], C2 as [_ C2]. unfold heap in *. rewrite C1, C2, !map_app. unfold ev_entries, ev_set_entries. cbn [fst snd].
        rewrite (hents_hit _ _ _ _ H1), H1, replace_twice. auto.
      * destruct C1 as (ND & C1 & _), C2 as (_ & _ & C2). cbv zeta in C1, C2. unfold heap in *. rewrite C1, C2, (map_app _ new), (map_app _ new).
        destruct (out (failed q e)) as [v|x]; [|auto].
        split; [rewrite <- (post_none (Ok v) _ id ND)|rewrite <- (post_none (Ok v) _ id ND)]; destruct v; reflexivity.
    + intros l. destruct (cap n q (upd l S) ks []) as [[D0|e] nw] eqn:C; cbn [fst snd].
      * destruct (captured_twice n q (upd l S) ks D0 nw FK C) as [C2 DK].
        assert (U : upd (dict_update (upd l S) D0) S = dict_update (upd l S) D0).
        { apply (upd_there S _ l). intros a I. apply update_apart. intros k v Ik ->. specialize (DK _ _ Ik).
          assert (dict_has (upd l S) (VStr a) = true); [|congruence].
          clear -I. revert l. induction S as [|[k x] S IH]; intros l; [contradiction|].
          change (dict_has (upd (sset l k x) S) (VStr a) = true). destruct I as [<-|I]; [apply upd_has, set_has|auto]. }
        rewrite U, C2. reflexivity.
      * rewrite upd_twice, C. reflexivity.
    + intros l. cbv zeta. set (fs := ft_fields t) in *. set (l1 := dropped tags fs l) in *.
      destruct (cap n q (upd l1 S) ks []) as [[D0|e] nw] eqn:C; cbn [fst snd].
      2:{ unfold l1. rewrite SAME. fold l1. rewrite C. auto. }
      assert (GONE : forall m a, In a (map fst S) -> dict_has (dropped tags fs m) (VStr a) = false).
      { intros m a I. apply dropped_gone. now apply NS. }
      assert (U1 : upd l1 S = l1 ++ upd [] S). { rewrite <- (app_nil_r l1) at 1. apply upd_app. apply GONE. }
      assert (U2 : upd (l1 ++ dropped tags fs D0) S = (l1 ++ dropped tags fs D0) ++ upd [] S).
      { rewrite <- (app_nil_r (l1 ++ dropped tags fs D0)) at 1. apply upd_app. intros a I. rewrite has_app. unfold l1. now rewrite !GONE. }
      destruct (captured_less n q tags fs (upd l1 S) ks D0 nw (upd (l1 ++ dropped tags fs D0) S) FK C) as (DD & FD & DK & C2).
      { intros k _. rewrite U1, U2, !has_app. destruct (dict_has l1 k), (dict_has (upd [] S) k), (dict_has (dropped tags fs D0) k); reflexivity. }
      assert (E1 : dict_update (upd l1 S) D0 = upd l1 S ++ D0). { apply update_app; [exact DD|]. intros a b I. apply (DK a b I). }
      rewrite E1, dropped_app, dropped_upd by exact NS. replace (dropped tags fs l1) with l1 by (unfold l1; now rewrite dropped_twice).
      rewrite C2. cbn [fst snd]. split; [reflexivity|].
      rewrite update_app.
      * rewrite U1, U2, <- !app_assoc. apply Permutation_app_head. rewrite app_assoc. rewrite (Permutation_app_comm (dropped tags fs D0)). rewrite <- app_assoc. apply Permutation_app_head.
        rewrite dropped_filter. symmetry. apply (part_perm (fun kv => stays tags fs (fst kv))).
      * now apply distinct_filter.
      * intros a b I. apply filter_In in I. destruct I as [I G]. cbn [fst] in G. destruct (DK a b I) as [_ HL].
        rewrite U1 in HL. rewrite has_app in HL. apply Bool.orb_false_iff in HL. destruct HL as [HL1 HL2].
        rewrite U2, !has_app, HL1, HL2, Bool.orb_false_r. cbn [orb].
        destruct (dict_has (dropped tags fs D0) a) eqn:X; [|reflexivity]. exfalso.
        rewrite dropped_filter in X. unfold dict_has in X. apply existsb_exists in X. destruct X as ([a' b'] & I' & Q). apply filter_In in I'. destruct I' as [I' G']. cbn [fst] in *.
        rewrite (stays_same tags fs a' a (FD _ _ I') (FD _ _ I) Q) in G'. rewrite G' in G. discriminate.
Qed.
End Capture.

Lemma map_capture_again W root Loc src d fuel o o' id t l tags (h : heap) :
  regime (w_env W) src root Loc -> (forall v w, psource_parse (w_env W) src TyStr v = Ok w -> exists s, w = VStr s) ->
  ou_igd o' = ou_igd o -> ou_igm o' = ou_igm o -> ou_tags o' = ou_tags o -> tame_form d t -> nth_error h id = Some (t, l) ->
  let x := ev_map W fuel o src root id tags false UCapture Collect h in
  let y := ev_map W fuel o' src root id tags false UCapture Collect (snd x) in
  match fst x, fst y with
  | Ok es, Ok es' => map said es' = map said es
  | Exn e, Exn e' => e' = e
  | _, _ => False
  end /\ snd y = snd x /\ exists l2, nth_error (snd x) id = Some (t, l2).
Proof.
  intros RG STR A B C D H. cbv zeta. unfold ev_map. rewrite C. set (tags' := match tags with [] => ou_tags o | _ => tags end).
  destruct (capture_form_alike W root Loc src RG STR d fuel o o' id tags' t A B D) as (F & FA & FI & _).
  unfold eret. destruct (FA h l H) as [F1 _]. rewrite F1.
  set (h2 := replace_nth id (t, snd (F l)) h).
  assert (H2 : nth_error h2 id = Some (t, snd (F l))) by (eapply replace_hit; eauto).
  destruct (FA h2 (snd (F l)) H2) as [_ F2]. rewrite FI, (replace_id _ _ _ H2) in F2.
  destruct (fst (fst (F l))) as [[]|e]; cbn [fst snd]; fold h2.
  - unfold heap in *. rewrite F2. cbn [fst snd]. split; [|split; [reflexivity|eauto]]. now rewrite !said_put.
  - unfold heap in *. rewrite F2. cbn [fst snd]. eauto.
Qed.
Lemma form_capture_again W src root Loc d fuel id t l tags s :
  psource_root src = Ok root -> regime (w_env W) src root Loc ->
  (forall v w, psource_parse (w_env W) src TyStr v = Ok w -> exists s, w = VStr s) ->
  nth_error (forms s) id = Some (t, l) -> tame_form d t -> mapping_context s ->
  let x := Form_map W fuel id (ASrc (SBase (BPlain src))) tags false UCapture Collect s in
  let y := Form_map W fuel id (ASrc (SBase (BPlain src))) tags false UCapture Collect (snd x) in
  match fst x, fst y with
  | Ok es, Ok es' => map said es' = map said es
  | Exn e, Exn e' => e' = e
  | _, _ => False
  end /\ forms (snd y) = forms (snd x).
Proof.
  intros HR RG STR T D (C1 & C2 & C3). cbv zeta.
  destruct (map_refines W fuel src root Loc id t l tags false UCapture Collect s HR RG T (tame_form_direct _ _ D) du_capture C1 C2 C3) as (A1 & A2 & A3 & _).
  set (x := Form_map W fuel id (ASrc (SBase (BPlain src))) tags false UCapture Collect s) in *.
  assert (OO : outer_of (snd x) = Outer (length (paths (snd x))) (ou_igd (outer_of s)) (ou_igm (outer_of s)) (ou_tags (outer_of s)) (ou_form (outer_of s)) (ou_field (outer_of s))).
  { unfold outer_of. now rewrite A3. }
  destruct (map_capture_again W root Loc src d fuel (outer_of s) (outer_of (snd x)) id t l tags (forms s)) as (M1 & M2 & l2 & M3); auto; try (now rewrite OO).
  rewrite <- A2 in M1, M2, M3.
  rewrite <- A3 in C1, C2, C3.
  destruct (map_refines W fuel src root Loc id t l2 tags false UCapture Collect (snd x) HR RG M3 (tame_form_direct _ _ D) du_capture C1 C2 C3) as (B1 & B2 & _).
  rewrite B1, B2, A1. auto.
Qed.
Lemma C47_json_lem W fuel d doc strict loc id t l tags reset u s :
  json_val doc = true -> nth_error (forms s) id = Some (t, l) -> tame_form d t ->
  (u = UIgnore \/ u = UCapture /\ reset = false) -> mapping_context s ->
  let again := Form_map W fuel id (ASrc (SBase (BPlain (SJson doc strict loc)))) tags reset u Collect in
  let x := again s in
  let y := again (snd x) in
  same_report (fst x) (fst y) /\ forms (snd y) = forms (snd x).
Proof.
  intros J T D U C. destruct U as [->|[-> ->]].
  - exact (form_map_again W (SJson doc strict loc) doc _ d fuel id t l tags reset UIgnore s eq_refl (json_regime _ _ _ _ J) (json_strings _ _ _ _) T D I C).
  - exact (form_capture_again W (SJson doc strict loc) doc _ d fuel id t l tags s eq_refl (json_regime _ _ _ _ J) (json_strings _ _ _ _) T D C).
Qed.
Lemma C47_native_lem W fuel P d doc loc id t l tags reset u s :
  plain_native (w_env W) P -> P doc -> nth_error (forms s) id = Some (t, l) -> tame_form d t ->
  (u = UIgnore \/ u = UCapture /\ reset = false) -> mapping_context s ->
  let again := Form_map W fuel id (ASrc (SBase (BPlain (SDefault doc [] [] loc)))) tags reset u Collect in
  let x := again s in
  let y := again (snd x) in
  same_report (fst x) (fst y) /\ forms (snd y) = forms (snd x).
Proof.
  intros PN Pd T D U C. destruct U as [->|[-> ->]].
  - exact (form_map_again W (SDefault doc [] [] loc) doc _ d fuel id t l tags reset UIgnore s eq_refl (native_regime _ _ _ _ PN Pd) (native_strings _ _ _ _ _) T D I C).
  - exact (form_capture_again W (SDefault doc [] [] loc) doc _ d fuel id t l tags s eq_refl (native_regime _ _ _ _ PN Pd) (native_strings _ _ _ _ _) T D C).
Qed.
Lemma C47_config_lem W fuel cfg sec dd d loc id t l tags reset u s :
  config_given cfg sec dd -> nth_error (forms s) id = Some (t, l) -> tame_form d t ->
  (u = UIgnore \/ u = UCapture /\ reset = false) -> mapping_context s ->
  let again := Form_map W fuel id (ASrc (SBase (BPlain (SConfig cfg sec dd loc)))) tags reset u Collect in
  let x := again s in
  let y := again (snd x) in
  same_report (fst x) (fst y) /\ forms (snd y) = forms (snd x).
Proof.
  intros G T D U C. destruct (config_begins cfg sec dd loc G) as [R L]. destruct U as [->|[-> ->]].
  - exact (form_map_again W (SConfig cfg sec dd loc) _ _ d fuel id t l tags reset UIgnore s R (config_regime _ _ _ _ _ _ L) (config_strings _ _ _ _ _) T D I C).
  - exact (form_capture_again W (SConfig cfg sec dd loc) _ _ d fuel id t l tags s R (config_regime _ _ _ _ _ _ L) (config_strings _ _ _ _ _) T D C).
Qed.

(** Where errors are raised *)
Lemma C47_json_raise_lem W fuel d doc strict loc id t l tags reset s :
  json_val doc = true -> nth_error (forms s) id = Some (t, l) -> tame_form d t -> mapping_context s ->
  let again := Form_map W fuel id (ASrc (SBase (BPlain (SJson doc strict loc)))) tags reset UIgnore Raise in
  let x := again s in
  let y := again (snd x) in
  same_raised (fst x) (fst y) /\ forms (snd y) = forms (snd x).
Proof.
  intros J T D C. exact (form_map_again_r W (SJson doc strict loc) doc _ d fuel id t l tags reset UIgnore s eq_refl (json_regime _ _ _ _ J) (json_strings _ _ _ _) T D I C).
Qed.
Lemma C47_native_raise_lem W fuel P d doc loc id t l tags reset s :
  plain_native (w_env W) P -> P doc -> nth_error (forms s) id = Some (t, l) -> tame_form d t -> mapping_context s ->
  let again := Form_map W fuel id (ASrc (SBase (BPlain (SDefault doc [] [] loc)))) tags reset UIgnore Raise in
  let x := again s in
  let y := again (snd x) in
  same_raised (fst x) (fst y) /\ forms (snd y) = forms (snd x).
Proof.
  intros PN Pd T D C. exact (form_map_again_r W (SDefault doc [] [] loc) doc _ d fuel id t l tags reset UIgnore s eq_refl (native_regime _ _ _ _ PN Pd) (native_strings _ _ _ _ _) T D I C).
Qed.
Lemma C47_config_raise_lem W fuel cfg sec dd d loc id t l tags reset s :
  config_given cfg sec dd -> nth_error (forms s) id = Some (t, l) -> tame_form d t -> mapping_context s ->
  let again := Form_map W fuel id (ASrc (SBase (BPlain (SConfig cfg sec dd loc)))) tags reset UIgnore Raise in
  let x := again s in
  let y := again (snd x) in
  same_raised (fst x) (fst y) /\ forms (snd y) = forms (snd x).
Proof.
  intros G T D C. destruct (config_begins cfg sec dd loc G) as [R L].
  exact (form_map_again_r W (SConfig cfg sec dd loc) _ _ d fuel id t l tags reset UIgnore s R (config_regime _ _ _ _ _ _ L) (config_strings _ _ _ _ _) T D I C).
Qed.
