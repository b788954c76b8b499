(** * CaptureProofs: unmapped keys (C45). *)
From Verif Require Import PyBase PyStr Source Field Context Fields SpecSrc SrcPath SrcProofs Shape Balance Eval Refine Regime CfgRegime SpecForm SpecJson CrashProofs ModeProofs FormProofs BoxProofs ReadProofs SpecMount MountProofs.
From Coq Require Import Lia.

Section Capture.
Variable W : world.
Let E := w_env W.
Variables (r : rd) (loc : option string) (at_ : val -> val).
Hypothesis MODE : r_mode r = Collect.
Hypothesis KEYS : r_keys r = [].
Hypothesis AUTO : forall v, psource_parse E (r_src r) TyAuto v = Ok v.

Lemma append_nil s : (s ++ "")%string = s.
Proof. induction s as [|c s IH]; [reflexivity|]. cbn. now rewrite IH. Qed.
Definition lost_at (k : val) : list err := match k with VStr s => if r_igm r then [] else [lost loc (r_pid r) s] | _ => [] end.
(** A key that can be looked up; if nothing is found there, it is a string. *)
Definition usable (k : val) : Prop :=
  ((exists s, k = VStr s) \/ (exists z, k = VInt z)) /\ r_child W r (key_of_val k) = Ok (at_ k) /\
  (is_NONE (at_ k) = true /\ ((exists s, k = VStr s) /\ psource_prefix (r_src r) = opt_str loc) \/ ignored (at_ k) = false).
Lemma compute_auto rec r0 w f s : r_val r0 = Ok w -> r_src r0 = r_src r -> f = plain_field ->
  ev_compute W rec r0 f s = (Ok (if is_NONE w then NONEv else w), s).
Proof.
  intros V S ->. unfold ev_compute. rewrite (ebind_ok (ev_exists r0) _ s (negb (is_NONE w)) s) by (unfold ev_exists, on_val, elift; now rewrite V).
  rewrite negb_involutive. destruct (is_NONE w) eqn:N; [reflexivity|].
  rewrite (ebind_ok (ev_null r0) _ s (is_None w) s) by (unfold ev_null, on_val, elift; now rewrite V). destruct (is_None w) eqn:N2; [now destruct w|].
  cbn [plain_field f_opts no_opts o_parse f_kind ev_parse]. unfold ecatch, ev_primitive, on_val, elift. rewrite V, S. unfold E in AUTO. now rewrite AUTO.
Qed.
Lemma after_plain r0 f w s : f = plain_field \/ f = plain_string -> ignored w = false -> ev_after W r0 f w s = (Ok w, s).
Proof.
  intros F G. assert (N : is_NONE w = false) by (destruct w; try reflexivity; destruct c; try reflexivity; discriminate).
  unfold ev_after. assert (T : ev_translate f w s = (Ok w, s)) by (destruct F as [-> | ->]; reflexivity). rewrite (ebind_ok _ _ _ _ _ T). rewrite G.
  assert (HO : forall (o : option (hook prog)) A (d : A) g, o = None -> ev_hook_or W r0 o [w] d g s = (Ok d, s)) by (intros o A d g ->; reflexivity).
  rewrite (ebind_ok _ _ _ _ _ (HO (o_munge (f_opts f)) val w (fun w => w) ltac:(destruct F as [-> | ->]; reflexivity))). rewrite N, G.
  assert (FF : field_filter f w = true) by (destruct F as [-> | ->]; reflexivity). rewrite FF. cbn [negb].
  rewrite (ebind_ok _ _ _ _ _ (HO (o_filter (f_opts f)) bool true truthy ltac:(destruct F as [-> | ->]; reflexivity))). cbn [negb].
  assert (VA : ev_validate W r0 f w s = (Ok true, s)).
  { unfold ev_validate. assert (V : field_violation (w_env W) (hents (snd s)) f w = Ok None) by (destruct F as [-> | ->]; destruct w; reflexivity). now rewrite V. }
  rewrite (ebind_ok _ _ _ _ _ VA). cbn [negb].
  rewrite (ebind_ok _ _ _ _ _ (HO (o_validate (f_opts f)) bool true truthy ltac:(destruct F as [-> | ->]; reflexivity))). reflexivity.
Qed.
Lemma field_open n r0 f v s : o_resolve (f_opts f) = None -> o_src (f_opts f) = None -> o_attach_parent (f_opts f) = false ->
  ev_field W (S n) r0 f v s = ev_body W (ev_field W n) (r_for r0 f) f v s.
Proof.
  intros A B C. cbn [ev_field]. unfold ev_field_body, ev_where. rewrite A, B, C.
  assert (K : (if is_NONE v then eret (match f_kind f with KGroup _ => None | _ => None end) else eret None) s = (Ok (@None key), s)) by (destruct (is_NONE v); [destruct (f_kind f)|]; reflexivity).
  rewrite (ebind_ok _ _ _ _ _ K). unfold ebind at 1. cbn [andb]. destruct (ev_body _ _ _ _ _ s) as [[w|e] s1]; reflexivity.
Qed.
Lemma cap_value n k es h : usable k ->
  ev_field W (S n) (r_at W r (key_of_val k)) plain_field NONEv (es, h) =
    if is_NONE (at_ k) then (Ok NOTSETv, (es ++ lost_at k, h)) else (Ok (at_ k), (es, h)).
Proof.
  intros (KK & C & I0). rewrite field_open by reflexivity. set (r0 := r_for (r_at W r (key_of_val k)) plain_field).
  unfold ev_body. change (is_NONE NONEv) with true. cbv iota. change (o_compute (f_opts plain_field)) with (@None (hook prog)). cbv iota.
  rewrite (ebind_ok _ _ _ _ _ (compute_auto (ev_field W n) r0 (at_ k) plain_field (es, h) C eq_refl eq_refl)).
  destruct (is_NONE (at_ k)) eqn:N.
  - change (is_NONE NONEv) with true. cbv iota. change (o_default (f_opts plain_field)) with (@DUnset prog None). cbv iota.
    assert (D : ev_default W r0 plain_field (es, h) = ev_missing W r0 (es, h)) by (unfold ev_default; destruct (r_igd r0); reflexivity). rewrite D.
    destruct I0 as [[_ [(k' & ->) PREFIX]]|I0]; [|exfalso; clear -N I0; destruct (at_ k); try discriminate; match goal with c : const |- _ => destruct c end; discriminate]. clear KK.
    unfold ev_missing, lost_at. change (r_igm r0) with (r_igm r). destruct (r_igm r); [unfold ebind, eret; now rewrite app_nil_r|].
    unfold ebind, ev_report, eret. change (r_field r0) with (Ok (f_name plain_field)). change (r_keys r0) with (r_keys r ++ [KStr k']). change (r_src r0) with (r_src r).
    change (r_pid r0) with (r_pid r). change (r_mode r0) with (r_mode r). rewrite MODE, KEYS. unfold pkeys_str. cbn [app keys_str rest_str first_str]. rewrite PREFIX, append_nil. reflexivity.
  - rewrite N. destruct I0 as [[I0 _]|I0]; [discriminate|]. rewrite I0. apply after_plain; auto.
Qed.
Lemma cap_key n k s : usable k -> ev_field W (S n) r plain_string k s = (Ok k, s).
Proof.
  intros (KK & _). rewrite field_open by reflexivity. unfold ev_body.
  destruct KK as [(x & ->)|(x & ->)]; cbn [is_NONE]; apply after_plain; auto.
Qed.
Lemma cap_accept id k s : usable k -> ev_accept W r (Some (not_in_form id)) k s = (Ok (negb (dict_has (hents (snd s) id) k)), s).
Proof.
  intros (KK & _). assert (HK : hashable k = true) by (destruct KK as [(x & ->)|(x & ->)]; reflexivity). clear KK.
  unfold ev_accept, ev_hook_or, ev_hook. cbn [hk_attached not_in_form hk_fun ev_prog].
  unfold ebind at 1. unfold ebind at 1. unfold eret at 1. unfold ecatch, ev_item. rewrite HK. unfold ebind, ev_entries. cbn [snd].
  pose proof (dict_has_get (hents (snd s) id) k) as H.
  destruct (dict_get (hents (snd s) id) k) as [v|] eqn:G; destruct (dict_has (hents (snd s) id) k) eqn:D; try reflexivity.
  - assert (false = true) by (apply H; eauto). discriminate.
  - destruct (proj1 H eq_refl) as (v & V). discriminate.
Qed.
(** What the loop over the keys collects and reports *)
Fixpoint caps (l : list (val * val)) (ks : list val) (acc : list (val * val)) : list (val * val) :=
  match ks with
  | [] => acc
  | k :: rest => caps l rest (if dict_has l k then acc else if is_NONE (at_ k) then acc else dict_set acc k (at_ k))
  end.
Definition cap_errs (l : list (val * val)) (ks : list val) : list err :=
  flat_map (fun k => if dict_has l k then [] else if is_NONE (at_ k) then lost_at k else []) ks.
Lemma cap_loop n id h : forall ks es acc, Forall usable ks ->
  ev_dict W (ev_field W (S n)) r (Some (not_in_form id)) plain_string plain_field ks acc (es, h) =
    (Ok (caps (hents h id) ks acc), (es ++ cap_errs (hents h id) ks, h)).
Proof.
  induction ks as [|k ks IH]; intros es acc F; cbn [ev_dict caps cap_errs flat_map]; [now rewrite app_nil_r|].
  inversion F as [|k0 ks0 US F']; subst. rewrite (ebind_ok _ _ _ _ _ (cap_accept id k (es, h) US)). cbn [snd]. rewrite negb_involutive.
  destruct (dict_has (hents h id) k); [now rewrite IH by exact F'|].
  pose proof (cap_value n k es h US) as V. pose proof US as (KK & _ & I0).
  destruct (is_NONE (at_ k)) eqn:N.
  - rewrite (ebind_ok _ _ _ _ _ V). change (ignored NOTSETv) with true. cbv iota. rewrite IH by exact F'. now rewrite <- app_assoc.
  - rewrite (ebind_ok _ _ _ _ _ V). destruct I0 as [[I0 _]|I0]; [discriminate|]. rewrite I0, (ebind_ok _ _ _ _ _ (cap_key n k (es, h) US)).
    assert (X : ignored k = false /\ hashable k = true) by (destruct KK as [(x & ->)|(x & ->)]; now split). destruct X as [-> ->]. now rewrite IH by exact F'.
Qed.
End Capture.
Section Capture2.
Variable W : world.
Let E := w_env W.
Variables (r : rd) (loc : option string) (at_ : val -> val).
Hypothesis MODE : r_mode r = Collect.
Hypothesis KEYS : r_keys r = [].
Hypothesis AUTO : forall v, psource_parse E (r_src r) TyAuto v = Ok v.
Lemma cap_unmapped n id root ks es h : r_val r = Ok root -> is_NONE root = false -> is_None root = false ->
  psource_mapping (w_env W) no_ents (r_src r) 0 root = Ok (Ok ks) -> Forall (usable W r loc at_) ks ->
  ev_unmapped (ev_field W (S (S n))) r id UCapture (es, h) =
    (Ok (Some (VDict (caps at_ (hents h id) ks []))), (es ++ cap_errs r loc at_ (hents h id) ks, h)).
Proof.
  intros V N1 N2 M F. cbn [ev_unmapped]. set (f := unmapped_dict id plain_string plain_field).
  assert (X : ev_field W (S (S n)) r f NONEv (es, h) = (Ok (VDict (caps at_ (hents h id) ks [])), (es ++ cap_errs r loc at_ (hents h id) ks, h))).
  { rewrite field_open by reflexivity. set (r0 := r_for r f). unfold ev_body. change (is_NONE NONEv) with true. cbv iota.
    change (o_compute (f_opts f)) with (@None (hook prog)). cbv iota.
    assert (C : ev_compute W (ev_field W (S n)) r0 f (es, h) = (Ok (VDict (caps at_ (hents h id) ks [])), (es ++ cap_errs r loc at_ (hents h id) ks, h))).
    { unfold ev_compute. rewrite (ebind_ok (ev_exists r0) _ (es, h) true (es, h)) by (unfold ev_exists, on_val, elift; cbn [r0 r_for r_val]; now rewrite V, N1).
      cbn [negb]. rewrite (ebind_ok (ev_null r0) _ (es, h) false (es, h)) by (unfold ev_null, on_val, elift; cbn [r0 r_for r_val]; now rewrite V, N2).
      change (o_parse (f_opts f)) with (@None (hook prog)). cbv iota. unfold ecatch.
      change (f_kind f) with (KDict plain_string plain_field (Some (not_in_form id)) [] None). cbn [ev_parse].
      rewrite (ebind_ok (ev_mapping W r0) _ (es, h) (Ok ks) (es, h)).
      2:{ unfold ev_mapping, on_val, elift. cbn [r0 r_for r_val r_src r_keys]. rewrite V, KEYS. cbn [length]. now rewrite M. }
      rewrite (ebind_ok (elift (Ok ks)) _ (es, h) ks (es, h) eq_refl).
      rewrite (ebind_ok _ _ _ _ _ (cap_loop W r0 loc at_ MODE KEYS AUTO n id h ks es [] F)). reflexivity. }
    rewrite (ebind_ok _ _ _ _ _ C). change (is_NONE (VDict ?x)) with false. change (ignored (VDict ?x)) with false. cbv iota.
    reflexivity. }
  rewrite (ebind_ok _ _ _ _ _ X). reflexivity.
Qed.
End Capture2.

(** The fields first, then the unmapped keys *)
Definition rest_of W fuel r id u : Ev unit :=
  o' <~ ev_unmapped (ev_field W fuel) r id u;
  match o' with None => eret tt | Some VNone => eret tt | Some (VDict d) => l <~ ev_entries id; ev_set_entries id (dict_update l d) | Some _ => eraise (EType "not iterable") end.
Lemma ebind_assoc {A B C} (x : Ev A) (k : A -> Ev B) (j : B -> Ev C) : eqv (ebind (ebind x k) j) (ebind x (fun a => ebind (k a) j)).
Proof. intros s. unfold ebind. destruct (x s) as [[a|e] s1]; reflexivity. Qed.
Lemma form_map_assoc W fuel r id tags u s : ev_form_map W (ev_field W fuel) r id tags u s =
  ebind (ev_mapping W r;;; t <~ ev_type id; ev_fields (ev_field W fuel) (r_inform r id) id tags (ft_fields t)) (fun _ => rest_of W fuel r id u) s.
Proof.
  revert s. change (eqv (ev_form_map W (ev_field W fuel) r id tags u) (ebind (ev_mapping W r;;; t <~ ev_type id; ev_fields (ev_field W fuel) (r_inform r id) id tags (ft_fields t)) (fun _ => rest_of W fuel r id u))).
  eapply eqv_trans; [|apply eqv_sym, ebind_assoc]. apply eqv_bind; [apply eqv_refl|]. intros _. apply eqv_sym, ebind_assoc.
Qed.
Lemma map_then W fuel o src root id tags rs u h es h2 :
  ev_map W fuel o src root id tags rs UIgnore Collect h = (Ok es, h2) ->
  ev_map W fuel o src root id tags rs u Collect h =
    match rest_of W fuel (r_start o src Collect root) id u (es, h2) with
    | (Exn e, (_, h3)) => (Exn e, h3)
    | (Ok _, (es', h3)) => (Ok es', h3)
    end.
Proof.
  unfold ev_map. set (tags' := match tags with [] => ou_tags o | _ => tags end). set (t := match nth_error h id with Some (t, _) => t | None => FormTy "" [] end).
  destruct ((if rs then ev_reset id tags' (ft_fields t) else eret tt) ([], h)) as [x0 [es0 h1]]. rewrite !form_map_assoc.
  set (P := (ev_mapping W (r_start o src Collect root);;; _)). unfold ebind. unfold heap. destruct (P (@pair (list err) (list (formty * list (val * val))) [] h1)) as [[[]|e] [es3 h3]]; [|discriminate].
  change (rest_of W fuel (r_start o src Collect root) id UIgnore (es3, h3)) with (@Ok unit tt, (es3, h3)). intros [= -> ->]. reflexivity.
Qed.

(** *** Entries afterwards *)
Lemma eq_str_is a x : py_eq x (VStr a) = true <-> x = VStr a.
Proof. split; [apply py_eq_str|intros ->; cbn; apply String.eqb_refl]. Qed.
Lemma get_set_str l k v a : dict_get (dict_set l k v) (VStr a) = if py_eq k (VStr a) then Some v else dict_get l (VStr a).
Proof.
  destruct (py_eq k (VStr a)) eqn:Q.
  - apply py_eq_str in Q. subst k. rewrite dict_get_set. cbn. now rewrite String.eqb_refl.
  - unfold dict_get. induction l as [|[x y] l IH]; cbn [dict_set find fst]; [now rewrite Q|].
    destruct (py_eq x k) eqn:X; cbn [find fst].
    + destruct (py_eq x (VStr a)) eqn:Y; [|reflexivity]. apply py_eq_str in Y. subst x. apply str_py_eq in X. subst k. cbn in Q. now rewrite String.eqb_refl in Q.
    + destruct (py_eq x (VStr a)); [reflexivity|exact IH].
Qed.
Lemma caps_get at_ l k : forall ks acc, dict_get (caps at_ l ks acc) (VStr k) =
  if existsb (fun x => py_eq x (VStr k)) ks && negb (dict_has l (VStr k)) && negb (is_NONE (at_ (VStr k))) then Some (at_ (VStr k)) else dict_get acc (VStr k).
Proof.
  induction ks as [|a ks IH]; intros acc; cbn [caps existsb]; [reflexivity|].
  rewrite IH. destruct (py_eq a (VStr k)) eqn:Q.
  - apply py_eq_str in Q. subst a. cbn [orb andb]. destruct (dict_has l (VStr k)); cbn [negb andb]; [now rewrite andb_false_r|].
    destruct (is_NONE (at_ (VStr k))); cbn [negb andb]; [now rewrite !andb_false_r|].
    destruct (existsb _ ks); cbn [andb]; [reflexivity|]. rewrite get_set_str. cbn [py_eq]. now rewrite String.eqb_refl.
  - cbn [orb]. destruct (existsb _ ks && _ && _); [reflexivity|]. destruct (dict_has l a); [reflexivity|]. destruct (is_NONE (at_ a)); [reflexivity|].
    rewrite get_set_str. now rewrite Q.
Qed.
(** Under a string key, the value found there *)
Definition true_to (at_ : val -> val) (d : list (val * val)) : Prop := forall a v, In (VStr a, v) d -> v = at_ (VStr a).
Lemma set_true at_ d k : true_to at_ d -> true_to at_ (dict_set d k (at_ k)).
Proof.
  intros T. induction d as [|[x y] d IH]; cbn [dict_set].
  - intros a v [[= -> <-]|[]]. reflexivity.
  - destruct (py_eq x k) eqn:Q.
    + intros a v [[= -> <-]|I0]; [|apply T; now right]. apply str_py_eq in Q. now subst k.
    + intros a v [[= -> ->]|I0]; [apply T; now left|]. apply IH; auto. intros b w H. apply T. now right.
Qed.
Lemma caps_true at_ l : forall ks acc, true_to at_ acc -> true_to at_ (caps at_ l ks acc).
Proof.
  induction ks as [|a ks IH]; intros acc F; cbn [caps]; [exact F|]. apply IH. destruct (dict_has l a); [exact F|]. destruct (is_NONE (at_ a)); [exact F|]. now apply set_true.
Qed.
Lemma update_get at_ d : true_to at_ d -> forall l k, dict_get (dict_update l d) (VStr k) = match dict_get d (VStr k) with Some v => Some v | None => dict_get l (VStr k) end.
Proof.
  unfold dict_update. induction d as [|[x y] d IH]; intros T l k; cbn [fold_left]; [reflexivity|].
  rewrite IH by (intros a v I0; apply T; now right). cbn [fst snd]. rewrite get_set_str. unfold dict_get at 3. cbn [find fst]. destruct (py_eq x (VStr k)) eqn:Q; [|reflexivity].
  cbn [option_map snd]. apply py_eq_str in Q. subst x. destruct (dict_get d (VStr k)) as [v|] eqn:G; [|reflexivity].
  rewrite (T k y (or_introl eq_refl)). unfold dict_get in G. destruct (find _ d) as [[a b]|] eqn:FD; [|discriminate]. injection G as <-. apply find_some in FD. destruct FD as [I0 Q]. cbn [fst] in Q. apply py_eq_str in Q. subst a.
  now rewrite (T k b (or_intror I0)).
Qed.
(** Keys that are strings leave the others alone *)
Lemma set_keys_in d k v x : In x (map fst (dict_set d k v)) -> x = k \/ In x (map fst d).
Proof.
  induction d as [|[a b] d IH]; cbn [dict_set map fst In]; [intros [<-|[]]; auto|]. destruct (py_eq a k); cbn [map fst In]; [tauto|].
  intros [<-|H]; [tauto|]. apply IH in H. tauto.
Qed.
Lemma caps_keys at_ l x : forall ks acc, In x (map fst (caps at_ l ks acc)) -> In x ks \/ In x (map fst acc).
Proof.
  induction ks as [|a ks IH]; intros acc; cbn [caps]; [auto|]. intros H. apply IH in H. destruct H as [H|H]; [left; now right|].
  destruct (dict_has l a); [auto|]. destruct (is_NONE (at_ a)); [auto|]. apply set_keys_in in H. destruct H as [->|H]; [left; now left|auto].
Qed.
Lemma update_other d k : (forall x, In x (map fst d) -> exists a, x = VStr a) -> (forall a, k <> VStr a) -> forall l, dict_get (dict_update l d) k = dict_get l k.
Proof.
  intros S N. unfold dict_update. induction d as [|[x y] d IH]; intros l; cbn [fold_left]; [reflexivity|].
  rewrite IH by (intros z H; apply S; now right). cbn [fst snd]. destruct (S x (or_introl eq_refl)) as (a & ->). rewrite dict_get_set.
  destruct (py_eq (VStr a) k) eqn:Q; [|reflexivity]. apply str_py_eq in Q. destruct (N a Q).
Qed.

(** ** Forms keep their class *)
(** A context with the same variables and well-nested blocks *)
Definition seen (s : st) : frame :=
  flat_map (fun n => match lookup n (stk s) with Some c => [(n, c)] | None => [] end) ["src"; "ignore_default"; "ignore_missing"; "tags"; "form"; "field"].
Definition tidy_state (s : st) : st :=
  St [("src_path", CNone) :: seen s] (forms s) (repeat (PMount None (Source.PPath (SJson VNone false None) VNone []) []) (length (paths s))) [].
Lemma seen_get n s : In n ["src"; "ignore_default"; "ignore_missing"; "tags"; "form"; "field"] -> alookup (seen s) n = lookup n (stk s).
Proof.
  intros H. unfold seen. cbn [flat_map].
  destruct H as [<-|[<-|[<-|[<-|[<-|[<-|[]]]]]]];
    repeat match goal with |- context [match lookup ?n (stk s) with Some _ => _ | None => _ end] => destruct (lookup n (stk s)) end; reflexivity.
Qed.
Lemma types_kept W fuel src root Loc id t l tags rs u m s :
  psource_root src = Ok root -> regime (w_env W) src root Loc -> nth_error (forms s) id = Some (t, l) -> direct_form t -> direct_unm u -> mapping_context s ->
  forall i ti li, nth_error (forms s) i = Some (ti, li) ->
  exists l', nth_error (forms (snd (Form_map W fuel id (ASrc (SBase (BPlain (src)))) tags rs u m s))) i = Some (ti, l').
Proof.
  intros HR RG T D Du C i ti li I.
  assert (LK : forall n, In n ["src"; "ignore_default"; "ignore_missing"; "tags"; "form"; "field"] -> lookup n (stk (tidy_state s)) = lookup n (stk s)).
  { intros n H. cbn [tidy_state stk lookup]. assert (X : alookup (("src_path", CNone) :: seen s) n = alookup (seen s) n).
    { cbn [alookup]. destruct (String.eqb_spec "src_path" n) as [<-|_]; [|reflexivity]. exfalso. cbn in H. intuition discriminate. }
    rewrite X, seen_get by exact H. now destruct (lookup n (stk s)). }
  assert (OU : outer_of (tidy_state s) = outer_of s).
  { unfold outer_of. rewrite !LK by (cbn; tauto). cbn [tidy_state paths]. now rewrite repeat_length. }
  assert (WF : wf (tidy_state s)).
  { split.
    - cbn [tidy_state stk wfs]. cbn [alookup String.eqb]. split; auto.
    - unfold shapes. cbn [tidy_state paths]. apply Forall_forall. intros x H. apply in_map_iff in H. destruct H as (p & <- & H). apply repeat_spec in H. subst p. cbn. repeat split; constructor. }
  assert (C' : mapping_context (tidy_state s)) by (destruct C as (C1 & C2 & C3); repeat split; [destruct C1 as (c & Cx)|destruct C2 as (c & Cx)|destruct C3 as (c & Cx)]; exists c; rewrite LK by (cbn; tauto); exact Cx).
  pose proof C as (C1 & C2 & C3). pose proof C' as (C1' & C2' & C3').
  destruct (map_refines W fuel src root Loc id t l tags rs u m s HR RG T D Du C1 C2 C3) as (_ & Q0 & _).
  destruct (map_refines W fuel src root Loc id t l tags rs u m (tidy_state s) HR RG T D Du C1' C2' C3') as (_ & Q1 & _).
  cbv zeta in Q0, Q1. rewrite OU in Q1. change (forms (tidy_state s)) with (forms s) in Q1. rewrite <- Q0 in Q1. rewrite <- Q1.
  pose proof (good_Form_map W fuel id (ASrc (SBase (BPlain (src)))) tags rs u m _ WF) as G. unfold goodat in G.
  exact (stable_forms _ _ G i ti li I).
Qed.

(** ** Any source *)
Lemma hents_entries s id : hents (forms s) id = entries_at s id.
Proof. reflexivity. Qed.
Lemma capture_gen W fuel src root Loc loc at_ ks id t l tags rs s es s0 :
  psource_root src = Ok root -> regime (w_env W) src root Loc ->
  (forall v, psource_parse (w_env W) src TyAuto v = Ok v) ->
  is_None root = false -> psource_mapping (w_env W) no_ents src 0 root = Ok (Ok ks) ->
  Forall (usable W (r_start (outer_of s) src Collect root) loc at_) ks ->
  nth_error (forms s) id = Some (t, l) -> direct_form t -> mapping_context s ->
  Form_map W (S (S fuel)) id (ASrc (SBase (BPlain src))) tags rs UIgnore Collect s = (Ok es, s0) ->
  exists s1,
    Form_map W (S (S fuel)) id (ASrc (SBase (BPlain src))) tags rs UCapture Collect s =
      (Ok (es ++ cap_errs (r_start (outer_of s) src Collect root) loc at_ (entries_at s0 id) ks), s1) /\
    (forall k, dict_get (entries_at s1 id) (VStr k) =
       match dict_get (entries_at s0 id) (VStr k) with
       | Some v => Some v
       | None => if existsb (fun x => py_eq x (VStr k)) ks && negb (is_NONE (at_ (VStr k))) then Some (at_ (VStr k)) else None
       end) /\
    ((forall k, In k ks -> exists a, k = VStr a) -> forall k, (forall a, k <> VStr a) -> dict_get (entries_at s1 id) k = dict_get (entries_at s0 id) k) /\
    (forall i, i <> id -> nth_error (forms s1) i = nth_error (forms s0) i).
Proof.
  intros HR RG AU NN MP US T D C X. pose proof C as (C1 & C2 & C3).
  destruct (map_refines W (S (S fuel)) src root Loc id t l tags rs UIgnore Collect s HR RG T D ltac:(constructor) C1 C2 C3) as (P0 & Q0 & _).
  destruct (map_refines W (S (S fuel)) src root Loc id t l tags rs UCapture Collect s HR RG T D ltac:(constructor) C1 C2 C3) as (P1 & Q1 & _).
  cbv zeta in P0, Q0, P1, Q1. rewrite X in P0, Q0. cbn [fst snd] in P0, Q0.
  assert (Z0 : ev_map W (S (S fuel)) (outer_of s) src root id tags rs UIgnore Collect (forms s) = (Ok es, forms s0)) by (rewrite P0, Q0; now destruct (ev_map _ _ _ _ _ _ _ _ _ _ _)).
  rewrite (map_then W (S (S fuel)) (outer_of s) src root id tags rs UCapture (forms s) es (forms s0) Z0) in P1, Q1. clear P0 Q0.
  set (r := r_start (outer_of s) src Collect root) in *.
  pose proof (cap_unmapped W r loc at_ eq_refl eq_refl AU fuel id root ks es (forms s0) eq_refl (rg_some _ _ _ _ RG _ (rg_root _ _ _ _ RG)) NN MP US) as U.
  unfold rest_of in P1, Q1. rewrite (ebind_ok _ _ _ _ _ U) in P1, Q1. unfold ebind, ev_entries, ev_set_entries in P1, Q1. cbn [fst snd] in P1, Q1.
  destruct (Form_map W (S (S fuel)) id (ASrc (SBase (BPlain src))) tags rs UCapture Collect s) as [x1 s1]. cbn [fst snd] in P1, Q1. exists s1.
  assert (TT : exists l0, nth_error (forms s0) id = Some (t, l0)).
  { pose proof (types_kept W (S (S fuel)) src root Loc id t l tags rs UIgnore Collect s HR RG T D ltac:(constructor) C id t l T) as TT. rewrite X in TT. exact TT. }
  destruct TT as (l0 & TT). rewrite TT in P1, Q1. cbn [fst snd] in P1, Q1. subst x1. rename Q1 into F1. split; [reflexivity|].
  assert (EN : entries_at s1 id = dict_update (entries_at s0 id) (caps at_ (entries_at s0 id) ks [])).
  { unfold entries_at at 1. rewrite F1. rewrite nth_replace_eq by (apply nth_error_Some; congruence). reflexivity. }
  split; [|split].
  - intros k. rewrite EN, (update_get at_), caps_get by (apply caps_true; intros ? ? []). pose proof (dict_has_get (entries_at s0 id) (VStr k)) as H.
    destruct (dict_get (entries_at s0 id) (VStr k)) as [v|].
    + assert (dict_has (entries_at s0 id) (VStr k) = true) as -> by (apply H; eauto). cbn [negb]. rewrite andb_false_r. reflexivity.
    + assert (dict_has (entries_at s0 id) (VStr k) = false) as ->. { destruct (dict_has _ _); [|reflexivity]. destruct (proj1 H eq_refl) as (v & V). discriminate. }
      cbn [negb]. rewrite andb_true_r. destruct (existsb _ _ && _); reflexivity.
  - intros SK k NS. rewrite EN. apply update_other; [|exact NS]. intros x I0. apply caps_keys in I0. destruct I0 as [I0|[]]. now apply SK.
  - intros i NI. rewrite F1. apply nth_replace_neq. auto.
Qed.
Lemma bad_gen W fuel src root Loc id t l tags rs word s es s0 :
  psource_root src = Ok root -> regime (w_env W) src root Loc ->
  nth_error (forms s) id = Some (t, l) -> direct_form t -> mapping_context s ->
  Form_map W fuel id (ASrc (SBase (BPlain src))) tags rs UIgnore Collect s = (Ok es, s0) ->
  exists msg s1, Form_map W fuel id (ASrc (SBase (BPlain src))) tags rs (UBad word) Collect s = (Exn (EValue msg), s1) /\
    forms s1 = forms s0.
Proof.
  intros HR RG T D C X. pose proof C as (C1 & C2 & C3).
  destruct (map_refines W fuel src root Loc id t l tags rs UIgnore Collect s HR RG T D ltac:(constructor) C1 C2 C3) as (P0 & Q0 & _).
  destruct (map_refines W fuel src root Loc id t l tags rs (UBad word) Collect s HR RG T D ltac:(constructor) C1 C2 C3) as (P1 & Q1 & _).
  cbv zeta in P0, Q0, P1, Q1. rewrite X in P0, Q0. cbn [fst snd] in P0, Q0.
  assert (Z0 : ev_map W fuel (outer_of s) src root id tags rs UIgnore Collect (forms s) = (Ok es, forms s0)) by (rewrite P0, Q0; now destruct (ev_map _ _ _ _ _ _ _ _ _ _ _)).
  rewrite (map_then W fuel (outer_of s) src root id tags rs (UBad word) (forms s) es (forms s0) Z0) in P1, Q1.
  unfold rest_of, ebind in P1, Q1. cbn [ev_unmapped eraise] in P1, Q1.
  destruct (Form_map W fuel id (ASrc (SBase (BPlain src))) tags rs (UBad word) Collect s) as [x1 s1]. cbn [fst snd] in P1, Q1. subst x1. eauto.
Qed.
(** The source given: plain data *)
Lemma C45_bad_lem W fuel a id t l tags rs word s es s0 :
  plain_data W a -> nth_error (forms s) id = Some (t, l) -> direct_form t -> mapping_context s ->
  Form_map W fuel id a tags rs UIgnore Collect s = (Ok es, s0) ->
  exists msg s1, Form_map W fuel id a tags rs (UBad word) Collect s = (Exn (EValue msg), s1) /\ forms s1 = forms s0.
Proof.
  intros [d strict loc J|P d loc PN Pd|cfg sec d loc G|P items PN Pd].
  - exact (bad_gen W fuel (SJson d strict loc) d _ id t l tags rs word s es s0 eq_refl (json_regime _ _ _ _ J)).
  - exact (bad_gen W fuel (SDefault d [] [] loc) d _ id t l tags rs word s es s0 eq_refl (native_regime _ _ _ _ PN Pd)).
  - destruct (config_begins cfg sec d loc G) as [R L]. exact (bad_gen W fuel (SConfig cfg sec d loc) _ _ id t l tags rs word s es s0 R (config_regime _ _ _ _ _ _ L)).
  - exact (bad_gen W fuel (SDefault (VDict items) [] [] None) (VDict items) _ id t l tags rs word s es s0 eq_refl (native_regime _ _ _ _ PN Pd)).
Qed.

(** ** JSON *)
Lemma str_keys_json items : json_val (VDict items) = true -> map fst items = map VStr (str_keys items).
Proof.
  cbn. induction items as [|[k v] items IH]; cbn; [reflexivity|]. destruct k; try discriminate. intros H. apply andb_prop in H. cbn. f_equal. apply IH, H.
Qed.
Lemma ignored_json v : json_val v = true -> ignored v = false.
Proof. destruct v; try reflexivity; discriminate. Qed.
Lemma exists_str k ks : existsb (fun x => py_eq x (VStr k)) (map VStr ks) = existsb (String.eqb k) ks.
Proof. induction ks as [|a ks IH]; [reflexivity|]. cbn [map existsb py_eq]. rewrite IH. f_equal. apply String.eqb_sym. Qed.
Lemma lost_is s src root loc at_ l ks :
  cap_errs (r_start (outer_of s) src Collect root) loc at_ l (map VStr ks) =
  if missing_ignored s then [] else map (lost loc (length (paths s))) (filter (fun k => is_NONE (at_ (VStr k))) (filter (fun k => negb (dict_has l (VStr k))) ks)).
Proof.
  set (r := r_start (outer_of s) src Collect root).
  unfold cap_errs, lost_at. change (r_igm r) with (missing_ignored s). change (r_pid r) with (length (paths s)).
  destruct (missing_ignored s).
  - induction ks as [|k ks IH]; cbn [map flat_map]; [reflexivity|]. rewrite IH. destruct (dict_has _ _); [reflexivity|]. now destruct (is_NONE _).
  - induction ks as [|k ks IH]; cbn [flat_map filter map]; [reflexivity|]. rewrite IH. destruct (dict_has _ _); cbn [negb]; [reflexivity|].
    cbn [filter]. destruct (is_NONE (at_ (VStr k))); reflexivity.
Qed.
Lemma C45_json_lem W fuel items strict loc id t l tags rs s es s0 :
  json_val (VDict items) = true -> nth_error (forms s) id = Some (t, l) -> direct_form t -> mapping_context s ->
  Form_map W (S (S fuel)) id (ASrc (SBase (BPlain (SJson (VDict items) strict loc)))) tags rs UIgnore Collect s = (Ok es, s0) ->
  exists s1,
    Form_map W (S (S fuel)) id (ASrc (SBase (BPlain (SJson (VDict items) strict loc)))) tags rs UCapture Collect s =
      (Ok (es ++ if missing_ignored s then [] else map (lost loc (length (paths s))) (lost_keys items (entries_at s0 id))), s1) /\
    (forall k, dict_get (entries_at s1 id) (VStr k) =
       match dict_get (entries_at s0 id) (VStr k) with
       | Some v => Some v
       | None => if existsb (String.eqb k) (str_keys items) then at_key items k else None
       end) /\
    (forall k, (forall a, k <> VStr a) -> dict_get (entries_at s1 id) k = dict_get (entries_at s0 id) k) /\
    (forall i, i <> id -> nth_error (forms s1) i = nth_error (forms s0) i).
Proof.
  intros J T D C X. set (src := SJson (VDict items) strict loc) in *.
  set (at_ := fun k => match k with VStr k => none_or (at_key items k) | _ => VConst NONE end).
  assert (NN : forall k v, at_key items k = Some v -> is_NONE v = false).
  { intros k v. unfold at_key, json_at. cbn [flat_map]. rewrite app_nil_r. intros A. destruct (json_resolve_steps (w_env W) no_ents (VDict items) (KStr k) J I) as [_ G]. apply json_not_NONE. now apply G. }
  destruct (capture_gen W fuel src (VDict items) _ loc at_ (map VStr (str_keys items)) id t l tags rs s es s0 eq_refl (json_regime _ _ _ _ J) (fun v => eq_refl) eq_refl) as (s1 & M & G1 & G2 & G3); auto.
  - cbn. now rewrite str_keys_json.
  - apply Forall_forall. intros k I0. apply in_map_iff in I0. destruct I0 as (a & <- & _). split; [left; eauto|].
    unfold r_child. cbn [r_start r_val r_src src psource_resolve key_of_val]. destruct (json_resolve_steps (w_env W) no_ents (VDict items) (KStr a) J I) as [R G]. rewrite R.
    unfold at_, at_key, json_at. cbn [flat_map]. rewrite app_nil_r. split; [reflexivity|]. destruct (json_steps (VDict items) (key_steps (KStr a))) as [w|]; [|left; split; [reflexivity|split; [eauto|reflexivity]]]. right. cbn [none_or]. apply ignored_json. now apply G.
  - exists s1. assert (FE : forall ks, filter (fun k => is_NONE (at_ (VStr k))) ks = filter (fun k => match at_key items k with None => true | _ => false end) ks).
    { intros ks. apply filter_ext. intros k. cbn [at_]. destruct (at_key items k) as [v|] eqn:A; [exact (NN k v A)|reflexivity]. }
    rewrite lost_is, FE in M. split; [exact M|]. split; [|split; [|exact G3]].
    + intros k. rewrite G1, exists_str. destruct (dict_get (entries_at s0 id) (VStr k)); [reflexivity|]. destruct (existsb _ _); [|reflexivity]. cbn [andb at_].
      destruct (at_key items k) as [v|] eqn:A; cbn [none_or]; [now rewrite (NN k v A)|reflexivity].
    + apply G2. intros k I0. apply in_map_iff in I0. destruct I0 as (a & <- & _). eauto.
Qed.
(** ** Native data *)
Lemma native_capture W fuel P items loc id t l tags rs s es s0 :
  plain_native (w_env W) P -> P (VDict items) -> nth_error (forms s) id = Some (t, l) -> direct_form t -> mapping_context s ->
  Form_map W (S (S fuel)) id (ASrc (SBase (BPlain (SDefault (VDict items) [] [] loc)))) tags rs UIgnore Collect s = (Ok es, s0) ->
  exists s1,
    Form_map W (S (S fuel)) id (ASrc (SBase (BPlain (SDefault (VDict items) [] [] loc)))) tags rs UCapture Collect s = (Ok es, s1) /\
    (forall k, dict_get (entries_at s1 id) (VStr k) =
       match dict_get (entries_at s0 id) (VStr k) with
       | Some v => Some v
       | None => dict_get items (VStr k)
       end) /\
    (forall i, i <> id -> nth_error (forms s1) i = nth_error (forms s0) i).
Proof.
  intros PN Pd T D C X. set (src := SDefault (VDict items) [] [] loc) in *.
  set (at_ := fun k => none_or (dict_get items k)).
  assert (FOUND : forall k, In k (map fst items) -> exists v, dict_get items k = Some v /\ P v /\ psource_resolve (w_env W) no_ents src [] (VDict items) (key_of_val k) = Ok v).
  { intros k I0. pose proof (pn_keys _ _ PN items k Pd I0) as K. destruct (dict_get_in items k I0 K) as (v & G). exists v. split; [exact G|].
    assert (Pv : P v). { eapply (nd_item _ _ _ (pn_data _ _ PN)); [exact Pd|]. apply item_dict with (k := key_of_val k). destruct K as [[z ->]|[x [-> _]]]; exact G. }
    split; [exact Pv|]. pose proof (P_not_NONE _ _ _ (pn_data _ _ PN) v Pv) as Nv.
    assert (S1 : default_resolve1 (w_env W) no_ents [] [] [] (VDict items) (key_of_val k) = Ok v).
    { unfold default_resolve1. cbn [is_ignored existsb]. unfold as_item. cbn [py_getitem].
      destruct K as [[z ->]|[x [-> _]]]; cbn [key_of_val]; cbn [val_of_key]; rewrite G; cbn [or_NONE]; now rewrite Nv. }
    cbn [psource_resolve src]. destruct K as [[z ->]|[x [-> NC]]]; cbn [key_of_val] in *.
    - exact S1.
    - destruct (String.length x); cbn [default_resolve]; rewrite NC, S1; now rewrite Nv. }
  assert (OK : forall v, P v -> ignored v = false) by (intros v Pv; pose proof (nd_ordinary _ _ _ (pn_data _ _ PN) v Pv) as O; destruct v; try reflexivity; contradiction).
  destruct (capture_gen W fuel src (VDict items) _ loc at_ (map fst items) id t l tags rs s es s0 eq_refl (native_regime _ _ _ _ PN Pd) (fun v => eq_refl) eq_refl eq_refl) as (s1 & M & G1 & _ & G3); auto.
  - apply Forall_forall. intros k I0. destruct (FOUND k I0) as (v & G & Pv & R). split.
    + destruct (pn_keys _ _ PN items k Pd I0) as [[z ->]|[x [-> _]]]; eauto.
    + unfold at_. rewrite G. cbn [none_or]. split; [exact R|]. right. now apply OK.
  - exists s1. split; [|split; [|exact G3]].
    + rewrite M. f_equal. f_equal. rewrite <- (app_nil_r es) at 2. f_equal. unfold cap_errs.
      assert (Z : forall ks, (forall k, In k ks -> In k (map fst items)) -> flat_map (fun k => if dict_has (entries_at s0 id) k then [] else if is_NONE (at_ k) then lost_at (r_start (outer_of s) src Collect (VDict items)) loc k else []) ks = []); [|now apply Z].
      induction ks as [|k ks IH]; intros S; [reflexivity|]. cbn [flat_map]. rewrite IH by (intros; apply S; now right). rewrite app_nil_r.
      destruct (dict_has _ _); [reflexivity|]. destruct (FOUND k (S k (or_introl eq_refl))) as (v & G & Pv & _). unfold at_. rewrite G. cbn [none_or]. now rewrite (P_not_NONE _ _ _ (pn_data _ _ PN) v Pv).
    + intros k. rewrite G1. destruct (dict_get (entries_at s0 id) (VStr k)); [reflexivity|]. unfold at_.
      destruct (dict_get items (VStr k)) as [v|] eqn:G; cbn [none_or].
      * assert (IK : In (VStr k) (map fst items)). { unfold dict_get in G. destruct (find _ items) as [[a b]|] eqn:FD; [|discriminate]. apply find_some in FD. destruct FD as [I0 Q]. cbn [fst] in Q. apply py_eq_str in Q. subst a. apply in_map_iff. now exists (VStr k, b). }
        destruct (FOUND _ IK) as (w & G' & Pw & _). rewrite G in G'. injection G' as <-. rewrite (P_not_NONE _ _ _ (pn_data _ _ PN) v Pw). cbn [negb].
        rewrite andb_true_r. assert (EX : existsb (fun x => py_eq x (VStr k)) (map fst items) = true); [|now rewrite EX].
        apply existsb_exists. exists (VStr k). split; [exact IK|]. cbn. apply String.eqb_refl.
      * cbn [is_NONE negb]. now rewrite andb_false_r.
Qed.
(** ** A section of a configuration *)
Lemma config_capture W fuel cfg sec opts d loc id t l tags rs s es s0 :
  config_given cfg (Some sec) d -> alookup cfg sec = Some opts -> py3 (w_env W) = false -> (forall o v, In (o, v) opts -> lower o = o) ->
  nth_error (forms s) id = Some (t, l) -> direct_form t -> mapping_context s ->
  Form_map W (S (S fuel)) id (ASrc (SBase (BPlain (SConfig cfg (Some sec) d loc)))) tags rs UIgnore Collect s = (Ok es, s0) ->
  exists s1,
    Form_map W (S (S fuel)) id (ASrc (SBase (BPlain (SConfig cfg (Some sec) d loc)))) tags rs UCapture Collect s = (Ok es, s1) /\
    (forall k v, dict_get (entries_at s1 id) (VStr k) = Some v <->
       dict_get (entries_at s0 id) (VStr k) = Some v \/
       dict_get (entries_at s0 id) (VStr k) = None /\ (In k (map fst opts) \/ has_sub opts k) /\
         v = (match or_NONE (section_getitem opts d (KStr k)) with Ok v => v | Exn _ => VConst NONE end)) /\
    (forall k, (forall a, k <> VStr a) -> dict_get (entries_at s1 id) k = dict_get (entries_at s0 id) k) /\
    (forall i, i <> id -> nth_error (forms s1) i = nth_error (forms s0) i).
Proof.
  intros G AL P3 LOW T D C X. set (src := SConfig cfg (Some sec) d loc) in *.
  destruct (config_begins cfg (Some sec) d loc G) as [R L]. assert (RS : config_start cfg (Some sec) d = VCfgSec opts d) by (unfold config_start; now rewrite AL). rewrite RS in R, L.
  assert (JD : json_val d = true) by apply G.
  set (at_ := fun k => match k with VStr k => match or_NONE (section_getitem opts d (KStr k)) with Ok v => v | Exn _ => VConst NONE end | _ => VConst NONE end).
  set (ks := map fst (sub_mappings opts) ++ map (fun o => VStr (fst o)) opts).
  assert (SUBS : forall k, In (VStr k) (map fst (sub_mappings opts)) -> dict_get (sub_mappings opts) (VStr k) <> None).
  { intros k I0. apply in_map_iff in I0. destruct I0 as ([a b] & Q & I0). cbn in Q. subst a. unfold dict_get. destruct (find _ _) as [x|] eqn:FD; [discriminate|].
    pose proof (find_none _ _ FD _ I0) as Q. cbn in Q. now rewrite String.eqb_refl in Q. }
  assert (HSUB : forall k, has_sub opts k <-> dict_get (sub_mappings opts) (VStr k) <> None).
  { intros k. pose proof (sub_mappings_ok opts k) as TO. destruct (dict_get _ _); split; intros H; try easy; try apply TO. }
  assert (KEY : forall k, In (VStr k) ks <-> In k (map fst opts) \/ has_sub opts k).
  { intros k. unfold ks. rewrite in_app_iff, HSUB. split.
    - intros [I0|I0]; [right; now apply SUBS|]. left. apply in_map_iff in I0. destruct I0 as ([a b] & [= ->] & I0). apply in_map_iff. now exists (k, b).
    - intros [I0|I0].
      + right. apply in_map_iff in I0. destruct I0 as ([a b] & Q & I0). cbn in Q. subst a. apply in_map_iff. now exists (k, b).
      + left. unfold dict_get in I0. destruct (find _ _) as [[a b]|] eqn:FD; [|easy]. apply find_some in FD. destruct FD as [I1 Q]. cbn [fst] in Q. apply py_eq_str in Q. subst a. apply in_map_iff. now exists (VStr k, b). }
  assert (STR : forall k, In k ks -> exists a, k = VStr a).
  { intros k I0. unfold ks in I0. apply in_app_iff in I0. destruct I0 as [I0|I0]; apply in_map_iff in I0; destruct I0 as ([a b] & <- & I0); [|eauto].
    destruct (subs_fine opts a b I0) as (x & -> & _). now exists x. }
  assert (FOUND : forall k, In (VStr k) ks -> ignored (at_ (VStr k)) = false /\ or_NONE (section_getitem opts d (KStr k)) = Ok (at_ (VStr k))).
  { intros k I0. apply KEY in I0. cbn [at_]. unfold section_getitem. destruct (dict_get (sub_mappings opts) (VStr k)) as [w|] eqn:DG.
    - cbn [or_NONE]. split; [|reflexivity]. pose proof (get_str_dict _ _ _ (subs_fine opts) DG) as J. now apply ignored_json.
    - destruct I0 as [I0|I0]; [|now apply HSUB in I0]. apply in_map_iff in I0. destruct I0 as ([a b] & Q & I0). cbn in Q. subst a. rewrite (LOW k b I0).
      destruct (alookup opts k) as [w|] eqn:A; [now split|]. exfalso. revert A I0. clear. induction opts as [|[x y] l IH]; cbn [alookup]; [intros _ []|].
      destruct (String.eqb_spec x k) as [->|NE]; [discriminate|]. intros A [[= -> ->]|I0]; [easy|]. now apply IH. }
  destruct (capture_gen W fuel src (VCfgSec opts d) _ loc at_ ks id t l tags rs s es s0 R (config_regime _ _ _ _ _ _ L) (fun v => eq_refl) eq_refl) as (s1 & M & G1 & G2 & G3); auto.
  - unfold ks. cbn [psource_mapping src]. cbn. rewrite P3. reflexivity.
  - apply Forall_forall. intros k I0. destruct (STR k I0) as (a & ->). destruct (FOUND a I0) as [NI RV]. split; [left; eauto|].
    unfold r_child. cbn [r_start r_val r_src src psource_resolve key_of_val]. unfold config_resolve. cbn [py_getitem]. split; [exact RV|now right].
  - exists s1. split; [|split; [|split; [now apply G2|exact G3]]].
    + rewrite M. f_equal. f_equal. rewrite <- (app_nil_r es) at 2. f_equal. unfold cap_errs.
      assert (Z : forall l', (forall k, In k l' -> In k ks) -> flat_map (fun k => if dict_has (entries_at s0 id) k then [] else if is_NONE (at_ k) then lost_at (r_start (outer_of s) src Collect (VCfgSec opts d)) loc k else []) l' = []); [|now apply Z].
      induction l' as [|k l' IH]; intros S; [reflexivity|]. cbn [flat_map]. rewrite IH by (intros; apply S; now right). rewrite app_nil_r.
      destruct (dict_has _ _); [reflexivity|]. destruct (STR k (S k (or_introl eq_refl))) as (a & ->). destruct (FOUND a (S _ (or_introl eq_refl))) as [NI _].
      destruct (is_NONE (at_ (VStr a))) eqn:N; [|reflexivity]. destruct (at_ (VStr a)); discriminate.
    + intros k v. rewrite G1. destruct (dict_get (entries_at s0 id) (VStr k)) as [w|].
      { split; [now left|]. intros [H|[H _]]; [exact H|discriminate]. }
      destruct (existsb (fun x => py_eq x (VStr k)) ks) eqn:EX.
      * apply existsb_exists in EX. destruct EX as (x & I0 & Q). apply py_eq_str in Q. subst x. destruct (FOUND k I0) as [NI RV].
        assert (N : is_NONE (at_ (VStr k)) = false) by (destruct (at_ (VStr k)); try reflexivity; discriminate). rewrite N. cbn [negb andb]. rewrite RV. split.
        -- intros [= <-]. right. split; [reflexivity|]. split; [now apply KEY|reflexivity].
        -- intros [H|(_ & _ & ->)]; [discriminate|reflexivity].
      * cbn [andb]. split; [discriminate|]. intros [H|(_ & H & _)]; [discriminate|]. apply KEY in H. exfalso.
        assert (F : existsb (fun x => py_eq x (VStr k)) ks = true); [|congruence]. apply existsb_exists. exists (VStr k). split; [exact H|]. cbn. apply String.eqb_refl.
Qed.
Lemma C45_config_lem W fuel cfg sec opts d loc id t l tags rs s es s0 :
  config_given cfg (Some sec) d -> alookup cfg sec = Some opts -> py3 (w_env W) = false -> (forall o v, In (o, v) opts -> lower o = o) ->
  nth_error (forms s) id = Some (t, l) -> direct_form t -> mapping_context s ->
  Form_map W (S (S fuel)) id (ASrc (SBase (BPlain (SConfig cfg (Some sec) d loc)))) tags rs UIgnore Collect s = (Ok es, s0) ->
  exists s1,
    Form_map W (S (S fuel)) id (ASrc (SBase (BPlain (SConfig cfg (Some sec) d loc)))) tags rs UCapture Collect s = (Ok es, s1) /\
    (forall k v, dict_get (entries_at s0 id) (VStr k) = Some v -> dict_get (entries_at s1 id) (VStr k) = Some v) /\
    (forall k, dict_get (entries_at s0 id) (VStr k) = None -> In k (map fst opts) \/ has_sub opts k ->
       exists v, config_value opts d k v /\ dict_get (entries_at s1 id) (VStr k) = Some v) /\
    (forall k, dict_get (entries_at s0 id) (VStr k) = None -> ~ In k (map fst opts) -> ~ has_sub opts k -> dict_get (entries_at s1 id) (VStr k) = None) /\
    (forall k, (forall a, k <> VStr a) -> dict_get (entries_at s1 id) k = dict_get (entries_at s0 id) k) /\
    (forall i, i <> id -> nth_error (forms s1) i = nth_error (forms s0) i).
Proof.
  intros G AL P3 LOW T D C X. destruct (config_capture W fuel cfg sec opts d loc id t l tags rs s es s0 G AL P3 LOW T D C X) as (s1 & M & G1 & G2 & G3).
  exists s1. split; [exact M|]. split; [intros k v H; apply G1; now left|]. split; [|split; [|now split]].
  - intros k N K. destruct (section_value opts d k) as (v & V & CV). exists v. split; [exact CV|]. apply G1. right. rewrite V. auto.
  - intros k N K1 K2. destruct (dict_get (entries_at s1 id) (VStr k)) as [v|] eqn:Q; [|reflexivity]. apply G1 in Q. destruct Q as [Q|(_ & [Q|Q] & _)]; [congruence|contradiction|contradiction].
Qed.
