From Coq Require Import Lia.
From Verif Require Import PyBase PyStr Source Field Context Fields SpecSrc Eval Refine Regime CfgRegime SpecTame TameProofs FormProofs Balance AgainProofs ObjProofs.
Open Scope ev_scope.

Lemma fields_app rec r id tags : forall fs gs s,
  ev_fields rec r id tags (fs ++ gs) s = (ev_fields rec r id tags fs;;; ev_fields rec r id tags gs) s.
Proof.
  induction fs as [|f fs IH]; intros gs s; cbn [app ev_fields]; [reflexivity|].
  assert (X : forall (m : Ev unit) (k k' : Ev unit), (forall s, k s = k' s) -> (m;;; k) s = (m;;; k') s).
  { intros m k k' K. unfold ebind. destruct (m s) as [[u|e] s1]; auto. }
  assert (Y : forall m k l : Ev unit, (m;;; (k;;; l)) s = ((m;;; k);;; l) s).
  { intros m k l. unfold ebind. destruct (m s) as [[u|e] s1]; reflexivity. }
  rewrite (X _ _ _ (IH gs)). apply Y.
Qed.
Lemma upd_base S : forall l l' a, dict_get l (VStr a) = dict_get l' (VStr a) -> dict_get (upd l S) (VStr a) = dict_get (upd l' S) (VStr a).
Proof.
  induction S as [|[k x] S IH]; intros l l' a H; [exact H|].
  apply (IH (sset l k x) (sset l' k x)). unfold sset. rewrite !dict_get_set. now destruct (py_eq (VStr k) (VStr a)).
Qed.
Lemma named_name tags fs a : named tags fs a -> has_name fs a.
Proof. intros (f & I & _ & N). exists f. auto. Qed.

Section Flat.
Variables (W : world) (root : val) (Loc : val -> Prop) (src : psource).
Let E := w_env W.
Hypothesis RG : regime E src root Loc.
Hypothesis STR : forall v w, psource_parse E src TyStr v = Ok w -> exists s, w = VStr s.
Hypothesis NULL : is_None root = false.

(** A flat sub-form whose fields all come to an end. *)
Lemma flat_field_is f t n r es (h : heap) vw o new S : flat_sub f t -> r_mode r = Collect ->
  r_val r = Ok root -> r_src r = src -> psource_mapping E no_ents src (length (r_keys r)) root = Ok vw ->
  ev_fields (ev_field W n) (r_inform (r_collecting (r_for r f) Collect) (length h)) (length h) (r_tags r) (ft_fields t) ([], h ++ [(t, [])])
    = (Ok o, (new, h ++ [(t, S)])) ->
  ev_field W (Datatypes.S n) r f NONEv (es, h) =
    (Ok (match new with [] => VForm (length h) | _ => ERRORv end), (es ++ new, h ++ [(t, S)])).
Proof.
  intros (nm & tg & igm & rs & ->) MO V SRC M FL. set (f := MkField _ _) in *.
  assert (NN : is_NONE root = false) by apply (rg_some _ _ _ _ RG _ (rg_root _ _ _ _ RG)).
  assert (FM : ev_form W (ev_field W n) (r_for r f) t rs UIgnore (es, h) =
     (Ok (match new with [] => VForm (length h) | _ => ERRORv end), (es ++ new, h ++ [(t, S)]))).
  { unfold ev_form. unfold ebind at 1, ev_new. cbn [snd fst].
    assert (RS : (if rs then ev_reset (length h) (r_tags (r_for r f)) (ft_fields t) else eret tt) (es, h ++ [(t, [])]) = (Ok tt, (es, h ++ [(t, [])]))).
    { destruct rs; [|reflexivity]. rewrite (ev_reset_is _ _ _ es (h ++ [(t, [])]) t []); [|apply nth_last].
      assert (DN : forall fs, dropped (r_tags (r_for r f)) fs [] = []).
      { induction fs as [|g fs IH]; [reflexivity|]. cbn [dropped fold_left]. destruct (selected (r_tags (r_for r f)) g); exact IH. }
      rewrite DN, replace_last. reflexivity. }
    assert (MP : forall s, ev_mapping W (r_collecting (r_for r f) Collect) s = (Ok vw, s)).
    { intros s. unfold ev_mapping, on_val, elift. cbn [r_collecting r_for r_val r_src r_keys]. rewrite V, SRC. fold E. now rewrite M. }
    unfold ebind at 1. rewrite RS. unfold ebind at 1, ev_sub, ev_form_map. unfold ebind at 1. rewrite MP.
    unfold ebind at 1, ev_type. cbn [snd]. rewrite nth_last. unfold ebind at 1.
    change (r_tags (r_for r f)) with (r_tags r). unfold heap in *. rewrite FL. reflexivity. }
  cbn [ev_field]. unfold ev_field_body, ev_where. cbn [f f_opts o_resolve f_kind o_src o_attach_parent is_NONE NONEv andb].
  unfold ebind at 1. unfold eret at 1. fold f. unfold ev_body. cbn [f f_opts o_compute o_default is_NONE NONEv]. fold f.
  unfold ev_compute. cbn [f f_opts o_parse f_kind ev_parse]. fold f.
  unfold ev_exists, ev_null, on_val. change (r_val (r_for r f)) with (r_val r). rewrite V. unfold elift, ebind at 1 2 3 4 5, ecatch at 1.
  rewrite NN, NULL. cbn [negb]. rewrite FM. unfold eret at 1.
  destruct new as [|e0 new]; reflexivity.
Qed.

Lemma replace_before {A} i (x y : A) : forall l, nth_error l i = Some y -> forall z, replace_nth i x (l ++ [z]) = replace_nth i x l ++ [z].
Proof.
  induction i as [|i IH]; intros [|a l] H z; try discriminate; [reflexivity|]. cbn [app]. rewrite !replace_cons. cbn [app]. now rewrite (IH l).
Qed.
Lemma replace_len {A} i (x : A) : forall l, length (replace_nth i x l) = length l.
Proof. induction i as [|i IH]; intros [|a l]; rewrite ?replace_nil; try reflexivity. rewrite replace_cons. cbn. now rewrite IH. Qed.
Lemma replace_far {A} i j (x : A) : i <> j -> forall l, nth_error (replace_nth i x l) j = nth_error l j.
Proof.
  revert j. induction i as [|i IH]; intros j N [|a l]; rewrite ?replace_nil; try reflexivity.
  - destruct j; [lia|reflexivity].
  - rewrite replace_cons. destruct j; [reflexivity|]. cbn. apply IH. lia.
Qed.
Lemma nth_before {A} i (y : A) l z : nth_error l i = Some y -> nth_error (l ++ [z]) i = Some y.
Proof. intros H. rewrite nth_error_app1; [exact H|]. apply nth_error_Some. congruence. Qed.

Lemma flat_map k fuel o f t pre post n1 n2 id1 id2 (h : heap) es : (S k <= fuel)%nat -> id1 <> id2 ->
  flat_sub f t -> tame_form k t -> (forall g, In g pre \/ In g post -> tame k g) ->
  nth_error h id1 = Some (FormTy n1 (pre ++ f :: post), []) ->
  nth_error h id2 = Some (FormTy n2 (pre ++ ft_fields t ++ post), []) -> selected (ou_tags o) f = true ->
  let x := ev_map W fuel o src root id1 [] false UIgnore Collect h in
  let y := ev_map W fuel o src root id2 [] false UIgnore Collect h in
  fst y = Ok es ->
  fst x = Ok es /\
  exists l l1 l2, nth_error (snd x) (length h) = Some (t, l) /\
    nth_error (snd x) id1 = Some (FormTy n1 (pre ++ f :: post), l1) /\
    nth_error (snd y) id2 = Some (FormTy n2 (pre ++ ft_fields t ++ post), l2) /\
    (forall a, ~ has_name pre a -> ~ has_name post a -> dict_get l2 (VStr a) = dict_get l (VStr a)) /\
    (forall a, ~ has_name (ft_fields t) a -> a <> fname f -> dict_get l2 (VStr a) = dict_get l1 (VStr a)) /\
    (es = [] -> ~ has_name post (fname f) -> dict_get l1 (VStr (fname f)) = Some (VForm (length h))).
Proof.
  intros B N12 FS D DG H1 H2 SEL. cbv zeta. destruct fuel as [|n]; [lia|]. unfold ev_map. unfold eret.
  set (tags := ou_tags o) in *. set (r := r_start o src Collect root).
  pose proof (start_twin W root Loc src RG o o eq_refl eq_refl) as T0. pose proof (start_ready W root Loc src RG o) as R0. fold r in T0, R0.
  destruct (psource_mapping E no_ents src 0 root) as [vw|e] eqn:M.
  2:{ unfold ev_form_map, ebind, ev_mapping, on_val, elift. cbn [r r_start r_val r_src r_keys length]. fold E. rewrite M. discriminate. }
  set (r1 := r_inform r id1). set (r2 := r_inform r id2).
  assert (FM : forall i ty (h0 : heap) l0, nth_error h0 i = Some (ty, l0) ->
     ev_form_map W (ev_field W (S n)) r i tags UIgnore ([], h0) =
     ev_fields (ev_field W (S n)) (r_inform r i) i tags (ft_fields ty) ([], h0)).
  { intros i ty h0 l0 Hi. unfold ev_form_map, ebind, ev_mapping, on_val, elift. cbn [r r_start r_val r_src r_keys length]. fold E. rewrite M.
    unfold ev_type. cbn [snd]. rewrite Hi. fold r. match goal with |- context [ev_fields ?a ?b ?c ?d ?e ?g] => destruct (ev_fields a b c d e g) as [[[]|e0] s0] end; reflexivity. }
  rewrite (FM id1 _ h [] H1), (FM id2 _ h [] H2). cbn [ft_fields]. fold r1 r2.
  match goal with |- context [ev_fields ?a r1 ?b ?c ?d ?e] => remember (ev_fields a r1 b c d e) as X1 eqn:EX end.
  match goal with |- context [ev_fields ?a r2 ?b ?c ?d ?e] => remember (ev_fields a r2 b c d e) as Y1 eqn:EY end.
  assert (T12 : twin Collect Loc src r1 r2) by (destruct T0; split; auto).
  assert (DP : forall g, In g pre -> tame k g) by auto. assert (DQ : forall g, In g post -> tame k g) by auto.
  assert (BB : S n = S n \/ (k <= S n)%nat /\ (k <= S n)%nat) by now left.
  destruct (fields_alike W root Loc src RG STR k (S n) (S n) r1 r2 id1 id2 tags pre BB DP T12 R0) as (op & np & Sp & NSp & FP).
  destruct (fields_alike W root Loc src RG STR k (S n) (S n) r1 r2 id1 id2 tags post BB DQ T12 R0) as (oq & nq & Sq & NSq & FQ).
  set (rs := r_inform (r_collecting (r_for r1 f) Collect) (length h)).
  assert (T3 : twin Collect Loc src rs r2) by (destruct T0; split; auto).
  assert (BS : n = S n \/ (k <= n)%nat /\ (k <= S n)%nat) by (right; lia).
  destruct (fields_alike W root Loc src RG STR k n (S n) rs r2 (length h) id2 tags (ft_fields t) BS D T3 R0) as (ot & nt & St & NSt & FT).
  assert (P1 : r_pid r1 = ou_pid o) by reflexivity. assert (P2 : r_pid r2 = ou_pid o) by reflexivity. assert (P3 : r_pid rs = ou_pid o) by reflexivity.
  rewrite P1, P2 in *. rewrite P3 in FT. set (p := ou_pid o) in *.
  (* the fields in the enclosing form *)
  rewrite (fields_app _ r2) in EY. rewrite (fields_app _ r1) in EX. unfold ebind at 1 in EX. unfold ebind at 1 in EY.
  destruct (FP [] h _ _ _ _ H1 H2) as [Q1 Q2]. rewrite Q1 in EX. rewrite Q2 in EY.
  destruct op as [[]|e]; [|subst Y1; discriminate]. cbn [app] in EX, EY.
  set (hy := replace_nth id2 (FormTy n2 (pre ++ ft_fields t ++ post), upd [] Sp) h) in *.
  assert (Hy2 : nth_error hy id2 = Some (FormTy n2 (pre ++ ft_fields t ++ post), upd [] Sp)) by (eapply replace_hit; eauto).
  assert (Hy1 : nth_error hy id1 = Some (FormTy n1 (pre ++ f :: post), [])) by (unfold hy; rewrite replace_far by auto; exact H1).
  rewrite (fields_app _ r2) in EY. unfold ebind at 1 in EY.
  (* the fields of the sub-form, as the enclosing form maps them: the run needs a form at [length h] *)
  assert (FT2 : ev_fields (ev_field W (S n)) r2 id2 tags (ft_fields t) (map (put p) np, hy) =
     (ot, (map (put p) np ++ map (put p) nt, replace_nth id2 (FormTy n2 (pre ++ ft_fields t ++ post), upd (upd [] Sp) St) hy))).
  { destruct (fields_alike W root Loc src RG STR k n (S n) rs r2 id1 id2 tags (ft_fields t) BS D T3 R0) as (ot' & nt' & St' & _ & FT').
    destruct (FT' (map (put p) np) hy _ _ _ _ Hy1 Hy2) as [_ X]. rewrite P2 in X. etransitivity; [exact X|].
    destruct (FT (map (put p) np) (hy ++ [(t, [])]) t [] _ _ ltac:(rewrite <- (replace_len id2 (FormTy n2 (pre ++ ft_fields t ++ post), upd [] Sp) h); apply nth_last) (nth_before _ _ _ _ Hy2)) as [_ Y].
    destruct (FT' (map (put p) np) (hy ++ [(t, [])]) _ _ _ _ (nth_before _ _ _ _ Hy1) (nth_before _ _ _ _ Hy2)) as [_ Y']. rewrite P2 in Y'.
    rewrite Y in Y'. injection Y' as EO EN ES. apply app_inv_head in EN.
    rewrite !(replace_before _ _ _ _ Hy2) in ES. apply app_inj_tail in ES. destruct ES as [ES _].
    rewrite EO, EN. unfold heap in *. now rewrite ES. }
  unfold heap in *. rewrite FT2 in EY. destruct ot as [[]|e]; [|subst Y1; discriminate].
  set (hy3 := replace_nth id2 (FormTy n2 (pre ++ ft_fields t ++ post), upd (upd [] Sp) St) hy) in *.
  assert (Hy32 : nth_error hy3 id2 = Some (FormTy n2 (pre ++ ft_fields t ++ post), upd (upd [] Sp) St)) by (eapply replace_hit; eauto).
  assert (Hy31 : nth_error hy3 id1 = Some (FormTy n1 (pre ++ f :: post), [])) by (unfold hy3; rewrite replace_far by auto; exact Hy1).
  destruct (FQ (map (put p) np ++ map (put p) nt) hy3 _ _ _ _ Hy31 Hy32) as [_ Q3]. rewrite Q3 in EY.
  destruct oq as [[]|e]; [|subst Y1; discriminate]. subst Y1. cbn [fst snd]. intros [= <-].
  (* the form with the sub-form *)
  set (hx := replace_nth id1 (FormTy n1 (pre ++ f :: post), upd [] Sp) h) in *.
  assert (Hx1 : nth_error hx id1 = Some (FormTy n1 (pre ++ f :: post), upd [] Sp)) by (eapply replace_hit; eauto).
  assert (Hx2 : nth_error hx id2 = Some (FormTy n2 (pre ++ ft_fields t ++ post), [])) by (unfold hx; rewrite replace_far by auto; exact H2).
  assert (LX : length hx = length h) by apply replace_len.
  cbn [ev_fields] in EX. unfold ebind at 1 in EX. rewrite SEL in EX.
  assert (FF : ev_field W (S n) r1 f NONEv (map (put p) np, hx) =
     (Ok (match map (put p) nt with [] => VForm (length h) | _ => ERRORv end), (map (put p) np ++ map (put p) nt, hx ++ [(t, upd [] St)]))).
  { rewrite <- LX. apply (flat_field_is f t n r1 (map (put p) np) hx vw tt (map (put p) nt) (upd [] St)); auto.
    rewrite LX. fold rs. change (r_tags r1) with tags.
    destruct (FT [] (hx ++ [(t, [])]) t [] _ _ ltac:(rewrite <- LX; apply nth_last) (nth_before _ _ _ _ Hx2)) as [Y _].
    cbn [app] in Y. etransitivity; [exact Y|].
    assert (RL : replace_nth (length h) (t, upd [] St) (hx ++ [(t, [])]) = hx ++ [(t, upd [] St)]) by (rewrite <- LX; apply replace_last).
    unfold heap in *. now rewrite RL. }
  unfold ebind at 1 in EX. unfold heap in *. rewrite FF in EX.
  set (v := match map (put p) nt with [] => VForm (length h) | _ => ERRORv end) in *.
  set (lx := if ignored v then upd [] Sp else sset (upd [] Sp) (fname f) v) in *.
  set (hx3 := replace_nth id1 (FormTy n1 (pre ++ f :: post), lx) (hx ++ [(t, upd [] St)])) in *.
  assert (ST : (if ignored v then eret tt else ev_set id1 (VStr (fname f)) v) (map (put p) np ++ map (put p) nt, hx ++ [(t, upd [] St)]) =
     (Ok tt, (map (put p) np ++ map (put p) nt, hx3))).
  { unfold hx3, lx. destruct (ignored v).
    - unfold eret. now rewrite (replace_id _ _ _ (nth_before _ _ _ _ Hx1)).
    - apply (ev_set_is id1 _ v _ _ _ _ (nth_before _ _ _ _ Hx1)). }
  unfold heap in *. fold v in EX. rewrite ST in EX.
  assert (Hx31 : nth_error hx3 id1 = Some (FormTy n1 (pre ++ f :: post), lx)) by (eapply replace_hit; apply (nth_before _ _ _ _ Hx1)).
  assert (Hx32 : nth_error hx3 id2 = Some (FormTy n2 (pre ++ ft_fields t ++ post), [])) by (unfold hx3; rewrite replace_far by auto; apply (nth_before _ _ _ _ Hx2)).
  destruct (FQ (map (put p) np ++ map (put p) nt) hx3 _ _ _ _ Hx31 Hx32) as [Q4 _].
  unfold heap in *. rewrite Q4 in EX. subst X1. cbn [fst snd]. split; [reflexivity|].
  assert (L1 : id1 <> length h). { intros ->. assert (nth_error h (length h) = None) by (apply nth_error_None; lia). congruence. }
  exists (upd [] St), (upd lx Sq), (upd (upd (upd [] Sp) St) Sq). split.
  { etransitivity; [apply replace_far; exact L1|]. unfold hx3. etransitivity; [apply replace_far; exact L1|]. rewrite <- LX. apply nth_last. }
  split; [apply (replace_hit _ _ _ _ Hx31)|]. split; [apply (replace_hit _ _ _ _ Hy32)|].
  assert (NP : forall a, ~ has_name pre a -> ~ In a (map fst Sp)) by (intros a X I; apply X; eapply named_name; eauto).
  assert (NQ : forall a, ~ has_name post a -> ~ In a (map fst Sq)) by (intros a X I; apply X; eapply named_name; eauto).
  assert (NT : forall a, ~ has_name (ft_fields t) a -> ~ In a (map fst St)) by (intros a X I; apply X; eapply named_name; eauto).
  split; [|split].
  - intros a Xp Xq. rewrite (upd_get Sq) by auto. apply upd_base. now rewrite (upd_get Sp) by auto.
  - intros a Xt Xf. apply upd_base. rewrite (upd_get St) by auto. unfold lx. destruct (ignored v); [reflexivity|].
    rewrite get_set_other; auto.
  - intros EN Xq. rewrite (upd_get Sq) by auto. apply app_eq_nil in EN. destruct EN as [EN _]. apply app_eq_nil in EN. destruct EN as [_ EN].
    unfold lx, v. rewrite EN. cbn [ignored]. apply get_set_this.
Qed.
End Flat.

Lemma flat_direct k f t pre post n : flat_sub f t -> tame_form k t -> (forall g, In g pre \/ In g post -> tame k g) ->
  direct_form (FormTy n (pre ++ f :: post)).
Proof.
  intros (m & tags & igm & rs & ->) D DG. constructor. intros g I. apply in_app_iff in I. destruct I as [I|[<-|I]].
  - eapply tame_direct, DG; eauto.
  - constructor.
    + split; cbn; try discriminate; auto.
    + constructor; [eapply tame_form_direct; eauto|constructor].
  - eapply tame_direct, DG; eauto.
Qed.
Lemma inline_direct k t pre post n : tame_form k t -> (forall g, In g pre \/ In g post -> tame k g) ->
  direct_form (FormTy n (pre ++ ft_fields t ++ post)).
Proof.
  intros D DG. constructor. intros g I. apply in_app_iff in I. destruct I as [I|I]; [eapply tame_direct, DG; eauto|].
  apply in_app_iff in I. destruct I as [I|I]; eapply tame_direct; [apply D|apply DG]; eauto.
Qed.
Lemma form_flat W src root Loc k fuel f t pre post n1 n2 id1 id2 s es :
  psource_root src = Ok root -> regime (w_env W) src root Loc ->
  (forall (e : Prop) v, psource_mapping (w_env W) no_ents src 0 VNone = Ok v -> e) ->
  (forall v w, psource_parse (w_env W) src TyStr v = Ok w -> exists s, w = VStr s) ->
  (S k <= fuel)%nat -> id1 <> id2 -> flat_sub f t -> tame_form k t -> (forall g, In g pre \/ In g post -> tame k g) ->
  nth_error (forms s) id1 = Some (FormTy n1 (pre ++ f :: post), []) ->
  nth_error (forms s) id2 = Some (FormTy n2 (pre ++ ft_fields t ++ post), []) ->
  selected (tags_seen (lookup "tags" (stk s))) f = true -> mapping_context s ->
  let x := Form_map W fuel id1 (ASrc (SBase (BPlain src))) [] false UIgnore Collect s in
  let y := Form_map W fuel id2 (ASrc (SBase (BPlain src))) [] false UIgnore Collect s in
  fst y = Ok es ->
  fst x = Ok es /\
  exists l l1 l2, nth_error (forms (snd x)) (length (forms s)) = Some (t, l) /\
    nth_error (forms (snd x)) id1 = Some (FormTy n1 (pre ++ f :: post), l1) /\
    nth_error (forms (snd y)) id2 = Some (FormTy n2 (pre ++ ft_fields t ++ post), l2) /\
    (forall a, ~ has_name pre a -> ~ has_name post a -> dict_get l2 (VStr a) = dict_get l (VStr a)) /\
    (forall a, ~ has_name (ft_fields t) a -> a <> fname f -> dict_get l2 (VStr a) = dict_get l1 (VStr a)) /\
    (es = [] -> ~ has_name post (fname f) -> dict_get l1 (VStr (fname f)) = Some (VForm (length (forms s)))).
Proof.
  intros HR RG NN STR B N12 FS D DG H1 H2 SEL (C1 & C2 & C3). cbv zeta. 
  destruct (map_refines W fuel src root Loc id1 _ _ [] false UIgnore Collect s HR RG H1 (flat_direct k _ _ _ _ _ FS D DG) du_ignore C1 C2 C3) as (A1 & A2 & _).
  destruct (map_refines W fuel src root Loc id2 _ _ [] false UIgnore Collect s HR RG H2 (inline_direct k _ _ _ _ D DG) du_ignore C1 C2 C3) as (B1 & B2 & _).
  rewrite A1, A2, B1, B2. destruct (is_None root) eqn:EN; [|eapply flat_map; eauto].
  destruct root; try discriminate. intros OK. unfold ev_map, eret, ev_form_map, ebind, ev_mapping, on_val, elift in OK. cbn [r_start r_val r_src r_keys length] in OK.
  destruct (psource_mapping (w_env W) no_ents src 0 VNone) eqn:M; [eapply NN; eauto|discriminate OK].
Qed.
Lemma C38_json_lem W fuel d doc strict loc f t pre post n1 n2 id1 id2 s es :
  json_val doc = true -> (S d <= fuel)%nat -> id1 <> id2 ->
  flat_sub f t -> tame_form d t -> (forall g, In g pre \/ In g post -> tame d g) ->
  nth_error (forms s) id1 = Some (FormTy n1 (pre ++ f :: post), []) ->
  nth_error (forms s) id2 = Some (FormTy n2 (pre ++ ft_fields t ++ post), []) ->
  selected (tags_seen (lookup "tags" (stk s))) f = true -> mapping_context s ->
  let src := ASrc (SBase (BPlain (SJson doc strict loc))) in
  let x := Form_map W fuel id1 src [] false UIgnore Collect s in
  let y := Form_map W fuel id2 src [] false UIgnore Collect s in
  fst y = Ok es ->
  fst x = Ok es /\
  exists l l1 l2, nth_error (forms (snd x)) (length (forms s)) = Some (t, l) /\
    nth_error (forms (snd x)) id1 = Some (FormTy n1 (pre ++ f :: post), l1) /\
    nth_error (forms (snd y)) id2 = Some (FormTy n2 (pre ++ ft_fields t ++ post), l2) /\
    (forall a, ~ has_name pre a -> ~ has_name post a -> dict_get l2 (VStr a) = dict_get l (VStr a)) /\
    (forall a, ~ has_name (ft_fields t) a -> a <> fname f -> dict_get l2 (VStr a) = dict_get l1 (VStr a)) /\
    (es = [] -> ~ has_name post (fname f) -> dict_get l1 (VStr (fname f)) = Some (VForm (length (forms s)))).
Proof.
  intros J. apply (form_flat W (SJson doc strict loc) doc _ d fuel f t pre post n1 n2 id1 id2 s es eq_refl (json_regime _ _ _ _ J)).
  - discriminate.
  - apply json_strings.
Qed.
Lemma C38_native_lem W fuel P d doc loc f t pre post n1 n2 id1 id2 s es :
  plain_native (w_env W) P -> P doc -> (S d <= fuel)%nat -> id1 <> id2 ->
  flat_sub f t -> tame_form d t -> (forall g, In g pre \/ In g post -> tame d g) ->
  nth_error (forms s) id1 = Some (FormTy n1 (pre ++ f :: post), []) ->
  nth_error (forms s) id2 = Some (FormTy n2 (pre ++ ft_fields t ++ post), []) ->
  selected (tags_seen (lookup "tags" (stk s))) f = true -> mapping_context s ->
  let src := ASrc (SBase (BPlain (SDefault doc [] [] loc))) in
  let x := Form_map W fuel id1 src [] false UIgnore Collect s in
  let y := Form_map W fuel id2 src [] false UIgnore Collect s in
  fst y = Ok es ->
  fst x = Ok es /\
  exists l l1 l2, nth_error (forms (snd x)) (length (forms s)) = Some (t, l) /\
    nth_error (forms (snd x)) id1 = Some (FormTy n1 (pre ++ f :: post), l1) /\
    nth_error (forms (snd y)) id2 = Some (FormTy n2 (pre ++ ft_fields t ++ post), l2) /\
    (forall a, ~ has_name pre a -> ~ has_name post a -> dict_get l2 (VStr a) = dict_get l (VStr a)) /\
    (forall a, ~ has_name (ft_fields t) a -> a <> fname f -> dict_get l2 (VStr a) = dict_get l1 (VStr a)) /\
    (es = [] -> ~ has_name post (fname f) -> dict_get l1 (VStr (fname f)) = Some (VForm (length (forms s)))).
Proof.
  intros PN Pd. apply (form_flat W (SDefault doc [] [] loc) doc _ d fuel f t pre post n1 n2 id1 id2 s es eq_refl (native_regime _ _ _ _ PN Pd)).
  - discriminate.
  - apply native_strings.
Qed.
Lemma C38_config_lem W fuel d cfg sec dd loc f t pre post n1 n2 id1 id2 s es :
  config_given cfg sec dd -> (S d <= fuel)%nat -> id1 <> id2 ->
  flat_sub f t -> tame_form d t -> (forall g, In g pre \/ In g post -> tame d g) ->
  nth_error (forms s) id1 = Some (FormTy n1 (pre ++ f :: post), []) ->
  nth_error (forms s) id2 = Some (FormTy n2 (pre ++ ft_fields t ++ post), []) ->
  selected (tags_seen (lookup "tags" (stk s))) f = true -> mapping_context s ->
  let src := ASrc (SBase (BPlain (SConfig cfg sec dd loc))) in
  let x := Form_map W fuel id1 src [] false UIgnore Collect s in
  let y := Form_map W fuel id2 src [] false UIgnore Collect s in
  fst y = Ok es ->
  fst x = Ok es /\
  exists l l1 l2, nth_error (forms (snd x)) (length (forms s)) = Some (t, l) /\
    nth_error (forms (snd x)) id1 = Some (FormTy n1 (pre ++ f :: post), l1) /\
    nth_error (forms (snd y)) id2 = Some (FormTy n2 (pre ++ ft_fields t ++ post), l2) /\
    (forall a, ~ has_name pre a -> ~ has_name post a -> dict_get l2 (VStr a) = dict_get l (VStr a)) /\
    (forall a, ~ has_name (ft_fields t) a -> a <> fname f -> dict_get l2 (VStr a) = dict_get l1 (VStr a)) /\
    (es = [] -> ~ has_name post (fname f) -> dict_get l1 (VStr (fname f)) = Some (VForm (length (forms s)))).
Proof.
  intros G. destruct (config_begins cfg sec dd loc G) as [R L].
  apply (form_flat W (SConfig cfg sec dd loc) _ _ d fuel f t pre post n1 n2 id1 id2 s es R (config_regime _ _ _ _ _ _ L)).
  - discriminate.
  - apply config_strings.
Qed.
