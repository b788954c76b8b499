(** * StopProofs: C38 and C47 where errors are raised. *)
From Coq Require Import Lia.
From Verif Require Import PyBase PyStr Source Field Context Fields SpecSrc SpecJson Eval Refine Regime CfgRegime SpecTame TameProofs AgainProofs TwiceProofs FlatProofs ModeProofs.

Lemma tame_bare d : forall f, tame d f -> bare f.
Proof.
  induction d as [|d IH]; intros f D; [contradiction|]. destruct D as [TO D]. destruct f as [o k]. cbn [f_opts f_kind] in *.
  constructor.
  - split; rewrite ?(to_compute _ TO), ?(to_parse _ TO), ?(to_munge _ TO), ?(to_filter _ TO), ?(to_validate _ TO), ?(to_resolve _ TO); try easy.
    + intros x Hx. pose proof (to_src _ TO x Hx). now destruct x.
    + pose proof (to_default _ TO) as DD. destruct (o_default o) as [[h|]|v|q]; try contradiction; eauto.
  - destruct k; try contradiction; try (constructor; now eauto).
    destruct D as (D1 & D2 & ->). constructor; auto.
Qed.
Lemma tame_form_bare d t : tame_form d t -> bare_form t.
Proof. destruct t as [n fs]. intros D. constructor. intros f I. eapply tame_bare. now apply D. Qed.
Lemma flat_bare f t : flat_sub f t -> bare_form t -> bare f.
Proof.
  intros (n & tags & igm & rs & ->) B. constructor.
  - split; cbn; try reflexivity; [discriminate|now left].
  - constructor; [exact B|constructor].
Qed.

(** Raising and nothing to raise: it is the collecting run. *)
Lemma raise_ok W root Loc src fuel o id t l tags rs u (h : heap) es :
  regime (w_env W) src root Loc -> bare_form t -> bare_unm u -> nth_error h id = Some (t, l) ->
  fst (ev_map W fuel o src root id tags rs u Raise h) = Ok es ->
  es = [] /\ ev_map W fuel o src root id tags rs u Collect h = ev_map W fuel o src root id tags rs u Raise h.
Proof.
  intros RG B BU N Q. pose proof (tw_ev_map W root Loc src fuel o id t l tags rs u h RG B BU N _ _ eq_refl eq_refl) as M.
  destruct (fst (ev_map W fuel o src root id tags rs u Collect h)) as [[|e es1]|e] eqn:X.
  - rewrite M in Q. rewrite X in Q. injection Q as <-. auto.
  - destruct M as (es' & M & _). congruence.
  - destruct M as [M|(e' & es' & M)]; congruence.
Qed.
Lemma map_raise_again W root Loc src d fuel o o' id t l tags rs u (h : heap) es :
  regime (w_env W) src root Loc -> (forall v w, psource_parse (w_env W) src TyStr v = Ok w -> exists s, w = VStr s) ->
  ou_igd o' = ou_igd o -> ou_igm o' = ou_igm o -> ou_tags o' = ou_tags o -> tame_form d t ->
  (u = UIgnore \/ u = UCapture /\ rs = false) -> nth_error h id = Some (t, l) ->
  fst (ev_map W fuel o src root id tags rs u Raise h) = Ok es ->
  exists h', ev_map W fuel o src root id tags rs u Raise h = (Ok [], h') /\ ev_map W fuel o' src root id tags rs u Raise h' = (Ok [], h') /\ exists l2, nth_error h' id = Some (t, l2).
Proof.
  intros RG STR A B C D U N Q. assert (BU : bare_unm u) by (destruct U as [->|[-> _]]; constructor).
  destruct (raise_ok W root Loc src fuel o id t l tags rs u h es RG (tame_form_bare _ _ D) BU N Q) as [-> RC].
  assert (M : let x := ev_map W fuel o src root id tags rs u Collect h in let y := ev_map W fuel o' src root id tags rs u Collect (snd x) in
    match fst x, fst y with Ok es, Ok es' => map said es' = map said es | Exn e, Exn e' => e' = e | _, _ => False end /\ snd y = snd x /\ exists l2, nth_error (snd x) id = Some (t, l2)).
  { destruct U as [->|[-> ->]]; [exact (map_again W root Loc src RG STR d fuel o o' id t l tags rs UIgnore h A B C D I N)|
      exact (map_capture_again W root Loc src d fuel o o' id t l tags h RG STR A B C D N)]. }
  cbv zeta in M. rewrite RC in M. destruct (ev_map W fuel o src root id tags rs u Raise h) as [r h'] eqn:R. cbn [fst snd] in *. subst r. destruct M as (M1 & M2 & l2 & M3).
  exists h'. split; [reflexivity|]. split; [|eauto].
  pose proof (tw_ev_map W root Loc src fuel o' id t l2 tags rs u h' RG (tame_form_bare _ _ D) BU M3 _ _ eq_refl eq_refl) as K.
  destruct (ev_map W fuel o' src root id tags rs u Collect h') as [x h2]. cbn [fst snd] in *. subst h2. destruct x as [es|e]; [|contradiction]. destruct es; [exact K|discriminate].
Qed.
Lemma form_raise_again W src root Loc d fuel id t l tags rs u s es :
  psource_root src = Ok root -> regime (w_env W) src root Loc ->
  (forall v w, psource_parse (w_env W) src TyStr v = Ok w -> exists s, w = VStr s) ->
  nth_error (forms s) id = Some (t, l) -> tame_form d t -> (u = UIgnore \/ u = UCapture /\ rs = false) -> mapping_context s ->
  let x := Form_map W fuel id (ASrc (SBase (BPlain src))) tags rs u Raise s in
  let y := Form_map W fuel id (ASrc (SBase (BPlain src))) tags rs u Raise (snd x) in
  fst x = Ok es -> fst y = Ok [] /\ forms (snd y) = forms (snd x).
Proof.
  intros HR RG STR T D U (C1 & C2 & C3). cbv zeta. intros Q.
  assert (DU : direct_unm u) by (destruct U as [->|[-> _]]; constructor).
  destruct (map_refines W fuel src root Loc id t l tags rs u Raise s HR RG T (tame_form_direct _ _ D) DU C1 C2 C3) as (A1 & A2 & A3 & _).
  set (x := Form_map W fuel id (ASrc (SBase (BPlain src))) tags rs u Raise s) in *.
  assert (OO : outer_of (snd x) = Outer (length (paths (snd x))) (ou_igd (outer_of s)) (ou_igm (outer_of s)) (ou_tags (outer_of s)) (ou_form (outer_of s)) (ou_field (outer_of s))).
  { unfold outer_of. now rewrite A3. }
  rewrite A1 in Q.
  destruct (map_raise_again W root Loc src d fuel (outer_of s) (outer_of (snd x)) id t l tags rs u (forms s) es) as (h' & M1 & M2 & l2 & M3); auto; try (now rewrite OO).
  rewrite M1 in A2. cbn [snd] in A2. rewrite <- A2 in M2, M3. rewrite <- A3 in C1, C2, C3.
  destruct (map_refines W fuel src root Loc id t l2 tags rs u Raise (snd x) HR RG M3 (tame_form_direct _ _ D) DU C1 C2 C3) as (B1 & B2 & _).
  rewrite B1, B2, M2. auto.
Qed.
Lemma C47_succeeds_lem W fuel d a id t l tags reset u s es :
  plain_data W a -> nth_error (forms s) id = Some (t, l) -> tame_form d t ->
  (u = UIgnore \/ u = UCapture /\ reset = false) -> mapping_context s ->
  let again := Form_map W fuel id a tags reset u Raise in
  fst (again s) = Ok es -> fst (again (snd (again s))) = Ok [] /\ forms (snd (again (snd (again s)))) = forms (snd (again s)).
Proof.
  intros PD T D U C. cbv zeta. destruct PD as [dc st lc J|P dc lc PN Pd|cfg sec dd lc G|P items PN Pd].
  - exact (form_raise_again W (SJson dc st lc) dc _ d fuel id t l tags reset u s es eq_refl (json_regime _ _ _ _ J) (json_strings _ _ _ _) T D U C).
  - exact (form_raise_again W (SDefault dc [] [] lc) dc _ d fuel id t l tags reset u s es eq_refl (native_regime _ _ _ _ PN Pd) (native_strings _ _ _ _ _) T D U C).
  - destruct (config_begins cfg sec dd lc G) as [R L].
    exact (form_raise_again W (SConfig cfg sec dd lc) _ _ d fuel id t l tags reset u s es R (config_regime _ _ _ _ _ _ L) (config_strings _ _ _ _ _) T D U C).
  - exact (form_raise_again W (SDefault (VDict items) [] [] None) (VDict items) _ d fuel id t l tags reset u s es eq_refl (native_regime _ _ _ _ PN Pd) (native_strings _ _ _ _ _) T D U C).
Qed.

(** C38 *)
Lemma C38_collect_lem W fuel d a f t pre post n1 n2 id1 id2 s es :
  plain_data W a -> (S d <= fuel)%nat -> id1 <> id2 ->
  flat_sub f t -> tame_form d t -> (forall g, In g pre \/ In g post -> tame d g) ->
  nth_error (forms s) id1 = Some (FormTy n1 (pre ++ f :: post), []) ->
  nth_error (forms s) id2 = Some (FormTy n2 (pre ++ ft_fields t ++ post), []) ->
  selected (tags_seen (lookup "tags" (stk s))) f = true -> mapping_context s ->
  let x := Form_map W fuel id1 a [] false UIgnore Collect s in
  let y := Form_map W fuel id2 a [] false UIgnore Collect s in
  fst y = Ok es ->
  fst x = Ok es /\
  exists l l1 l2, nth_error (forms (snd x)) (length (forms s)) = Some (t, l) /\
    nth_error (forms (snd x)) id1 = Some (FormTy n1 (pre ++ f :: post), l1) /\
    nth_error (forms (snd y)) id2 = Some (FormTy n2 (pre ++ ft_fields t ++ post), l2) /\
    (forall a, ~ has_name pre a -> ~ has_name post a -> dict_get l2 (VStr a) = dict_get l (VStr a)) /\
    (forall a, ~ has_name (ft_fields t) a -> a <> fname f -> dict_get l2 (VStr a) = dict_get l1 (VStr a)) /\
    (es = [] -> ~ has_name post (fname f) -> dict_get l1 (VStr (fname f)) = Some (VForm (length (forms s)))).
Proof.
  intros PD. destruct PD as [dc st lc J|P dc lc PN Pd|cfg sec dd lc G|P items PN Pd].
  - exact (C38_json_lem W fuel d dc st lc f t pre post n1 n2 id1 id2 s es J).
  - exact (C38_native_lem W fuel P d dc lc f t pre post n1 n2 id1 id2 s es PN Pd).
  - exact (C38_config_lem W fuel d cfg sec dd lc f t pre post n1 n2 id1 id2 s es G).
  - exact (C38_native_lem W fuel P d (VDict items) None f t pre post n1 n2 id1 id2 s es PN Pd).
Qed.
Lemma C38_raise_lem W fuel d a f t pre post n1 n2 id1 id2 s es :
  plain_data W a -> (S d <= fuel)%nat -> id1 <> id2 ->
  flat_sub f t -> tame_form d t -> (forall g, In g pre \/ In g post -> tame d g) ->
  nth_error (forms s) id1 = Some (FormTy n1 (pre ++ f :: post), []) ->
  nth_error (forms s) id2 = Some (FormTy n2 (pre ++ ft_fields t ++ post), []) ->
  selected (tags_seen (lookup "tags" (stk s))) f = true -> mapping_context s ->
  let x := Form_map W fuel id1 a [] false UIgnore Raise s in
  let y := Form_map W fuel id2 a [] false UIgnore Raise s in
  fst y = Ok es ->
  fst x = Ok [] /\
  exists l l1 l2, nth_error (forms (snd x)) (length (forms s)) = Some (t, l) /\
    nth_error (forms (snd x)) id1 = Some (FormTy n1 (pre ++ f :: post), l1) /\
    nth_error (forms (snd y)) id2 = Some (FormTy n2 (pre ++ ft_fields t ++ post), l2) /\
    (forall a, ~ has_name pre a -> ~ has_name post a -> dict_get l2 (VStr a) = dict_get l (VStr a)) /\
    (forall a, ~ has_name (ft_fields t) a -> a <> fname f -> dict_get l2 (VStr a) = dict_get l1 (VStr a)) /\
    (~ has_name post (fname f) -> dict_get l1 (VStr (fname f)) = Some (VForm (length (forms s)))).
Proof.
  intros PD FU NE FS TF TP N1 N2 SL C. cbv zeta. intros Y.
  assert (BF : bare_form t) by exact (tame_form_bare d t TF).
  assert (B1 : bare_form (FormTy n1 (pre ++ f :: post))).
  { constructor. intros g I. apply in_app_or in I. destruct I as [I|[<-|I]]; [apply tame_bare with d; auto|now apply flat_bare with t|apply tame_bare with d; auto]. }
  assert (B2 : bare_form (FormTy n2 (pre ++ ft_fields t ++ post))).
  { constructor. intros g I. apply in_app_or in I. destruct I as [I|I]; [apply tame_bare with d; auto|]. apply in_app_or in I. destruct I as [I|I]; [apply tame_bare with d; now apply TF|apply tame_bare with d; auto]. }
  destruct (C40_lem W fuel a id2 _ _ [] false UIgnore s PD N2 B2 bu_ignore C) as (P1 & _ & _ & P4). destruct (P4 es Y) as [YC _]. destruct (P1 YC) as [_ YF].
  destruct (C38_collect_lem W fuel d a f t pre post n1 n2 id1 id2 s [] PD FU NE FS TF TP N1 N2 SL C YC) as (XC & l & l1 & l2 & H1 & H2 & H3 & H4 & H5 & H6).
  destruct (C40_lem W fuel a id1 _ _ [] false UIgnore s PD N1 B1 bu_ignore C) as (R1 & _). destruct (R1 XC) as [XR XF].
  split; [exact XR|]. exists l, l1, l2. rewrite XF, YF. auto 10.
Qed.
Lemma C38_fails_lem W fuel d a f t pre post n1 n2 id1 id2 s e es :
  plain_data W a -> (S d <= fuel)%nat -> id1 <> id2 ->
  flat_sub f t -> tame_form d t -> (forall g, In g pre \/ In g post -> tame d g) ->
  nth_error (forms s) id1 = Some (FormTy n1 (pre ++ f :: post), []) ->
  nth_error (forms s) id2 = Some (FormTy n2 (pre ++ ft_fields t ++ post), []) ->
  selected (tags_seen (lookup "tags" (stk s))) f = true -> mapping_context s ->
  fst (Form_map W fuel id2 a [] false UIgnore Collect s) = Ok (e :: es) ->
  exists es1 es2,
    fst (Form_map W fuel id1 a [] false UIgnore Raise s) = Exn (EForm (e :: es1)) /\
    fst (Form_map W fuel id2 a [] false UIgnore Raise s) = Exn (EForm (e :: es2)).
Proof.
  intros PD FU NE FS TF TP N1 N2 SL C Y.
  assert (BF : bare_form t) by exact (tame_form_bare d t TF).
  assert (B1 : bare_form (FormTy n1 (pre ++ f :: post))).
  { constructor. intros g I. apply in_app_or in I. destruct I as [I|[<-|I]]; [apply tame_bare with d; auto|now apply flat_bare with t|apply tame_bare with d; auto]. }
  assert (B2 : bare_form (FormTy n2 (pre ++ ft_fields t ++ post))).
  { constructor. intros g I. apply in_app_or in I. destruct I as [I|I]; [apply tame_bare with d; auto|]. apply in_app_or in I. destruct I as [I|I]; [apply tame_bare with d; now apply TF|apply tame_bare with d; auto]. }
  destruct (C38_collect_lem W fuel d a f t pre post n1 n2 id1 id2 s _ PD FU NE FS TF TP N1 N2 SL C Y) as (XC & _).
  destruct (C40_lem W fuel a id1 _ _ [] false UIgnore s PD N1 B1 bu_ignore C) as (_ & R1 & _). destruct (R1 _ _ XC) as [es1 XR].
  destruct (C40_lem W fuel a id2 _ _ [] false UIgnore s PD N2 B2 bu_ignore C) as (_ & R2 & _). destruct (R2 _ _ Y) as [es2 YR].
  eauto.
Qed.
