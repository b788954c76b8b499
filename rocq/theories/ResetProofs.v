(** * ResetProofs: C47 where unmapped keys are captured and fields are reset. *)
From Coq Require Import Lia Permutation.
From Verif Require Import PyBase PyStr Source Field Context Fields SpecSrc SpecJson Eval Refine Regime CfgRegime Balance SpecTame TameProofs AgainProofs TwiceProofs FlatProofs ModeProofs StopProofs SpecReset.

Lemma replace_other {A} i j (x : A) l : i <> j -> nth_error (replace_nth i x l) j = nth_error l j.
Proof.
  revert j l. induction i as [|i IH]; intros j [|a l] N; rewrite ?replace_nil; try reflexivity.
  - destruct j; [lia|reflexivity].
  - rewrite replace_cons. destruct j; [reflexivity|]. cbn [nth_error]. apply IH. lia.
Qed.
Lemma map_capture_reset W root Loc src d fuel o o' id t l tags (h : heap) :
  regime (w_env W) src root Loc -> (forall v w, psource_parse (w_env W) src TyStr v = Ok w -> exists s, w = VStr s) ->
  ou_igd o' = ou_igd o -> ou_igm o' = ou_igm o -> ou_tags o' = ou_tags o -> tame_form d t -> nth_error h id = Some (t, l) ->
  let x := ev_map W fuel o src root id tags true UCapture Collect h in
  let y := ev_map W fuel o' src root id tags true UCapture Collect (snd x) in
  same_report (fst x) (fst y) /\ reordered id (snd x) (snd y) /\ exists l2, nth_error (snd x) id = Some (t, l2).
Proof.
  intros RG STR A B C D H. cbv zeta. unfold ev_map. rewrite C. set (tags' := match tags with [] => ou_tags o | _ => tags end).
  destruct (capture_form_alike W root Loc src RG STR d fuel o o' id tags' t A B D) as (F & FA & _ & FR).
  specialize (FR l). cbv zeta in FR. set (l1 := dropped tags' (ft_fields t) l) in *.
  rewrite H, (ev_reset_is id tags' (ft_fields t) [] h t l H). fold l1.
  destruct (FA _ l1 (replace_hit _ _ _ _ H)) as [F1 _]. rewrite F1, replace_twice.
  set (h2 := replace_nth id (t, snd (F l1)) h : heap).
  assert (H2 : nth_error h2 id = Some (t, snd (F l1))) by (eapply replace_hit; eauto).
  set (l2 := dropped tags' (ft_fields t) (snd (F l1))) in *.
  destruct (FA (replace_nth id (t, l2) h2) l2 (replace_hit _ _ _ _ H2)) as [_ F2]. rewrite replace_twice in F2.
  destruct FR as [FR FP]. rewrite FR in F2.
  assert (RO : reordered id h2 (replace_nth id (t, snd (F l2)) h2)).
  { split; [|intros j N; apply replace_other; auto]. exists t, (snd (F l1)), (snd (F l2)). split; [exact H2|]. split; [eapply replace_hit; eauto|exact FP]. }
  destruct (fst (fst (F l1))) as [[]|e]; cbn [fst snd]; change (replace_nth id (t, snd (F l1)) h) with h2;
    rewrite H2, (ev_reset_is id tags' (ft_fields t) [] h2 t _ H2); fold l2; unfold heap in *; rewrite F2; cbn [fst snd same_report].
  - split; [now rewrite !said_put|]. split; [exact RO|eauto].
  - split; [reflexivity|]. split; [exact RO|eauto].
Qed.
Lemma form_capture_reset W src root Loc d fuel id t l tags s :
  psource_root src = Ok root -> regime (w_env W) src root Loc ->
  (forall v w, psource_parse (w_env W) src TyStr v = Ok w -> exists s, w = VStr s) ->
  nth_error (forms s) id = Some (t, l) -> tame_form d t -> mapping_context s ->
  let x := Form_map W fuel id (ASrc (SBase (BPlain src))) tags true UCapture Collect s in
  let y := Form_map W fuel id (ASrc (SBase (BPlain src))) tags true UCapture Collect (snd x) in
  same_report (fst x) (fst y) /\ reordered id (forms (snd x)) (forms (snd y)).
Proof.
  intros HR RG STR T D (C1 & C2 & C3). cbv zeta.
  destruct (map_refines W fuel src root Loc id t l tags true UCapture Collect s HR RG T (tame_form_direct _ _ D) du_capture C1 C2 C3) as (A1 & A2 & A3 & _).
  set (x := Form_map W fuel id (ASrc (SBase (BPlain src))) tags true UCapture Collect s) in *.
  assert (OO : outer_of (snd x) = Outer (length (paths (snd x))) (ou_igd (outer_of s)) (ou_igm (outer_of s)) (ou_tags (outer_of s)) (ou_form (outer_of s)) (ou_field (outer_of s))).
  { unfold outer_of. now rewrite A3. }
  destruct (map_capture_reset W root Loc src d fuel (outer_of s) (outer_of (snd x)) id t l tags (forms s)) as (M1 & M2 & l2 & M3); auto; try (now rewrite OO).
  rewrite <- A2 in M1, M2, M3.
  rewrite <- A3 in C1, C2, C3.
  destruct (map_refines W fuel src root Loc id t l2 tags true UCapture Collect (snd x) HR RG M3 (tame_form_direct _ _ D) du_capture C1 C2 C3) as (B1 & B2 & _).
  rewrite B1, B2, A1. auto.
Qed.
Lemma C47_reset_capture_lem W fuel d a id t l tags s :
  plain_data W a -> nth_error (forms s) id = Some (t, l) -> tame_form d t -> mapping_context s ->
  let again := Form_map W fuel id a tags true UCapture Collect in
  let x := again s in
  let y := again (snd x) in
  same_report (fst x) (fst y) /\ reordered id (forms (snd x)) (forms (snd y)).
Proof.
  intros PD T D C. cbv zeta. destruct PD as [dc st lc J|P dc lc PN Pd|cfg sec dd lc G|P items PN Pd].
  - exact (form_capture_reset W (SJson dc st lc) dc _ d fuel id t l tags s eq_refl (json_regime _ _ _ _ J) (json_strings _ _ _ _) T D C).
  - exact (form_capture_reset W (SDefault dc [] [] lc) dc _ d fuel id t l tags s eq_refl (native_regime _ _ _ _ PN Pd) (native_strings _ _ _ _ _) T D C).
  - destruct (config_begins cfg sec dd lc G) as [R L].
    exact (form_capture_reset W (SConfig cfg sec dd lc) _ _ d fuel id t l tags s R (config_regime _ _ _ _ _ _ L) (config_strings _ _ _ _ _) T D C).
  - exact (form_capture_reset W (SDefault (VDict items) [] [] None) (VDict items) _ d fuel id t l tags s eq_refl (native_regime _ _ _ _ PN Pd) (native_strings _ _ _ _ _) T D C).
Qed.

(** *** Where errors are raised, what ends well has reported nothing *)
Definition okq {A} (e : Ev A) : Prop := forall s a s2, e s = (Ok a, s2) -> fst s2 = fst s.
Lemma okq_ret {A} (a : A) : okq (eret a). Proof. intros s b s2 [= _ <-]. reflexivity. Qed.
Lemma okq_raise {A} e : okq (@eraise A e). Proof. intros s b s2 [=]. Qed.
Lemma okq_lift {A} (x : res A) : okq (elift x). Proof. intros s b s2. unfold elift. intros [= _ <-]. reflexivity. Qed.
Lemma okq_bind {A B} (m : Ev A) (k : A -> Ev B) : okq m -> (forall a, okq (k a)) -> okq (ebind m k).
Proof.
  intros H K s b s2 Q. apply bind_ok in Q. destruct Q as (a & s1 & Q1 & Q2). rewrite (K a _ _ _ Q2). exact (H _ _ _ Q1).
Qed.
Lemma okq_if {A} (b : bool) (x y : Ev A) : okq x -> okq y -> okq (if b then x else y).
Proof. now destruct b. Qed.
Lemma okq_never {A} (e : Ev A) : (forall s, exists x s2, e s = (Exn x, s2)) -> okq e.
Proof. intros H s a s2 Q. destruct (H s) as (x & s3 & X). congruence. Qed.
Section Quiet.
Variable W : world.
Lemma report_never r kd : r_mode r = Raise -> forall s, exists x s2, ev_report W r kd s = (Exn x, s2).
Proof.
  intros M [es h]. unfold ev_report. rewrite M. destruct (r_field r) as [n|e]; [|eauto]. destruct (pkeys_str _ _ _); eauto.
Qed.
Lemma okq_report r kd : r_mode r = Raise -> okq (ev_report W r kd).
Proof. intros M. apply okq_never. now apply report_never. Qed.
Lemma invalid_never r x : r_mode r = Raise -> forall s, exists e s2, ev_invalid W r x s = (Exn e, s2).
Proof. intros M s. unfold ev_invalid, ebind. destruct (report_never r (Invalid x) M s) as (e & s2 & ->). eauto. Qed.
Lemma okq_invalid r x : r_mode r = Raise -> okq (ev_invalid W r x).
Proof. intros M. apply okq_never. now apply invalid_never. Qed.
Lemma okq_missing r : r_mode r = Raise -> okq (ev_missing W r).
Proof. intros M. apply okq_bind; [apply okq_if; [apply okq_ret|now apply okq_report]|intros; apply okq_ret]. Qed.
Lemma okq_on {A} r (g : val -> res A) : okq (on_val r g).
Proof. unfold on_val. apply okq_lift. Qed.
Lemma okq_default r f : r_mode r = Raise -> tame_opts (f_opts f) -> okq (ev_default W r f).
Proof.
  intros M TO. unfold ev_default. apply okq_if; [now apply okq_missing|]. pose proof (to_default _ TO) as D.
  destruct (o_default (f_opts f)) as [[h|]|v|q]; try contradiction; [now apply okq_missing|].
  destruct v; try apply okq_ret. match goal with c : const |- _ => destruct c; try apply okq_ret end. now apply okq_missing.
Qed.
Lemma okq_validate r f v : r_mode r = Raise -> okq (ev_validate W r f v).
Proof.
  intros M s a s2. unfold ev_validate. destruct (field_violation _ _ _ _) as [[x|]|e]; [|now intros [= _ <-]|discriminate].
  apply okq_bind; [now apply okq_report|intros; apply okq_ret].
Qed.
Lemma okq_after r f v : r_mode r = Raise -> tame_opts (f_opts f) -> okq (ev_after W r f v).
Proof.
  intros M TO. unfold ev_after. rewrite (to_munge _ TO), (to_filter _ TO), (to_validate _ TO). unfold ev_hook_or.
  apply okq_bind; [unfold ev_translate; destruct (o_translations (f_opts f)); [apply okq_ret|apply okq_if; [apply okq_ret|apply okq_raise]]|intros w].
  apply okq_bind; [apply okq_if; apply okq_ret|intros w2].
  apply okq_if; [now apply okq_default|]. apply okq_if; [apply okq_ret|]. apply okq_if; [now apply okq_default|].
  apply okq_bind; [apply okq_ret|intros b]. apply okq_if; [now apply okq_default|].
  apply okq_bind; [now apply okq_validate|intros b2]. apply okq_if; [apply okq_ret|].
  apply okq_bind; intros; apply okq_ret.
Qed.
Section Knot.
Variables (rec : rd -> field -> val -> Ev val) (Sub : field -> Prop).
Hypothesis REC : forall r f v, Sub f -> r_mode r = Raise -> okq (rec r f v).
Lemma okq_list r f : Sub f -> r_mode r = Raise -> forall n i acc, okq (ev_list W rec r i n f acc).
Proof. intros D M. induction n as [|n IH]; intros i acc; cbn [ev_list]; [apply okq_ret|]. apply okq_bind; [now apply REC|intros; apply IH]. Qed.
Lemma okq_tuple r : r_mode r = Raise -> forall fs i acc, (forall f, In f fs -> Sub f) -> okq (ev_tuple W rec r i fs acc).
Proof.
  intros M. induction fs as [|f fs IH]; intros i acc D; cbn [ev_tuple]; [apply okq_ret|].
  apply okq_bind; [apply REC; auto; apply D; now left|intros; apply IH]. intros g I. apply D. now right.
Qed.
Lemma okq_accept r keyf k : keyf = None \/ (exists id, keyf = Some (not_in_form id)) -> okq (ev_accept W r keyf k).
Proof.
  intros [->|(id & ->)]; unfold ev_accept, ev_hook_or; [apply okq_ret|]. apply okq_bind; [|intros; apply okq_ret].
  unfold ev_hook, not_in_form. cbn [hk_attached hk_fun]. apply okq_bind; [apply okq_ret|intros t]. cbn [ev_prog].
  intros [es h] a s2. unfold ecatch, ev_item, ebind, ev_entries, eraise, eret.
  destruct (hashable k); [destruct (dict_get _ k)|]; cbn [ev_prog]; repeat match goal with |- context [match ?x with _ => _ end] => destruct x end; cbn; now intros [= _ <-].
Qed.
Lemma okq_dict r keyf kf vf : keyf = None \/ (exists id, keyf = Some (not_in_form id)) -> Sub kf -> Sub vf -> r_mode r = Raise ->
  forall l acc, okq (ev_dict W rec r keyf kf vf l acc).
Proof.
  intros K Dk Dv M. induction l as [|k l IH]; intros acc; cbn [ev_dict]; [apply okq_ret|].
  apply okq_bind; [now apply okq_accept|intros b]. apply okq_if; [apply IH|].
  apply okq_bind; [now apply REC|intros v]. apply okq_if; [apply IH|].
  apply okq_bind; [now apply REC|intros k']. apply okq_if; [apply IH|]. apply okq_if; [apply IH|apply okq_raise].
Qed.
Lemma okq_group r g : (forall m f, In (m, f) g -> Sub f) -> r_mode r = Raise -> forall l n acc, okq (ev_group W rec r g l n acc).
Proof.
  intros D M. induction l as [|k l IH]; intros n acc; cbn [ev_group]; [apply okq_ret|].
  intros s a s2 Q. apply bind_ok in Q. destruct Q as (x & s1 & Q1 & Q2). unfold elift in Q1. injection Q1 as Q1 <-.
  destruct x as [[f c]|]; [|exact (IH _ _ _ _ _ Q2)]. destruct (group_In W g k f c Q1) as (m & Im).
  revert s a s2 Q2. change (okq (v <~ rec (r_at W r (key_of_val k)) f NONEv; ev_group W rec r g l (S n) (if ignored v then acc else acc ++ [VTuple [k; c; v]]))%ev).
  apply okq_bind; [apply REC; eauto|intros; apply IH].
Qed.
Lemma okq_parse r k :
  match k with
  | KTuple fs => forall g, In g fs -> Sub g
  | KList g _ _ _ => Sub g
  | KDict kf vf keyf _ _ => Sub kf /\ Sub vf /\ (keyf = None \/ exists id, keyf = Some (not_in_form id))
  | KGroup l => forall m g, In (m, g) l -> Sub g
  | KSubForm _ _ _ | KPoly _ _ _ _ _ => False
  | _ => True
  end -> r_mode r = Raise -> okq (ev_parse W rec r k).
Proof.
  intros D M. pose proof (okq_invalid r) as INV.
  assert (PR : forall t, okq (ev_primitive W r t)) by (intros; apply okq_on).
  assert (NS : forall v, okq (ev_need_str v)) by (intros []; try apply okq_raise; apply okq_ret).
  destruct k; cbn [ev_parse]; try contradiction; try apply PR.
  - unfold ev_decimal. apply okq_bind; [apply okq_on|intros v].
    assert (X : okq (match dec_of_number v with Some d => eret (VDec d) | None =>
       w <~ ev_primitive W r TyStr; match w with VStr s => match e_dec (w_env W) s with Some d => eret (VDec d) | None => eraise EDecimal end
         | VDec _ => eret w | _ => match dec_of_number w with Some d => eret (VDec d) | None => eraise (EType "Cannot convert to Decimal") end end end)%ev).
    { destruct (dec_of_number v); [apply okq_ret|]. apply okq_bind; [apply PR|intros w].
      destruct w; try apply okq_ret; cbn [dec_of_number];
      match goal with
      | |- okq (match ?x with Some _ => _ | None => _ end) => destruct x; [apply okq_ret|apply okq_raise]
      | _ => try apply okq_ret; apply okq_raise
      end. }
    destruct v; try exact X. apply okq_ret.
  - unfold ev_date. apply okq_bind; [apply okq_on|intros v].
    destruct v; try apply okq_ret; (apply okq_bind; [apply PR|intros w]; match goal with |- okq (match ?f with [] => _ | _ => _ end) => destruct f end; [now apply INV|];
      apply okq_bind; [apply NS|intros; apply okq_ret]).
  - unfold ev_time. apply okq_bind; [apply okq_on|intros v].
    destruct v; try apply okq_ret; (apply okq_bind; [apply PR|intros w]; match goal with |- okq (match ?f with Some _ => _ | _ => _ end) => destruct f as [fm|] end; [|now apply INV];
      apply okq_bind; [apply NS|intros s0; destruct (e_strptime_time (w_env W) s0 fm); [apply okq_ret|apply okq_raise]]).
  - unfold ev_datetime. apply okq_bind; [apply okq_on|intros v].
    destruct v; try apply okq_ret; (apply okq_bind; [apply PR|intros w]; match goal with |- okq (match ?f with Some _ => _ | _ => _ end) => destruct f as [fm|] end; [|now apply INV];
      apply okq_bind; [apply NS|intros s0]; apply okq_if;
      [destruct (e_iso (w_env W) s0); [apply okq_ret|now apply INV]|destruct (e_strp (w_env W) s0 fm); [apply okq_ret|apply okq_raise]]).
  - apply okq_bind; [apply okq_on|intros n]. apply okq_if; [|now apply INV]. apply okq_bind; [now apply okq_tuple|intros; apply okq_ret].
  - intros s a s2 Q. apply catch_ok in Q. destruct Q as (x & s1 & Q1 & Q2).
    assert (s1 = s) as -> by (unfold ev_sequence, on_val, elift in Q1; now injection Q1).
    destruct x as [n|e].
    + revert Q2. apply okq_bind; [now apply okq_list|intros; apply okq_ret].
    + destruct e; try discriminate. match type of Q2 with (if ?b then _ else _) _ = _ => destruct b; try discriminate end.
      revert Q2. apply okq_bind; [now apply REC|intros; apply okq_ret].
  - destruct D as (Dk & Dv & K). apply okq_bind; [apply okq_on|intros vw]. apply okq_bind; [apply okq_lift|intros l].
    apply okq_bind; [now apply okq_dict|intros; apply okq_ret].
  - unfold ev_code. apply okq_bind; [apply PR|intros v]. destruct v; try apply okq_ret. apply okq_if.
    + destruct (e_compile (w_env W) s); [apply okq_ret|now apply INV].
    + destruct (e_import (w_env W) s) as [[m|e]|]; [apply okq_ret|now apply INV|now apply INV].
  - unfold ev_uuid. cbv zeta. apply okq_bind; [apply PR|intros v].
    assert (X : okq (w <~ ev_primitive W r TyStr; match w with VStr s => match e_uuid (w_env W) s with Some u => eret u | None => eraise (EValue "badly formed hexadecimal UUID string") end | _ => eraise (EAttr "no attribute 'replace'") end)%ev).
    { apply okq_bind; [apply PR|intros w]. destruct w; try apply okq_raise. destruct (e_uuid (w_env W) s); [apply okq_ret|apply okq_raise]. }
    destruct v; try exact X. apply okq_if; [apply okq_ret|exact X].
  - apply okq_bind; [apply okq_on|intros vw]. apply okq_bind; [apply okq_lift|intros ks]. now apply okq_group.
Qed.
Lemma okq_body r f v : tame_opts (f_opts f) ->
  match f_kind f with
  | KTuple fs => forall g, In g fs -> Sub g
  | KList g _ _ _ => Sub g
  | KDict kf vf keyf _ _ => Sub kf /\ Sub vf /\ (keyf = None \/ exists id, keyf = Some (not_in_form id))
  | KGroup l => forall m g, In (m, g) l -> Sub g
  | KSubForm _ _ _ | KPoly _ _ _ _ _ => False
  | _ => True
  end -> r_mode r = Raise -> okq (ev_field_body W rec r f v).
Proof.
  intros TO D M. unfold ev_field_body, ev_where. rewrite (to_resolve _ TO), (to_attach _ TO). cbn [andb].
  apply okq_bind; [apply okq_if; apply okq_ret|intros k]. apply okq_bind; [|intros w; apply okq_bind; intros; apply okq_ret].
  set (q := match k with Some k => r_at W (r_for r f) k | None => r_for r f end).
  assert (Mq : r_mode q = Raise) by (unfold q; destruct k; exact M). clearbody q.
  unfold ev_body. rewrite (to_compute _ TO). apply okq_if; [|now apply okq_after].
  apply okq_bind.
  - unfold ev_compute. apply okq_bind; [apply okq_on|intros b]. apply okq_if; [apply okq_ret|]. apply okq_bind; [apply okq_on|intros b2].
    apply okq_if; [apply okq_ret|]. rewrite (to_parse _ TO).
    intros s a s2 Q. apply catch_ok in Q. destruct Q as (x & s1 & Q1 & Q2). destruct x as [y|e].
    + injection Q2 as _ <-. exact (okq_parse q (f_kind f) D Mq _ _ _ Q1).
    + destruct (caught_by_compute e); [|discriminate]. destruct (invalid_never q (VioExn (spoken e)) Mq s1) as (e' & s3 & X). congruence.
  - intros w. apply okq_if; [|apply okq_if; [apply okq_ret|now apply okq_after]].
    pose proof (to_default _ TO) as DD. destruct (o_default (f_opts f)) as [[h|]|y|y] eqn:OD; try contradiction; now apply okq_default.
Qed.
End Knot.
Lemma okq_field n : forall d r f v, tame d f -> r_mode r = Raise -> okq (ev_field W n r f v).
Proof.
  induction n as [|n IH]; intros d r f v D M; cbn [ev_field]; [apply okq_raise|].
  destruct d as [|d]; [contradiction|]. destruct D as [TO D].
  apply (okq_body _ (tame d)); auto; [intros; eapply IH; eauto|].
  destruct (f_kind f); auto. destruct D as (D1 & D2 & ->). auto.
Qed.
Lemma okq_capture n r id v : r_mode r = Raise -> okq (ev_field W n r (unmapped_dict id plain_string plain_field) v).
Proof.
  intros M. destruct n as [|n]; cbn [ev_field]; [apply okq_raise|].
  apply (okq_body _ (tame 1)); auto; [intros; eapply okq_field; eauto| |].
  - split; cbn; try reflexivity; easy.
  - cbn. split; [|split]; [split; [split; cbn; try reflexivity; easy|exact I]|split; [split; cbn; try reflexivity; easy|exact I]|right; eauto].
Qed.
End Quiet.
(** *** Capturing twice, where errors are raised *)
Definition calm_p {A} (P : heap -> Prop) (e e' : Ev A) : Prop :=
  forall es es' h h', P h -> P h' -> map untied es' = map untied es -> exists o o' new new',
    e (es, h) = (o, (new, h)) /\ e' (es', h') = (o', (new', h')) /\ alike Raise o o' /\ map untied new' = map untied new.
Lemma calm_p_of {A} P p p' (e e' : Ev A) : calm Raise p p' e e' -> calm_p P e e'.
Proof. intros H es es' h h' _ _ U. exact (H es es' h h' U). Qed.
Lemma calm_p_bind {A B} P (m m' : Ev A) (k k' : A -> Ev B) : calm_p P m m' ->
  (forall a, (exists es h es2, m (es, h) = (Ok a, (es2, h))) -> calm_p P (k a) (k' a)) -> calm_p P (ebind m k) (ebind m' k').
Proof.
  intros H K es es' h h' Ph Ph' U. destruct (H es es' h h' Ph Ph' U) as (o & o' & new & new' & Q & Q' & L & U1).
  unfold ebind. rewrite Q, Q'. destruct o as [a|e], o' as [a'|e']; cbn in L; try contradiction.
  - subst a'. apply (K a); eauto.
  - do 4 eexists. split; [reflexivity|]. split; [reflexivity|]. split; [exact L|exact U1].
Qed.
Lemma calm_p_catch {A B} P (m m' : Ev A) (k k' : res A -> Ev B) : calm_p P m m' ->
  (forall a a', alike Raise a a' -> (exists es h es2, m (es, h) = (a, (es2, h))) -> calm_p P (k a) (k' a')) -> calm_p P (ecatch m k) (ecatch m' k').
Proof.
  intros H K es es' h h' Ph Ph' U. destruct (H es es' h h' Ph Ph' U) as (o & o' & new & new' & Q & Q' & L & U1).
  unfold ecatch. rewrite Q, Q'. apply (K o o'); eauto.
Qed.
Lemma calm_p_if {A} P (b : bool) (x x' y y' : Ev A) : calm_p P x x' -> calm_p P y y' -> calm_p P (if b then x else y) (if b then x' else y').
Proof. now destruct b. Qed.
Lemma calm_p_ret {A} P (a : A) : calm_p P (eret a) (eret a).
Proof. apply (calm_p_of P 0 0). apply calm_ret. Qed.

Section CaptureRaise.
Variables (W : world) (root : val) (Loc : val -> Prop) (src : psource).
Hypothesis RG : regime (w_env W) src root Loc.
Hypothesis STR : forall v w, psource_parse (w_env W) src TyStr v = Ok w -> exists s, w = VStr s.
Variables (id : nat) (U : list (val * val)).
Definition holds (h : heap) : Prop := exists t, nth_error h id = Some (t, U).
Lemma dict_calm n r r' : twin Raise Loc src r r' -> TameProofs.ready W src r -> forall ks acc, TameProofs.fine_keys W src r ks ->
  calm_p holds (ev_dict W (ev_field W n) r (Some (not_in_form id)) plain_string plain_field ks acc)
               (ev_dict W (ev_field W n) r' (Some (not_in_form id)) plain_string plain_field ks acc).
Proof.
  intros T R. induction ks as [|k ks IH]; intros acc FK; cbn [ev_dict]; [apply calm_p_ret|].
  assert (FK' : TameProofs.fine_keys W src r ks) by (intros x I; apply FK; now right).
  destruct (FK k (or_introl eq_refl)) as [F Rk]. change (fair k) in F.
  apply calm_p_bind.
  { intros es es' h h' (t & P) (t' & P') Un. rewrite (accept_is W id r k es h t U F P), (accept_is W id r' k es' h' t' U F P').
    do 4 eexists. split; [reflexivity|]. split; [reflexivity|]. split; [reflexivity|exact Un]. }
  intros b _. apply calm_p_if; [now apply IH|].
  apply calm_p_bind.
  { apply (calm_p_of holds (r_pid (r_at W r (key_of_val k))) (r_pid (r_at W r' (key_of_val k)))).
    apply (calm_field Raise W root Loc src RG STR 1); auto; [apply tame_plain_field| |discriminate]. eapply twin_at; eauto. }
  intros v _. apply calm_p_if; [now apply IH|].
  apply calm_p_bind.
  { apply (calm_p_of holds (r_pid r) (r_pid r')). destruct n as [|n]; [apply calm_raise|].
    apply calm_ext with (d := eret k) (d' := eret k); [intros [es h]; now apply plain_key_kept|intros [es h]; now apply plain_key_kept|apply calm_ret]. }
  intros k' _. apply calm_p_if; [now apply IH|]. apply calm_p_if; [now apply IH|].
  apply (calm_p_of holds 0 0). apply calm_raise.
Qed.

Lemma capture_step n p es (h : heap) : r_val p = Ok root ->
  let f := unmapped_dict id plain_string plain_field in
  ev_field W (S n) p f NONEv (es, h) =
    (v <~ (if is_None root then eret VNone
           else ecatch (ev_parse W (ev_field W n) (r_for p f) (f_kind f)) (fun x => match x with Ok v => eret v | Exn e => failed W (r_for p f) e end));
     if is_NONE v then ev_default W (r_for p f) f else if ignored v then eret v else ev_after W (r_for p f) f v)%ev (es, h).
Proof.
  intros Vp f. assert (NN : is_NONE root = false) by apply (rg_some _ _ _ _ RG _ (rg_root _ _ _ _ RG)).
  cbn [ev_field]. unfold ev_field_body, ev_where. change (f_opts f) with (@no_opts).
  cbn [no_opts o_resolve o_src o_attach_parent is_NONE NONEv andb].
  assert (K : match f_kind f with KGroup _ => None | _ => @None key end = None) by (destruct (f_kind f); reflexivity).
  unfold ebind at 1. unfold eret at 1. rewrite K. unfold ev_body. change (f_opts f) with (@no_opts).
  cbn [no_opts o_compute o_default is_NONE NONEv].
  unfold ev_compute. change (f_opts f) with (@no_opts). cbn [no_opts o_parse].
  unfold ev_exists, ev_null, on_val. change (r_val (r_for p f)) with (r_val p). rewrite Vp.
  unfold elift, ebind. rewrite NN. cbn [negb]. destruct (is_None root).
  - unfold eret. cbn [is_NONE ignored].
    match goal with |- context [ev_after ?a ?b ?c ?d ?g] => destruct (ev_after a b c d g) as [[w|e] [es2 h2]]; reflexivity end.
  - unfold failed. match goal with |- context [ecatch ?a ?b ?c] => destruct (ecatch a b c) as [[v|e] [es1 h1]] end; [|reflexivity].
    destruct (is_NONE v); [|destruct (ignored v); [reflexivity|]].
    + match goal with |- context [ev_default ?a ?b ?c ?d] => destruct (ev_default a b c d) as [[w|e] [es2 h2]]; reflexivity end.
    + match goal with |- context [ev_after ?a ?b ?c ?d ?g] => destruct (ev_after a b c d g) as [[w|e] [es2 h2]]; reflexivity end.
Qed.
Lemma capture_calm fuel r r' : twin Raise Loc src r r' -> r_val r = Ok root -> TameProofs.ready W src r ->
  calm_p holds (ev_field W fuel r (unmapped_dict id plain_string plain_field) NONEv)
               (ev_field W fuel r' (unmapped_dict id plain_string plain_field) NONEv).
Proof.
  intros T V R. destruct fuel as [|n]; [apply (calm_p_of holds 0 0); apply calm_raise|].
  set (f := unmapped_dict id plain_string plain_field).
  assert (TF : twin_f Raise Loc src (r_for r f) (r_for r' f)) by now apply twin_for.
  assert (V' : r_val r' = Ok root) by (rewrite (tw_val _ _ _ _ _ T); exact V).
  assert (TO : tame_opts (f_opts f)) by (split; cbn; try reflexivity; easy).
  assert (X : calm_p holds
    (v <~ (if is_None root then eret VNone
           else ecatch (ev_parse W (ev_field W n) (r_for r f) (f_kind f)) (fun x => match x with Ok v => eret v | Exn e => failed W (r_for r f) e end));
     if is_NONE v then ev_default W (r_for r f) f else if ignored v then eret v else ev_after W (r_for r f) f v)%ev
    (v <~ (if is_None root then eret VNone
           else ecatch (ev_parse W (ev_field W n) (r_for r' f) (f_kind f)) (fun x => match x with Ok v => eret v | Exn e => failed W (r_for r' f) e end));
     if is_NONE v then ev_default W (r_for r' f) f else if ignored v then eret v else ev_after W (r_for r' f) f v)%ev).
  { apply calm_p_bind.
    - apply calm_p_if; [apply calm_p_ret|]. apply calm_p_catch.
      + cbn [f unmapped_dict f_kind ev_parse]. apply calm_p_bind.
        { apply (calm_p_of holds (r_pid r) (r_pid r')). exact (calm_mapping Raise W Loc src _ _ TF). }
        intros vw (es & h & es2 & Hw). assert (MW : psource_mapping (w_env W) no_ents src (length (r_keys r)) root = Ok vw).
        { unfold ev_mapping, on_val, elift in Hw. change (r_val (r_for r f)) with (r_val r) in Hw. rewrite V in Hw.
          change (r_src (r_for r f)) with (r_src r) in Hw. rewrite (tw_src _ _ _ _ _ T) in Hw. now injection Hw. }
        apply calm_p_bind; [apply (calm_p_of holds 0 0); apply calm_lift|]. intros ks (es0 & h0 & es3 & Hl). unfold elift in Hl. injection Hl as -> _.
        apply calm_p_bind; [|intros; apply calm_p_ret].
        apply dict_calm; [exact (proj1 TF)|exact R|].
        eapply (loc_map W root Loc src RG); [|exact MW]. split; [apply (tw_src _ _ _ _ _ T)|]. split; [exact V|apply (rg_root _ _ _ _ RG)].
      + intros [w|e] [w'|e'] L' _; cbn in L'; try contradiction; [subst; apply calm_p_ret|].
        assert (CC : caught_by_compute e' = caught_by_compute e) by (destruct e, e'; try discriminate; reflexivity).
        unfold failed. rewrite CC, L'. apply (calm_p_of holds (r_pid (r_for r f)) (r_pid (r_for r' f))).
        apply calm_if; [eapply calm_invalid; eauto|now apply calm_fail].
    - intros v Hv. assert (ND : ignored v = false -> no_form v).
      { destruct Hv as (es & h & es2 & Hv). destruct (is_None root); [injection Hv as <- _; intros _ i [=]|].
        apply catch_ok in Hv. destruct Hv as ([a|e] & s1 & Hp & Hv).
        - injection Hv as <- _. cbn [f unmapped_dict f_kind ev_parse] in Hp.
          apply bind_ok in Hp. destruct Hp as (vw & s2 & _ & Hp). apply bind_ok in Hp. destruct Hp as (l & s3 & _ & Hp).
          apply bind_ok in Hp. destruct Hp as (d & s4 & _ & Hp). injection Hp as <- _. intros _ i [=].
        - unfold failed in Hv. destruct (caught_by_compute e); [|discriminate]. apply invalid_value in Hv. subst. discriminate. }
      apply calm_p_if; [apply (calm_p_of holds (r_pid (r_for r f)) (r_pid (r_for r' f))); eapply calm_default; eauto|].
      destruct (ignored v); [apply calm_p_ret|].
      apply (calm_p_of holds (r_pid (r_for r f)) (r_pid (r_for r' f))). eapply calm_after; eauto. }
  intros es es' h h' P P' Un. unfold f. rewrite !capture_step by assumption. exact (X es es' h h' P P' Un).
Qed.
End CaptureRaise.
Lemma okq_set id k v : okq (ev_set id k v).
Proof.
  intros [es h] a s2. unfold ev_set, ebind, ev_entries, ev_set_entries. cbn [snd fst]. destruct (nth_error h id) as [[t l]|]; now intros [= _ <-].
Qed.
Lemma okq_fields W n d r id tags fs : (forall f, In f fs -> tame d f) -> r_mode r = Raise -> okq (ev_fields (ev_field W n) r id tags fs).
Proof.
  intros D M. induction fs as [|f fs IH]; cbn [ev_fields]; [apply okq_ret|].
  apply okq_bind; [|intros; apply IH; intros g I; apply D; now right].
  apply okq_if; [|apply okq_ret]. apply okq_bind; [eapply okq_field; eauto; apply D; now left|intros v].
  apply okq_if; [apply okq_ret|apply okq_set].
Qed.
Definition finish (id : nat) (v : val) : Ev unit :=
  match v with
  | VNone => eret tt | VDict d => (l <~ ev_entries id; ev_set_entries id (dict_update l d))%ev
  | _ => eraise (EType "not iterable") end.
Lemma capture_start W n r id tags t src root (h : heap) l vw :
  r_val r = Ok root -> r_src r = src -> length (r_keys r) = 0%nat -> psource_mapping (w_env W) no_ents src 0 root = Ok vw ->
  nth_error h id = Some (t, l) ->
  ev_form_map W (ev_field W n) r id tags UCapture ([], h) =
  (ev_fields (ev_field W n) (r_inform r id) id tags (ft_fields t);;;
   v <~ ev_field W n r (unmapped_dict id plain_string plain_field) NONEv; finish id v)%ev ([], h).
Proof.
  intros V S K M H. unfold ev_form_map, ebind, ev_mapping, on_val, elift. rewrite V, S, K, M.
  unfold ev_type. cbn [snd]. rewrite H. destruct (ev_fields _ _ _ _ _ _) as [[u|e] s1]; [|reflexivity].
  unfold ev_unmapped, ebind. destruct (ev_field W n r _ _ s1) as [[v|e] s2]; [|reflexivity]. destruct v; reflexivity.
Qed.
Lemma map_capture_fails W root Loc src d fuel o o' id t l tags rs (h : heap) e :
  regime (w_env W) src root Loc -> (forall v w, psource_parse (w_env W) src TyStr v = Ok w -> exists s, w = VStr s) ->
  ou_igd o' = ou_igd o -> ou_igm o' = ou_igm o -> ou_tags o' = ou_tags o -> tame_form d t -> nth_error h id = Some (t, l) ->
  let x := ev_map W fuel o src root id tags rs UCapture Raise h in
  let y := ev_map W fuel o' src root id tags rs UCapture Raise (snd x) in
  fst x = Exn e -> (exists e', fst y = Exn e' /\ spoken e' = spoken e) /\ snd y = snd x /\ exists l2, nth_error (snd x) id = Some (t, l2).
Proof.
  intros RG STR A B C D H. cbv zeta. unfold ev_map. rewrite C. set (tags' := match tags with [] => ou_tags o | _ => tags end).
  set (l1 := if rs then dropped tags' (ft_fields t) l else l).
  assert (R1 : (if rs then ev_reset id tags' (ft_fields t) else eret tt) ([], h) = (Ok tt, ([], replace_nth id (t, l1) h))).
  { unfold l1. destruct rs; [now apply ev_reset_is|]. unfold eret. now rewrite (replace_id _ _ _ H). }
  rewrite H, R1. set (h1 := replace_nth id (t, l1) h : heap). assert (H1 : nth_error h1 id = Some (t, l1)) by (eapply replace_hit; exact H).
  set (r := r_start o src Raise root). set (r' := r_start o' src Raise root).
  pose proof (start_twin_r W root Loc src RG o o' A B) as T0.
  assert (R0 : TameProofs.ready W src r).
  { intros [= Q]. pose proof (rg_some _ _ _ _ RG _ (rg_root _ _ _ _ RG)) as N. rewrite Q in N. discriminate. }
  assert (T : twin Raise Loc src (r_inform r id) (r_inform r' id)) by (destruct T0; split; auto).
  (* the second run starts from the entries [k] *)
  assert (AGAIN : forall k (h2 : heap), nth_error h2 id = Some (t, k) ->
     let k1 := if rs then dropped tags' (ft_fields t) k else k in
     (if rs then ev_reset id tags' (ft_fields t) else eret tt) ([], h2) = (Ok tt, ([], replace_nth id (t, k1) h2))).
  { intros k h2 H2. cbv zeta. destruct rs; [now apply ev_reset_is|]. unfold eret. now rewrite (replace_id _ _ _ H2). }
  destruct (psource_mapping (w_env W) no_ents src 0 root) as [vw|ex] eqn:M.
  2:{ assert (X : forall q (h0 : heap), ev_form_map W (ev_field W fuel) (r_start q src Raise root) id tags' UCapture ([], h0) = (Exn ex, ([], h0))).
      { intros q h0. unfold ev_form_map, ebind, ev_mapping, on_val, elift. cbn [r_start r_val r_src r_keys length]. now rewrite M. }
      unfold r, r'. rewrite X. cbn [fst snd]. intros [= <-]. rewrite H1, (AGAIN l1 h1 H1), X. cbn [fst snd].
      split; [eauto|]. split; [|eauto]. unfold h1. rewrite replace_twice. destruct rs; [|reflexivity]. unfold l1. now rewrite dropped_twice. }
  rewrite (capture_start W fuel r id tags' t src root h1 l1 vw eq_refl eq_refl eq_refl M H1).
  destruct (fields_alike_r W root Loc src RG STR d fuel fuel (r_inform r id) (r_inform r' id) id tags' (ft_fields t) (or_introl eq_refl) D T R0 [] [] h1 h1 t l1 t l1 eq_refl H1 H1)
    as (S0 & o0 & _ & new0 & _ & NS0 & F0 & _).
  set (h2 := replace_nth id (t, upd l1 S0) h1 : heap) in *.
  assert (H2 : nth_error h2 id = Some (t, upd l1 S0)) by (eapply replace_hit; exact H1).
  set (l2 := if rs then dropped tags' (ft_fields t) (upd l1 S0) else upd l1 S0).
  pose proof (AGAIN (upd l1 S0) h2 H2) as R2. cbv zeta in R2. fold l2 in R2.
  set (h3 := replace_nth id (t, l2) h2 : heap) in *. assert (H3 : nth_error h3 id = Some (t, l2)) by (eapply replace_hit; exact H2).
  destruct (fields_alike_r W root Loc src RG STR d fuel fuel (r_inform r id) (r_inform r' id) id tags' (ft_fields t) (or_introl eq_refl) D T R0 [] [] h1 h3 t l1 t l2 eq_refl H1 H3)
    as (S & x & x' & new & new' & NS & F1 & F2 & L & UN).
  assert (SAME : x = o0 /\ new = new0 /\ upd l1 S = upd l1 S0).
  { rewrite F0 in F1. injection F1 as Q1 Q2 Q3. split; [auto|]. split; [auto|].
    pose proof H2 as Z1. rewrite Q3 in Z1. rewrite (replace_hit _ _ _ _ H1) in Z1. now injection Z1. }
  destruct SAME as (-> & -> & US).
  assert (LL : upd l2 S = upd l1 S0).
  { unfold l2. rewrite <- US. unfold l1. destruct rs; [|apply upd_twice]. rewrite dropped_upd by exact NS. now rewrite dropped_twice. }
  rewrite LL in F2. assert (Z : replace_nth id (t, upd l1 S0) h3 = h2) by (unfold h3; rewrite replace_twice; now apply replace_id).
  rewrite Z in F2.
  assert (G : forall q, r_val q = Ok root -> r_src q = src -> length (r_keys q) = 0%nat ->
    ev_form_map W (ev_field W fuel) q id tags' UCapture ([], h3) =
    (ev_fields (ev_field W fuel) (r_inform q id) id tags' (ft_fields t);;;
     v <~ ev_field W fuel q (unmapped_dict id plain_string plain_field) NONEv; finish id v)%ev ([], h3)).
  { intros q V0 S1 K0. exact (capture_start W fuel q id tags' t src root h3 l2 vw V0 S1 K0 M H3). }
  specialize (G r' eq_refl eq_refl eq_refl).
  unfold heap in *. unfold ebind. rewrite F0.
  destruct o0 as [[]|e0].
  2:{ cbn [fst snd]. intros [= <-]. rewrite H2, R2, G. unfold ebind. rewrite F2. destruct x' as [?|e']; cbn in L; [contradiction|].
      cbn [fst snd]. split; [eauto|]. split; [reflexivity|eauto]. }
  destruct x' as [[]|?]; cbn in L; [|contradiction].
  assert (Q0 : new0 = []) by exact (okq_fields W fuel d (r_inform r id) id tags' (ft_fields t) D eq_refl _ _ _ F0). subst new0.
  destruct new'; [|discriminate].
  assert (HO : holds id (upd l1 S0) h2) by (exists t; exact H2).
  destruct (capture_calm W root Loc src RG STR id (upd l1 S0) fuel r r' T0 eq_refl R0 [] [] h2 h2 HO HO eq_refl) as (o1 & o1' & n1 & n1' & G1 & G2 & GL & GU).
  unfold heap in *. rewrite G1. destruct o1 as [v|e1], o1' as [v'|e1']; cbn in GL; try contradiction.
  - subst v'. assert (n1 = []) by exact (okq_capture W fuel r id NONEv eq_refl _ _ _ G1). subst n1. destruct n1'; [|discriminate].
    assert (FI : (exists h5, finish id v ([], h2) = (Ok tt, ([], h5))) \/ finish id v ([], h2) = (Exn (EType "not iterable"), ([], h2))).
    { destruct v; try (right; reflexivity); left; [eexists; reflexivity|]. unfold finish, ebind, ev_entries, ev_set_entries. cbn [snd fst]. unfold heap in *. rewrite H2. eexists. reflexivity. }
    unfold heap in *. destruct FI as [(h5 & FI)|FI]; rewrite FI; [discriminate|].
    cbn [fst snd]. intros [= <-]. rewrite H2, R2, G. unfold ebind. rewrite F2, G2, FI. cbn [fst snd]. split; [eauto|]. split; [reflexivity|eauto].
  - cbn [fst snd]. intros [= <-]. rewrite H2, R2, G. unfold ebind. rewrite F2, G2. cbn [fst snd]. split; [eauto|]. split; [reflexivity|eauto].
Qed.

Lemma map_reset_raise W root Loc src d fuel o o' id t l tags (h : heap) es :
  regime (w_env W) src root Loc -> (forall v w, psource_parse (w_env W) src TyStr v = Ok w -> exists s, w = VStr s) ->
  ou_igd o' = ou_igd o -> ou_igm o' = ou_igm o -> ou_tags o' = ou_tags o -> tame_form d t -> nth_error h id = Some (t, l) ->
  let x := ev_map W fuel o src root id tags true UCapture Raise h in
  let y := ev_map W fuel o' src root id tags true UCapture Raise (snd x) in
  fst x = Ok es -> es = [] /\ fst y = Ok [] /\ reordered id (snd x) (snd y) /\ exists l2, nth_error (snd x) id = Some (t, l2).
Proof.
  intros RG STR A B C D N. cbv zeta. intros Q.
  destruct (raise_ok W root Loc src fuel o id t l tags true UCapture h es RG (tame_form_bare _ _ D) ltac:(constructor) N Q) as [-> RC].
  pose proof (map_capture_reset W root Loc src d fuel o o' id t l tags h RG STR A B C D N) as M. cbv zeta in M. rewrite RC in M.
  destruct M as (M1 & M2 & l2 & M3). rewrite Q in M1. split; [reflexivity|].
  pose proof (tw_ev_map W root Loc src fuel o' id t l2 tags true UCapture (snd (ev_map W fuel o src root id tags true UCapture Raise h)) RG (tame_form_bare _ _ D) ltac:(constructor) M3 _ _ eq_refl eq_refl) as K.
  set (z := ev_map W fuel o' src root id tags true UCapture Collect (snd (ev_map W fuel o src root id tags true UCapture Raise h))) in *.
  destruct (fst z) as [es|e] eqn:Z; cbn in M1; [|contradiction]. destruct es; [|discriminate].
  rewrite K. split; [exact Z|]. split; [exact M2|eauto].
Qed.
Lemma reordered_same id (h : heap) t l : nth_error h id = Some (t, l) -> reordered id h h.
Proof. intros H. split; [exists t, l, l; auto|reflexivity]. Qed.
Lemma form_capture_raise W src root Loc d fuel id t l tags rs s :
  psource_root src = Ok root -> regime (w_env W) src root Loc ->
  (forall v w, psource_parse (w_env W) src TyStr v = Ok w -> exists s, w = VStr s) ->
  nth_error (forms s) id = Some (t, l) -> tame_form d t -> mapping_context s ->
  let x := Form_map W fuel id (ASrc (SBase (BPlain src))) tags rs UCapture Raise s in
  let y := Form_map W fuel id (ASrc (SBase (BPlain src))) tags rs UCapture Raise (snd x) in
  same_raised (fst x) (fst y) /\ reordered id (forms (snd x)) (forms (snd y)) /\
  (rs = false \/ (exists e, fst x = Exn e) -> forms (snd y) = forms (snd x)).
Proof.
  intros HR RG STR T D (C1 & C2 & C3). cbv zeta.
  destruct (map_refines W fuel src root Loc id t l tags rs UCapture Raise s HR RG T (tame_form_direct _ _ D) du_capture C1 C2 C3) as (A1 & A2 & A3 & _).
  set (x := Form_map W fuel id (ASrc (SBase (BPlain src))) tags rs UCapture Raise s) in *.
  assert (OO : outer_of (snd x) = Outer (length (paths (snd x))) (ou_igd (outer_of s)) (ou_igm (outer_of s)) (ou_tags (outer_of s)) (ou_form (outer_of s)) (ou_field (outer_of s))).
  { unfold outer_of. now rewrite A3. }
  rewrite <- A3 in C1, C2, C3.
  assert (O1 : ou_igd (outer_of (snd x)) = ou_igd (outer_of s)) by now rewrite OO.
  assert (O2 : ou_igm (outer_of (snd x)) = ou_igm (outer_of s)) by now rewrite OO.
  assert (O3 : ou_tags (outer_of (snd x)) = ou_tags (outer_of s)) by now rewrite OO.
  assert (REF : forall l2, nth_error (forms (snd x)) id = Some (t, l2) -> 
     fst (Form_map W fuel id (ASrc (SBase (BPlain src))) tags rs UCapture Raise (snd x)) = fst (ev_map W fuel (outer_of (snd x)) src root id tags rs UCapture Raise (forms (snd x))) /\
     forms (snd (Form_map W fuel id (ASrc (SBase (BPlain src))) tags rs UCapture Raise (snd x))) = snd (ev_map W fuel (outer_of (snd x)) src root id tags rs UCapture Raise (forms (snd x)))).
  { intros l2 M3. destruct (map_refines W fuel src root Loc id t l2 tags rs UCapture Raise (snd x) HR RG M3 (tame_form_direct _ _ D) du_capture C1 C2 C3) as (B1 & B2 & _). auto. }
  destruct (fst (ev_map W fuel (outer_of s) src root id tags rs UCapture Raise (forms s))) as [es|e] eqn:Q.
  - destruct rs.
    + destruct (map_reset_raise W root Loc src d fuel (outer_of s) (outer_of (snd x)) id t l tags (forms s) es RG STR O1 O2 O3 D T Q) as (-> & M1 & M2 & l2 & M3).
      rewrite <- A2 in M1, M2, M3. destruct (REF l2 M3) as [B1 B2]. rewrite B1, B2, A1, M1. split; [cbn; auto|]. split; [exact M2|]. intros [[=]|(e & [=])].
    + destruct (map_raise_again W root Loc src d fuel (outer_of s) (outer_of (snd x)) id t l tags false UCapture (forms s) es RG STR O1 O2 O3 D (or_intror (conj eq_refl eq_refl)) T Q) as (h' & M1 & M2 & l2 & M3).
      rewrite M1 in A2, Q. cbn [fst snd] in A2, Q. injection Q as <-. rewrite <- A2 in M2, M3. destruct (REF l2 M3) as [B1 B2]. rewrite B1, B2, A1, M2. cbn [fst snd].
      split; [cbn; auto|]. split; [eapply reordered_same; exact M3|auto].
  - destruct (map_capture_fails W root Loc src d fuel (outer_of s) (outer_of (snd x)) id t l tags rs (forms s) e RG STR O1 O2 O3 D T Q) as ((e' & M1 & SP) & M2 & l2 & M3).
    rewrite <- A2 in M1, M2, M3. destruct (REF l2 M3) as [B1 B2]. rewrite B1, B2, A1, M1, M2. split; [cbn; now apply spoken_same|].
    split; [eapply reordered_same; exact M3|auto].
Qed.
Lemma C47_raise_capture_lem W fuel d a id t l tags reset s :
  plain_data W a -> nth_error (forms s) id = Some (t, l) -> tame_form d t -> mapping_context s ->
  let again := Form_map W fuel id a tags reset UCapture Raise in
  let x := again s in
  let y := again (snd x) in
  same_raised (fst x) (fst y) /\ reordered id (forms (snd x)) (forms (snd y)) /\
  (reset = false \/ (exists e, fst x = Exn e) -> forms (snd y) = forms (snd x)).
Proof.
  intros PD T D C. cbv zeta. destruct PD as [dc st lc J|P dc lc PN Pd|cfg sec dd lc G|P items PN Pd].
  - exact (form_capture_raise W (SJson dc st lc) dc _ d fuel id t l tags reset s eq_refl (json_regime _ _ _ _ J) (json_strings _ _ _ _) T D C).
  - exact (form_capture_raise W (SDefault dc [] [] lc) dc _ d fuel id t l tags reset s eq_refl (native_regime _ _ _ _ PN Pd) (native_strings _ _ _ _ _) T D C).
  - destruct (config_begins cfg sec dd lc G) as [R L].
    exact (form_capture_raise W (SConfig cfg sec dd lc) _ _ d fuel id t l tags reset s R (config_regime _ _ _ _ _ _ L) (config_strings _ _ _ _ _) T D C).
  - exact (form_capture_raise W (SDefault (VDict items) [] [] None) (VDict items) _ d fuel id t l tags reset s eq_refl (native_regime _ _ _ _ PN Pd) (native_strings _ _ _ _ _) T D C).
Qed.
