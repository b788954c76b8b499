(** * Regime: whole forms on JSON documents and plain native data. *)
From Verif Require Import PyBase PyStr Source Field Context Fields SpecSrc SrcPath SrcProofs Shape Balance Eval.
From Verif Require Export Refine RefinePoly.
From Verif Require Export DataRegime.
From Coq Require Import Lia.

(** ** Whole forms *)
Lemma map_refines_poly W poly fuel src root Loc id t l tags rs u m s :
  psource_root src = Ok root -> regime (w_env W) src root Loc -> confined W poly Loc ->
  (poly -> forall c t, w_class W c = Some t -> pdirect_form poly t) ->
  nth_error (forms s) id = Some (t, l) -> pdirect_form poly t -> pdirect_unm poly u ->
  (exists c, lookup "src" (stk s) = Some c) ->
  (exists c, lookup "ignore_default" (stk s) = Some c) -> (exists c, lookup "ignore_missing" (stk s) = Some c) ->
  let x := Form_map W fuel id (ASrc (SBase (BPlain src))) tags rs u m s in
  let y := ev_map W fuel (outer_of s) src root id tags rs u m (forms s) in
  (poly /\ fst y = Exn unevaluated) \/
  (fst x = fst y /\ forms (snd x) = snd y /\ stk (snd x) = stk s /\
   (forall j, (j < length (errs s))%nat -> nth_error (errs (snd x)) j = nth_error (errs s) j)).
Proof.
  intros HR RG CO CL T D Du C1 C2 C3 x y.
  destruct (map_by W poly (field_map W fuel) (ev_field W fuel) src root Loc id t l tags rs u m s HR RG
    (sim_field W poly CL fuel root src Loc RG CO) T D Du C1 C2 C3) as [L|(A & B & C & _ & F & _)]; [left; exact L|right; auto].
Qed.
Lemma map_refines W fuel src root Loc id t l tags rs u m s :
  psource_root src = Ok root -> regime (w_env W) src root Loc ->
  nth_error (forms s) id = Some (t, l) -> direct_form t -> direct_unm u ->
  (exists c, lookup "src" (stk s) = Some c) ->
  (exists c, lookup "ignore_default" (stk s) = Some c) -> (exists c, lookup "ignore_missing" (stk s) = Some c) ->
  let x := Form_map W fuel id (ASrc (SBase (BPlain src))) tags rs u m s in
  let y := ev_map W fuel (outer_of s) src root id tags rs u m (forms s) in
  fst x = fst y /\ forms (snd x) = snd y /\ stk (snd x) = stk s /\
  (forall j, (j < length (errs s))%nat -> nth_error (errs (snd x)) j = nth_error (errs s) j).
Proof.
  intros HR RG T D Du C1 C2 C3 x y. destruct (direct_poly False) as (_ & _ & DF & DU).
  destruct (map_refines_poly W False fuel src root Loc id t l tags rs u m s HR RG ltac:(intros []) ltac:(tauto) T (DF t D) (DU u Du) C1 C2 C3) as [[[] _]|X].
  exact X.
Qed.
Lemma dict_is_source W fuel id l tags rs u m s :
  Form_map W fuel id (AVal (VDict l)) tags rs u m s =
  Form_map W fuel id (ASrc (SBase (BPlain (SDefault (VDict l) [] [] None)))) tags rs u m s.
Proof. reflexivity. Qed.
Lemma C30_json_lem W fuel d strict loc id t l tags rs u m s :
  json_val d = true -> nth_error (forms s) id = Some (t, l) -> direct_form t -> direct_unm u -> mapping_context s ->
  let x := Form_map W fuel id (ASrc (SBase (BPlain (SJson d strict loc)))) tags rs u m s in
  (fst x, forms (snd x)) = ev_map W fuel (outer_of s) (SJson d strict loc) d id tags rs u m (forms s) /\ stk (snd x) = stk s.
Proof.
  intros J T D Du (C1 & C2 & C3). destruct (map_refines W fuel (SJson d strict loc) d _ id t l tags rs u m s eq_refl (json_regime _ _ _ _ J) T D Du C1 C2 C3) as (A & B & C & _).
  cbv zeta. split; [|exact C]. rewrite A, B. now destruct (ev_map _ _ _ _ _ _ _ _ _ _ _).
Qed.
Lemma C30_native_lem W fuel P d loc id t l tags rs u m s :
  plain_native (w_env W) P -> P d -> nth_error (forms s) id = Some (t, l) -> direct_form t -> direct_unm u -> mapping_context s ->
  let x := Form_map W fuel id (ASrc (SBase (BPlain (SDefault d [] [] loc)))) tags rs u m s in
  (fst x, forms (snd x)) = ev_map W fuel (outer_of s) (SDefault d [] [] loc) d id tags rs u m (forms s) /\ stk (snd x) = stk s.
Proof.
  intros PN Pd T D Du (C1 & C2 & C3).
  destruct (map_refines W fuel (SDefault d [] [] loc) d _ id t l tags rs u m s eq_refl (native_regime _ _ _ _ PN Pd) T D Du C1 C2 C3) as (A & B & C & _).
  cbv zeta. split; [|exact C]. rewrite A, B. now destruct (ev_map _ _ _ _ _ _ _ _ _ _ _).
Qed.
Lemma C30_dict_lem W fuel P items id t l tags rs u m s :
  plain_native (w_env W) P -> P (VDict items) -> nth_error (forms s) id = Some (t, l) -> direct_form t -> direct_unm u -> mapping_context s ->
  let x := Form_map W fuel id (AVal (VDict items)) tags rs u m s in
  (fst x, forms (snd x)) = ev_map W fuel (outer_of s) (SDefault (VDict items) [] [] None) (VDict items) id tags rs u m (forms s) /\ stk (snd x) = stk s.
Proof. intros PN Pd T D Du C. exact (C30_native_lem W fuel P (VDict items) None id t l tags rs u m s PN Pd T D Du C). Qed.

(** ** With polymorphic sub-forms *)
Lemma C30_poly_native_lem W fuel P d loc id t l tags rs u m s :
  plain_native (w_env W) P -> P d -> (forall c ty, w_class W c = Some ty -> pdirect_form True ty) ->
  nth_error (forms s) id = Some (t, l) -> pdirect_form True t -> pdirect_unm True u -> mapping_context s ->
  let x := Form_map W fuel id (ASrc (SBase (BPlain (SDefault d [] [] loc)))) tags rs u m s in
  let y := ev_map W fuel (outer_of s) (SDefault d [] [] loc) d id tags rs u m (forms s) in
  fst y <> Exn unevaluated -> (fst x, forms (snd x)) = y /\ stk (snd x) = stk s.
Proof.
  intros PN Pd CL T D Du (C1 & C2 & C3) x y N.
  destruct (map_refines_poly W True fuel (SDefault d [] [] loc) d _ id t l tags rs u m s eq_refl (native_regime _ _ _ _ PN Pd)
    (fun _ => ex_intro _ P (conj PN (fun _ H => H))) (fun _ => CL) T D Du C1 C2 C3) as [[_ U]|(A & B & C & _)]; [contradiction|].
  split; [|exact C]. unfold x. rewrite A, B. fold y. now destruct y.
Qed.
Lemma json_step_item E v k w : json_step v k = Some w -> has_item E no_ents v k w.
Proof.
  assert (IDX : forall A (l : list A) i x, py_index l i = Some x ->
    (exists n, i = Z.of_nat n /\ nth_error l n = Some x) \/ (exists n, i = - Z.of_nat n - 1 /\ nth_error (rev l) n = Some x)).
  { intros A l i x H. now apply index_iff in H. }
  destruct v; cbn [json_step]; try discriminate; intros H.
  - destruct k as [|i|]; try discriminate. destruct (py_index (chars s) i) as [c|] eqn:Q; [|discriminate]. injection H as <-.
    destruct (IDX _ _ _ _ Q) as [(n & -> & N)|(n & -> & N)]; now constructor.
  - destruct k as [|i|]; try discriminate. destruct (IDX _ _ _ _ H) as [(n & -> & N)|(n & -> & N)]; now constructor.
  - now constructor.
Qed.
Lemma json_native_regime E P d st loc : plain_native E P -> P d -> json_val d = true ->
  regime E (SJson d st loc) d (fun v => json_val v = true /\ P v).
Proof.
  intros PN Pd J. pose proof (json_regime E d st loc J) as [R1 R2 R3 R4 R5 R6 R7 R8].
  assert (IN : forall ks v w, P v -> json_steps v ks = Some w -> P w).
  { induction ks as [|k ks IH]; intros v w Pv H; cbn [json_steps] in H; [congruence|].
    destruct (json_step v k) as [x|] eqn:S; [|discriminate]. eapply IH; [|exact H]. eapply (nd_item _ _ _ (pn_data _ _ PN)); [exact Pv|]. eapply json_step_item; exact S. }
  split; auto.
  - intros v [Jv _]. now apply R2.
  - intros ents c k [[Jc _]|A] K; [apply R4; auto|apply R4; auto].
  - intros c k w [Jc Pc] K H. destruct (R5 c k w Jc K H) as [->|Jw]; [now left|]. right. split; [exact Jw|].
    cbn [psource_resolve] in H. destruct (json_resolve_steps E no_ents c k Jc K) as [Q G]. rewrite Q in H.
    destruct (json_steps c (key_steps k)) as [x|] eqn:S; cbn [none_or] in H; injection H as <-; [eapply IN; eauto|discriminate].
  - intros c n i [Jc _]. now apply R6.
  - intros ents dd c [Jc _]. now apply R7.
  - intros c dd l k [Jc _]. now apply R8.
Qed.
Lemma C30_poly_json_lem W fuel P d strict loc id t l tags rs u m s :
  plain_native (w_env W) P -> P d -> json_val d = true -> (forall c ty, w_class W c = Some ty -> pdirect_form True ty) ->
  nth_error (forms s) id = Some (t, l) -> pdirect_form True t -> pdirect_unm True u -> mapping_context s ->
  let x := Form_map W fuel id (ASrc (SBase (BPlain (SJson d strict loc)))) tags rs u m s in
  let y := ev_map W fuel (outer_of s) (SJson d strict loc) d id tags rs u m (forms s) in
  fst y <> Exn unevaluated -> (fst x, forms (snd x)) = y /\ stk (snd x) = stk s.
Proof.
  intros PN Pd J CL T D Du (C1 & C2 & C3) x y N.
  destruct (map_refines_poly W True fuel (SJson d strict loc) d _ id t l tags rs u m s eq_refl (json_native_regime _ P _ _ _ PN Pd J)
    (fun _ => ex_intro _ P (conj PN (fun _ H => proj2 H))) (fun _ => CL) T D Du C1 C2 C3) as [[_ U]|(A & B & C & _)]; [contradiction|].
  split; [|exact C]. unfold x. rewrite A, B. fold y. now destruct y.
Qed.
