(** * JoinAgain: what holds of forms mapped from one document holds of a union (C30, C47). *)
From Verif Require Import PyBase PyStr Source Field Context Fields SpecSrc Eval SpecUnion SpecField SpecForm SpecTame SpecJoin DataRegime Refine Regime AgainProofs TwiceProofs JoinProofs JoinLemmas JoinTree.
From Coq Require Import Lia.

(** ** The documents one after the other: of several entries of a key the first counts *)
Lemma get_app d l k : dict_get (d ++ l) (VStr k) = match dict_get d (VStr k) with Some v => Some v | None => dict_get l (VStr k) end.
Proof.
  unfold dict_get. induction d as [|[a b] d IH]; cbn [app find fst]; [reflexivity|]. destruct (py_eq a (VStr k)); [reflexivity|exact IH].
Qed.
Lemma concat_wins docs : first_wins docs (concat docs).
Proof. intros k. induction docs as [|d docs IH]; [reflexivity|]. cbn [concat first_with]. rewrite get_app, IH. reflexivity. Qed.
Lemma concat_json docs : Forall (fun d => json_val (VDict d) = true) docs -> json_val (VDict (concat docs)) = true.
Proof.
  induction 1 as [|d docs J JD IH]; [reflexivity|]. cbn [concat]. cbn [json_val] in *. rewrite forallb_app, J. exact IH.
Qed.
Definition union_src (strict : bool) docs mm sm dp : srcarg := ASrc (SBase (BUnion (USource (map (json_doc strict) docs) mm sm dp))).

Lemma union_is_doc W n strict docs mm sm dp id tags rs u m s t l tg :
  docs <> [] -> Forall (fun d => json_val (VDict d) = true) docs -> ignoring u -> in_force s tags tg -> nth_error (forms s) id = Some (t, l) ->
  (forall f, In f (ft_fields t) -> chosen tg f -> exists k, simple_field f k /\ first_with docs k <> Some VNone) ->
  same_answer (Form_map W n id (union_src strict docs mm sm dp) tags rs u m s)
              (Form_map W n id (ASrc (SBase (BPlain (json_doc strict (concat docs))))) tags rs u m s).
Proof.
  intros NE JD U IF N H. exact (join_lem W n strict docs (concat docs) mm sm dp id tags rs u m s t l tg NE JD (concat_json docs JD) (concat_wins docs) U IF N H).
Qed.
Lemma in_force_stk s s' tags tg : stk s' = stk s -> in_force s tags tg -> in_force s' tags tg.
Proof. unfold in_force. intros ->. auto. Qed.
Lemma ignoring_direct u : ignoring u -> direct_unm u. Proof. intros [-> | ->]; constructor. Qed.

Lemma C30_union_lem W n strict docs mm sm dp id tags rs u m s t l tg :
  docs <> [] -> Forall (fun d => json_val (VDict d) = true) docs -> ignoring u -> in_force s tags tg -> nth_error (forms s) id = Some (t, l) ->
  direct_form t -> mapping_context s ->
  (forall f, In f (ft_fields t) -> chosen tg f -> exists k, simple_field f k /\ first_with docs k <> Some VNone) ->
  let x := Form_map W n id (union_src strict docs mm sm dp) tags rs u m s in
  (fst x, forms (snd x)) = ev_map W n (outer_of s) (SJson (VDict (concat docs)) strict None) (VDict (concat docs)) id tags rs u m (forms s) /\ stk (snd x) = stk s.
Proof.
  intros NE JD U IF N D C H x. destruct (union_is_doc W n strict docs mm sm dp id tags rs u m s t l tg NE JD U IF N H) as (A1 & A2 & _ & A4).
  destruct (C30_json_lem W n (VDict (concat docs)) strict None id t l tags rs u m s (concat_json _ JD) N D (ignoring_direct u U) C) as [B1 B2].
  unfold x. rewrite A1, A2, A4. auto.
Qed.

(** Any source that answers like a document *)
Lemma again_any W n d arg src root Loc id tags rs u s t l :
  psource_root src = Ok root -> regime (w_env W) src root Loc -> (forall v w, psource_parse (w_env W) src TyStr v = Ok w -> exists s, w = VStr s) -> ignoring u -> nth_error (forms s) id = Some (t, l) -> tame_form d t -> mapping_context s ->
  (forall m s' l', stk s' = stk s -> nth_error (forms s') id = Some (t, l') ->
     same_answer (Form_map W n id arg tags rs u m s') (Form_map W n id (ASrc (SBase (BPlain src))) tags rs u m s')) ->
  (let again := Form_map W n id arg tags rs u Collect in
   same_report (fst (again s)) (fst (again (snd (again s)))) /\ forms (snd (again (snd (again s)))) = forms (snd (again s))) /\
  (let again := Form_map W n id arg tags rs u Raise in
   same_raised (fst (again s)) (fst (again (snd (again s)))) /\ forms (snd (again (snd (again s)))) = forms (snd (again s))).
Proof.
  intros RT RG STR U N D (C1 & C2 & C3) SAME.
  pose proof (ignoring_direct u U) as DU. assert (UU : match u with UIgnore | UFalsy | UBad _ => True | _ => False end) by (destruct U as [-> | ->]; exact I).
  split; cbv zeta.
  - set (x := Form_map W n id arg tags rs u Collect s).
    destruct (SAME Collect s l eq_refl N) as (E1 & E2 & _ & E4). fold x in E1, E2, E4.
    destruct (map_refines W n src root _ id t l tags rs u Collect s RT RG N (tame_form_direct _ _ D) DU C1 C2 C3) as (A1 & A2 & A3 & _).
    assert (K : stk (snd x) = stk s) by congruence.
    assert (OO : outer_of (snd x) = Outer (length (paths (snd x))) (ou_igd (outer_of s)) (ou_igm (outer_of s)) (ou_tags (outer_of s)) (ou_form (outer_of s)) (ou_field (outer_of s))) by (unfold outer_of; now rewrite K).
    destruct (map_again W root _ src RG STR d n (outer_of s) (outer_of (snd x)) id t l tags rs u (forms s)) as (M1 & M2 & l2 & M3); auto; try (now rewrite OO).
    rewrite <- A2, <- E2 in M1, M2, M3. rewrite <- K in C1, C2, C3.
    destruct (map_refines W n src root _ id t l2 tags rs u Collect (snd x) RT RG M3 (tame_form_direct _ _ D) DU C1 C2 C3) as (B1 & B2 & _).
    destruct (SAME Collect (snd x) l2 K M3) as (F1 & F2 & _ & _).
    rewrite E1, F1, F2, B1, B2, A1. split; [exact M1|exact M2].
  - set (x := Form_map W n id arg tags rs u Raise s).
    destruct (SAME Raise s l eq_refl N) as (E1 & E2 & _ & E4). fold x in E1, E2, E4.
    destruct (map_refines W n src root _ id t l tags rs u Raise s RT RG N (tame_form_direct _ _ D) DU C1 C2 C3) as (A1 & A2 & A3 & _).
    assert (K : stk (snd x) = stk s) by congruence.
    assert (OO : outer_of (snd x) = Outer (length (paths (snd x))) (ou_igd (outer_of s)) (ou_igm (outer_of s)) (ou_tags (outer_of s)) (ou_form (outer_of s)) (ou_field (outer_of s))) by (unfold outer_of; now rewrite K).
    destruct (map_again_r W root _ src RG STR d n (outer_of s) (outer_of (snd x)) id t l tags rs u (forms s)) as (M1 & M2 & l2 & M3); auto; try (now rewrite OO).
    rewrite <- A2, <- E2 in M1, M2, M3. rewrite <- K in C1, C2, C3.
    destruct (map_refines W n src root _ id t l2 tags rs u Raise (snd x) RT RG M3 (tame_form_direct _ _ D) DU C1 C2 C3) as (B1 & B2 & _).
    destruct (SAME Raise (snd x) l2 K M3) as (F1 & F2 & _ & _).
    rewrite E1, F1, F2, B1, B2, A1. split; [|exact M2]. unfold same_raised. destruct (fst (ev_map _ _ _ _ _ _ _ _ _ _ (forms s))); destruct (fst (ev_map _ _ _ _ _ _ _ _ _ _ _)); auto. now apply spoken_same.
Qed.
Lemma again_gen W n d arg strict one id tags rs u s t l :
  json_val (VDict one) = true -> ignoring u -> nth_error (forms s) id = Some (t, l) -> tame_form d t -> mapping_context s ->
  (forall m s' l', stk s' = stk s -> nth_error (forms s') id = Some (t, l') ->
     same_answer (Form_map W n id arg tags rs u m s') (Form_map W n id (ASrc (SBase (BPlain (json_doc strict one)))) tags rs u m s')) ->
  (let again := Form_map W n id arg tags rs u Collect in
   same_report (fst (again s)) (fst (again (snd (again s)))) /\ forms (snd (again (snd (again s)))) = forms (snd (again s))) /\
  (let again := Form_map W n id arg tags rs u Raise in
   same_raised (fst (again s)) (fst (again (snd (again s)))) /\ forms (snd (again (snd (again s)))) = forms (snd (again s))).
Proof.
  intros JO. exact (again_any W n d arg (json_doc strict one) (VDict one) _ id tags rs u s t l eq_refl (json_regime (w_env W) (VDict one) strict None JO) (json_strings (w_env W) (VDict one) strict None)).
Qed.
Lemma C47_union_lem W n d strict docs mm sm dp id tags rs u s t l tg :
  docs <> [] -> Forall (fun d => json_val (VDict d) = true) docs -> ignoring u -> in_force s tags tg -> nth_error (forms s) id = Some (t, l) ->
  tame_form d t -> mapping_context s ->
  (forall f, In f (ft_fields t) -> chosen tg f -> exists k, simple_field f k /\ first_with docs k <> Some VNone) ->
  (let again := Form_map W n id (union_src strict docs mm sm dp) tags rs u Collect in
   same_report (fst (again s)) (fst (again (snd (again s)))) /\ forms (snd (again (snd (again s)))) = forms (snd (again s))) /\
  (let again := Form_map W n id (union_src strict docs mm sm dp) tags rs u Raise in
   same_raised (fst (again s)) (fst (again (snd (again s)))) /\ forms (snd (again (snd (again s)))) = forms (snd (again s))).
Proof.
  intros NE JD U IF N D C H. apply (again_gen W n d _ strict (concat docs) id tags rs u s t l (concat_json _ JD) U N D C).
  intros m s' l' K N'. exact (union_is_doc W n strict docs mm sm dp id tags rs u m s' t l' tg NE JD U (in_force_stk _ _ _ _ K IF) N' H).
Qed.

(** Forms within forms, for a document that merges the others *)
Lemma C30_nested_lem W n strict docs one mm sm dp id tags rs u m s t l tg :
  docs <> [] -> Forall (fun d => json_val (VDict d) = true) docs -> json_val (VDict one) = true ->
  leaves (USource (map (json_doc strict) docs) mm sm dp) (all_docs strict docs) one u -> direct_unm u -> in_force s tags tg -> nth_error (forms s) id = Some (t, l) ->
  direct_form t -> mapping_context s ->
  (forall f, In f (ft_fields t) -> chosen tg f -> reads_alike (USource (map (json_doc strict) docs) mm sm dp) (all_docs strict docs) one f) ->
  let x := Form_map W n id (union_src strict docs mm sm dp) tags rs u m s in
  (fst x, forms (snd x)) = ev_map W n (outer_of s) (SJson (VDict one) strict None) (VDict one) id tags rs u m (forms s) /\ stk (snd x) = stk s.
Proof.
  intros NE JD JO LV U IF N D C H x. destruct (deep_lem W n strict docs one mm sm dp id tags rs u m s t l tg NE JD JO LV IF N H) as (A1 & A2 & _ & A4).
  destruct (C30_json_lem W n (VDict one) strict None id t l tags rs u m s JO N D U C) as [B1 B2].
  unfold x, union_src. rewrite A1, A2, A4. auto.
Qed.
Lemma C47_nested_lem W n d strict docs one mm sm dp id tags rs u s t l tg :
  docs <> [] -> Forall (fun d => json_val (VDict d) = true) docs -> json_val (VDict one) = true -> ignoring u -> in_force s tags tg -> nth_error (forms s) id = Some (t, l) ->
  tame_form d t -> mapping_context s ->
  (forall f, In f (ft_fields t) -> chosen tg f -> reads_alike (USource (map (json_doc strict) docs) mm sm dp) (all_docs strict docs) one f) ->
  (let again := Form_map W n id (union_src strict docs mm sm dp) tags rs u Collect in
   same_report (fst (again s)) (fst (again (snd (again s)))) /\ forms (snd (again (snd (again s)))) = forms (snd (again s))) /\
  (let again := Form_map W n id (union_src strict docs mm sm dp) tags rs u Raise in
   same_raised (fst (again s)) (fst (again (snd (again s)))) /\ forms (snd (again (snd (again s)))) = forms (snd (again s))).
Proof.
  intros NE JD JO U IF N D C H. apply (again_gen W n d _ strict one id tags rs u s t l JO U N D C).
  intros m s' l' K N'. exact (deep_lem W n strict docs one mm sm dp id tags rs u m s' t l' tg NE JD JO (lv_ignored _ _ _ _ u U) (in_force_stk _ _ _ _ K IF) N' H).
Qed.
