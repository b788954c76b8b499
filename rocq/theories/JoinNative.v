(** * JoinNative: unions of Python dicts (C30, C38, C40, C41, C47), from C103. *)
From Verif Require Import PyBase PyStr Source Field Context Fields SpecSrc Eval SpecUnion SpecField SpecForm SpecJson SpecTame SpecJoin DataRegime Regime AgainProofs TwiceProofs ModeProofs FlatProofs StopProofs JoinProofs JoinLemmas JoinTree JoinAgain JoinFlat.

Section Union.
Variables (W : world) (fuel : nat) (P : val -> Prop) (docs : list (list (val * val))) (mm sm : merge) (dp : option Z) (one : list (val * val)).
Hypothesis NE : docs <> [].
Hypothesis PN : plain_native (w_env W) P.
Hypothesis SE : sentinel_ok (w_env W) P.
Hypothesis JD : Forall (fun d => P (VDict d)) docs.
Hypothesis JO : P (VDict one).
Let US := USource (map native_doc docs) mm sm dp.
Let src := ASrc (SBase (BUnion US)).
Let doc := ASrc (SBase (BPlain (native_doc one))).
Lemma native_plain : plain_data W doc.
Proof. exact (pd_native W P _ _ PN JO). Qed.
Lemma C30_native_union_lem id tags rs u m s t l tg :
  leaves_with (native_read (w_env W)) US (all_native docs) one u -> direct_unm u -> in_force s tags tg -> nth_error (forms s) id = Some (t, l) ->
  direct_form t -> mapping_context s ->
  (forall f, In f (ft_fields t) -> chosen tg f -> reads_with (native_read (w_env W)) US (all_native docs) one f) ->
  let x := Form_map W fuel id src tags rs u m s in
  (fst x, forms (snd x)) = ev_map W fuel (outer_of s) (SDefault (VDict one) [] [] None) (VDict one) id tags rs u m (forms s) /\ stk (snd x) = stk s.
Proof.
  intros LV U IF N D C H x. destruct (native_lem W fuel P docs one mm sm dp id tags rs u m s t l tg NE PN SE JD JO LV IF N H) as (A1 & A2 & _ & A4).
  destruct (C30_native_lem W fuel P (VDict one) None id t l tags rs u m s PN JO N D U C) as [B1 B2].
  unfold x, src, US. rewrite A1, A2, A4. auto.
Qed.
Lemma C40_native_union_lem id t l tags rs u s tg :
  ignoring u -> in_force s tags tg -> nth_error (forms s) id = Some (t, l) -> bare_form t -> mapping_context s ->
  (forall f, In f (ft_fields t) -> chosen tg f -> reads_with (native_read (w_env W)) US (all_native docs) one f) ->
  let x := Form_map W fuel id src tags rs u Collect s in
  let y := Form_map W fuel id src tags rs u Raise s in
  (fst x = Ok [] -> fst y = Ok [] /\ forms (snd y) = forms (snd x)) /\
  (forall e es, fst x = Ok (e :: es) -> exists es', fst y = Exn (EForm (e :: es'))) /\
  (forall e, fst x = Exn e -> fst y = Exn e \/ exists e' es', fst y = Exn (EForm (e' :: es'))) /\
  (forall es, fst y = Ok es -> fst x = Ok [] /\ es = []).
Proof.
  intros U IF N B C H x y. assert (Bu : bare_unm u) by (destruct U as [-> | ->]; constructor).
  destruct (native_lem W fuel P docs one mm sm dp id tags rs u Collect s t l tg NE PN SE JD JO (lv_ignored _ _ _ _ u U) IF N H) as (A1 & A2 & _).
  destruct (native_lem W fuel P docs one mm sm dp id tags rs u Raise s t l tg NE PN SE JD JO (lv_ignored _ _ _ _ u U) IF N H) as (B1 & B2 & _).
  unfold x, y, src, US. rewrite A1, A2, B1, B2. exact (C40_lem W fuel _ id t l tags rs u s native_plain N B Bu C).
Qed.
Lemma C41_native_union_lem id t l tags rs u s tg e es :
  ignoring u -> in_force s tags tg -> nth_error (forms s) id = Some (t, l) -> bare_form t -> mapping_context s ->
  (forall f, In f (ft_fields t) -> chosen tg f -> reads_with (native_read (w_env W)) US (all_native docs) one f) ->
  (forall f, In f (ft_fields t) -> single f = true) ->
  fst (Form_map W fuel id src tags rs u Collect s) = Ok (e :: es) -> fst (Form_map W fuel id src tags rs u Raise s) = Exn (EForm [e]).
Proof.
  intros U IF N B C H SG. destruct (native_lem W fuel P docs one mm sm dp id tags rs u Collect s t l tg NE PN SE JD JO (lv_ignored _ _ _ _ u U) IF N H) as (A1 & _).
  destruct (native_lem W fuel P docs one mm sm dp id tags rs u Raise s t l tg NE PN SE JD JO (lv_ignored _ _ _ _ u U) IF N H) as (B1 & _).
  unfold src, US. rewrite A1, B1. exact (C41_lem W fuel _ id t l tags rs u s e es native_plain N B SG U C).
Qed.
Lemma C47_native_union_lem d id tags rs u s t l tg :
  ignoring u -> in_force s tags tg -> nth_error (forms s) id = Some (t, l) -> tame_form d t -> mapping_context s ->
  (forall f, In f (ft_fields t) -> chosen tg f -> reads_with (native_read (w_env W)) US (all_native docs) one f) ->
  (let again := Form_map W fuel id src tags rs u Collect in
   same_report (fst (again s)) (fst (again (snd (again s)))) /\ forms (snd (again (snd (again s)))) = forms (snd (again s))) /\
  (let again := Form_map W fuel id src tags rs u Raise in
   same_raised (fst (again s)) (fst (again (snd (again s)))) /\ forms (snd (again (snd (again s)))) = forms (snd (again s))).
Proof.
  intros U IF N D C H. apply (again_any W fuel d _ (native_doc one) (VDict one) P id tags rs u s t l eq_refl (native_regime _ P _ _ PN JO) (native_strings _ _ _ _ _) U N D C).
  intros m s' l' K N'. exact (native_lem W fuel P docs one mm sm dp id tags rs u m s' t l' tg NE PN SE JD JO (lv_ignored _ _ _ _ u U) (in_force_stk _ _ _ _ K IF) N' H).
Qed.

(** C38 *)
Variables (d : nat) (f : field) (t : formty) (pre post : list field) (n1 n2 : string) (id1 id2 : nat) (s : st) (tg : list string).
Hypothesis FU : (S d <= fuel)%nat.
Hypothesis ID : id1 <> id2.
Hypothesis FS : flat_sub f t.
Hypothesis TF : tame_form d t.
Hypothesis TP : forall g, In g pre \/ In g post -> tame d g.
Hypothesis RD : forall g, In g (pre ++ ft_fields t ++ post) -> reads_with (native_read (w_env W)) US (all_native docs) one g.
Hypothesis IF : in_force s [] tg.
Hypothesis N1 : nth_error (forms s) id1 = Some (FormTy n1 (pre ++ f :: post), []).
Hypothesis N2 : nth_error (forms s) id2 = Some (FormTy n2 (pre ++ ft_fields t ++ post), []).
Hypothesis SL : selected (tags_seen (lookup "tags" (stk s))) f = true.
Hypothesis C : mapping_context s.
Lemma native_flat_alike m : same_answer (Form_map W fuel id1 src [] false UIgnore m s) (Form_map W fuel id1 doc [] false UIgnore m s).
Proof.
  refine (native_lem W fuel P docs one mm sm dp id1 [] false UIgnore m s _ _ tg NE PN SE JD JO (lv_ignored _ _ _ _ _ (or_introl eq_refl)) IF N1 _).
  intros g G _. cbn [ft_fields] in G. apply in_app_or in G. destruct G as [G|[<-|G]].
  - apply RD, in_or_app. auto.
  - destruct (flat_calm f t FS) as (rs & CF). apply (ra_flat _ _ _ _ f t rs UIgnore CF); [destruct docs; [congruence|discriminate]|now apply lv_ignored; left|]. intros g G. apply RD, in_or_app. right. apply in_or_app. auto.
  - apply RD, in_or_app. right. apply in_or_app. auto.
Qed.
Lemma native_inline_alike m : same_answer (Form_map W fuel id2 src [] false UIgnore m s) (Form_map W fuel id2 doc [] false UIgnore m s).
Proof.
  refine (native_lem W fuel P docs one mm sm dp id2 [] false UIgnore m s _ _ tg NE PN SE JD JO (lv_ignored _ _ _ _ _ (or_introl eq_refl)) IF N2 _). intros g G _. exact (RD g G).
Qed.
Lemma C38_native_union_lem es :
  let x := Form_map W fuel id1 src [] false UIgnore Collect s in
  let y := Form_map W fuel id2 src [] false UIgnore Collect s in
  fst y = Ok es ->
  fst x = Ok es /\
  exists l l1 l2, nth_error (forms (snd x)) (length (forms s)) = Some (t, l) /\
    nth_error (forms (snd x)) id1 = Some (FormTy n1 (pre ++ f :: post), l1) /\
    nth_error (forms (snd y)) id2 = Some (FormTy n2 (pre ++ ft_fields t ++ post), l2) /\
    (forall a, ~ has_name pre a -> ~ has_name post a -> dict_get l2 (VStr a) = dict_get l (VStr a)) /\
    (forall a, ~ has_name (ft_fields t) a -> a <> fname f -> dict_get l2 (VStr a) = dict_get l1 (VStr a)) /\
    (es = [] -> ~ has_name post (fname f) -> dict_get l1 (VStr (fname f)) = Some (VForm (length (forms s)))).
Proof.
  cbv zeta. destruct (native_flat_alike Collect) as (A1 & A2 & _), (native_inline_alike Collect) as (B1 & B2 & _). rewrite A1, A2, B1, B2.
  exact (C38_collect_lem W fuel d doc f t pre post n1 n2 id1 id2 s es native_plain FU ID FS TF TP N1 N2 SL C).
Qed.
Lemma C38_native_union_raise_lem es :
  let x := Form_map W fuel id1 src [] false UIgnore Raise s in
  let y := Form_map W fuel id2 src [] false UIgnore Raise s in
  fst y = Ok es ->
  fst x = Ok [] /\
  exists l l1 l2, nth_error (forms (snd x)) (length (forms s)) = Some (t, l) /\
    nth_error (forms (snd x)) id1 = Some (FormTy n1 (pre ++ f :: post), l1) /\
    nth_error (forms (snd y)) id2 = Some (FormTy n2 (pre ++ ft_fields t ++ post), l2) /\
    (forall a, ~ has_name pre a -> ~ has_name post a -> dict_get l2 (VStr a) = dict_get l (VStr a)) /\
    (forall a, ~ has_name (ft_fields t) a -> a <> fname f -> dict_get l2 (VStr a) = dict_get l1 (VStr a)) /\
    (~ has_name post (fname f) -> dict_get l1 (VStr (fname f)) = Some (VForm (length (forms s)))).
Proof.
  cbv zeta. destruct (native_flat_alike Raise) as (A1 & A2 & _), (native_inline_alike Raise) as (B1 & B2 & _). rewrite A1, A2, B1, B2.
  exact (C38_raise_lem W fuel d doc f t pre post n1 n2 id1 id2 s es native_plain FU ID FS TF TP N1 N2 SL C).
Qed.
Lemma C38_native_union_fails_lem e es :
  fst (Form_map W fuel id2 src [] false UIgnore Collect s) = Ok (e :: es) ->
  exists es1 es2,
    fst (Form_map W fuel id1 src [] false UIgnore Raise s) = Exn (EForm (e :: es1)) /\
    fst (Form_map W fuel id2 src [] false UIgnore Raise s) = Exn (EForm (e :: es2)).
Proof.
  destruct (native_flat_alike Raise) as (A1 & _), (native_inline_alike Raise) as (B1 & _), (native_inline_alike Collect) as (B3 & _). rewrite A1, B1, B3.
  exact (C38_fails_lem W fuel d doc f t pre post n1 n2 id1 id2 s e es native_plain FU ID FS TF TP N1 N2 SL C).
Qed.
End Union.
