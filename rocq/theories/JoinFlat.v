(** * JoinFlat: flat sub-forms over a union of JSON documents (C38). *)
From Verif Require Import PyBase PyStr Source Field Context Fields SpecSrc Eval SpecUnion SpecField SpecForm SpecJson SpecTame SpecJoin ModeProofs FlatProofs StopProofs JoinProofs JoinLemmas JoinTree JoinAgain.
From Coq Require Import Lia.

Lemma under_docs strict k : forall docs, match under (KStr k) (all_docs strict docs) with [] => first_with docs k = None | (_, v) :: _ => first_with docs k = Some v end.
Proof.
  induction docs as [|d docs IH]; [reflexivity|]. unfold under, all_docs in *. cbn. destruct (dict_get d (VStr k)); cbn; [reflexivity|exact IH].
Qed.
Lemma simple_alike u strict docs g : (exists k, simple_field g k /\ first_with docs k <> Some VNone) -> reads_alike u (all_docs strict docs) (concat docs) g.
Proof.
  intros (k & SF & NN). pose proof (under_docs strict k docs) as UD. pose proof (concat_wins docs k) as CW. destruct (under (KStr k) (all_docs strict docs)) as [|[s v] rest] eqn:Q.
  - apply (ra_at _ u _ _ g k), at_nothing; [destruct SF as [K0]; split; auto; destruct (f_kind g); try contradiction; exact I|exact (sf_key _ _ _ SF)|exact Q|congruence|exact I].
  - apply (ra_at _ u _ _ g k), (at_value _ u _ _ k g _ s v rest SF (sf_key _ _ _ SF) Q); [congruence|congruence|exact I].
Qed.
Lemma flat_calm f t : flat_sub f t -> exists rs, calm (eq (KSubForm t rs UIgnore)) f None.
Proof. intros (n & tags & igm & rs & ->). exists rs. split; cbn; try reflexivity; try exact I; intros h [=]. Qed.
Section Union.
Variables (W : world) (fuel : nat) (strict : bool) (docs : list (list (val * val))) (mm sm : merge) (dp : option Z).
Hypothesis NE : docs <> [].
Hypothesis JD : Forall (fun d => json_val (VDict d) = true) docs.
Let US := USource (map (json_doc strict) docs) mm sm dp.
Let src := union_src strict docs mm sm dp.
Lemma doc_plain one : json_val (VDict one) = true -> plain_data W (ASrc (SBase (BPlain (json_doc strict one)))).
Proof. intros J. now constructor. Qed.

(** Raising and collecting (C40, C41) *)
Lemma C40_union_lem one id t l tags rs u s tg :
  json_val (VDict one) = true -> ignoring u -> in_force s tags tg -> nth_error (forms s) id = Some (t, l) -> bare_form t -> mapping_context s ->
  (forall f, In f (ft_fields t) -> chosen tg f -> reads_alike US (all_docs strict docs) one f) ->
  let x := Form_map W fuel id src tags rs u Collect s in
  let y := Form_map W fuel id src tags rs u Raise s in
  (fst x = Ok [] -> fst y = Ok [] /\ forms (snd y) = forms (snd x)) /\
  (forall e es, fst x = Ok (e :: es) -> exists es', fst y = Exn (EForm (e :: es'))) /\
  (forall e, fst x = Exn e -> fst y = Exn e \/ exists e' es', fst y = Exn (EForm (e' :: es'))) /\
  (forall es, fst y = Ok es -> fst x = Ok [] /\ es = []).
Proof.
  intros JO U IF N B C H x y. assert (Bu : bare_unm u) by (destruct U as [-> | ->]; constructor).
  destruct (deep_lem W fuel strict docs one mm sm dp id tags rs u Collect s t l tg NE JD JO (lv_ignored _ _ _ _ u U) IF N H) as (A1 & A2 & _).
  destruct (deep_lem W fuel strict docs one mm sm dp id tags rs u Raise s t l tg NE JD JO (lv_ignored _ _ _ _ u U) IF N H) as (B1 & B2 & _).
  unfold x, y, src, union_src. rewrite A1, A2, B1, B2. exact (C40_lem W fuel _ id t l tags rs u s (doc_plain one JO) N B Bu C).
Qed.
Lemma C41_union_lem one id t l tags rs u s tg e es :
  json_val (VDict one) = true -> ignoring u -> in_force s tags tg -> nth_error (forms s) id = Some (t, l) -> bare_form t -> mapping_context s ->
  (forall f, In f (ft_fields t) -> chosen tg f -> reads_alike US (all_docs strict docs) one f) ->
  (forall f, In f (ft_fields t) -> single f = true) ->
  fst (Form_map W fuel id src tags rs u Collect s) = Ok (e :: es) -> fst (Form_map W fuel id src tags rs u Raise s) = Exn (EForm [e]).
Proof.
  intros JO U IF N B C H SG. destruct (deep_lem W fuel strict docs one mm sm dp id tags rs u Collect s t l tg NE JD JO (lv_ignored _ _ _ _ u U) IF N H) as (A1 & _).
  destruct (deep_lem W fuel strict docs one mm sm dp id tags rs u Raise s t l tg NE JD JO (lv_ignored _ _ _ _ u U) IF N H) as (B1 & _).
  unfold src, union_src. rewrite A1, B1. exact (C41_lem W fuel _ id t l tags rs u s e es (doc_plain one JO) N B SG U C).
Qed.

(** C38 *)
Variables (doc : list (val * val)) (d : nat) (f : field) (t : formty) (pre post : list field) (n1 n2 : string) (id1 id2 : nat) (s : st) (tg : list string).
Hypothesis JO : json_val (VDict doc) = true.
Hypothesis FU : (S d <= fuel)%nat.
Hypothesis ID : id1 <> id2.
Hypothesis FS : flat_sub f t.
Hypothesis TF : tame_form d t.
Hypothesis TP : forall g, In g pre \/ In g post -> tame d g.
Hypothesis RD : forall g, In g (pre ++ ft_fields t ++ post) -> reads_alike US (all_docs strict docs) doc g.
Hypothesis IF : in_force s [] tg.
Hypothesis N1 : nth_error (forms s) id1 = Some (FormTy n1 (pre ++ f :: post), []).
Hypothesis N2 : nth_error (forms s) id2 = Some (FormTy n2 (pre ++ ft_fields t ++ post), []).
Hypothesis SL : selected (tags_seen (lookup "tags" (stk s))) f = true.
Hypothesis C : mapping_context s.
Let one := ASrc (SBase (BPlain (json_doc strict doc))).
Lemma flat_alike m : same_answer (Form_map W fuel id1 src [] false UIgnore m s) (Form_map W fuel id1 one [] false UIgnore m s).
Proof.
  refine (deep_lem W fuel strict docs doc mm sm dp id1 [] false UIgnore m s _ _ tg NE JD JO (lv_ignored _ _ _ _ _ (or_introl eq_refl)) IF N1 _).
  intros g G _. cbn [ft_fields] in G. apply in_app_or in G. destruct G as [G|[<-|G]].
  - apply RD, in_or_app. auto.
  - destruct (flat_calm f t FS) as (rs & CF). apply (ra_flat _ _ _ _ f t rs UIgnore CF); [destruct docs; [congruence|discriminate]|now apply lv_ignored; left|]. intros g G. apply RD, in_or_app. right. apply in_or_app. auto.
  - apply RD, in_or_app. right. apply in_or_app. auto.
Qed.
Lemma inline_alike m : same_answer (Form_map W fuel id2 src [] false UIgnore m s) (Form_map W fuel id2 one [] false UIgnore m s).
Proof.
  refine (deep_lem W fuel strict docs doc mm sm dp id2 [] false UIgnore m s _ _ tg NE JD JO (lv_ignored _ _ _ _ _ (or_introl eq_refl)) IF N2 _). intros g G _. exact (RD g G).
Qed.
Lemma C38_union_lem es :
  let x := Form_map W fuel id1 src [] false UIgnore Collect s in
  let y := Form_map W fuel id2 src [] false UIgnore Collect s in
  fst y = Ok es ->
  fst x = Ok es /\
  exists l l1 l2, nth_error (forms (snd x)) (length (forms s)) = Some (t, l) /\
    nth_error (forms (snd x)) id1 = Some (FormTy n1 (pre ++ f :: post), l1) /\
    nth_error (forms (snd y)) id2 = Some (FormTy n2 (pre ++ ft_fields t ++ post), l2) /\
    (forall a, ~ has_name pre a -> ~ has_name post a -> dict_get l2 (VStr a) = dict_get l (VStr a)) /\
    (forall a, ~ has_name (ft_fields t) a -> a <> fname f -> dict_get l2 (VStr a) = dict_get l1 (VStr a)) /\
    (es = [] -> ~ has_name post (fname f) -> dict_get l1 (VStr (fname f)) = Some (VForm (length (forms s)))).
Proof.
  cbv zeta. destruct (flat_alike Collect) as (A1 & A2 & _), (inline_alike Collect) as (B1 & B2 & _). rewrite A1, A2, B1, B2.
  exact (C38_collect_lem W fuel d one f t pre post n1 n2 id1 id2 s es (doc_plain _ JO) FU ID FS TF TP N1 N2 SL C).
Qed.
Lemma C38_union_raise_lem es :
  let x := Form_map W fuel id1 src [] false UIgnore Raise s in
  let y := Form_map W fuel id2 src [] false UIgnore Raise s in
  fst y = Ok es ->
  fst x = Ok [] /\
  exists l l1 l2, nth_error (forms (snd x)) (length (forms s)) = Some (t, l) /\
    nth_error (forms (snd x)) id1 = Some (FormTy n1 (pre ++ f :: post), l1) /\
    nth_error (forms (snd y)) id2 = Some (FormTy n2 (pre ++ ft_fields t ++ post), l2) /\
    (forall a, ~ has_name pre a -> ~ has_name post a -> dict_get l2 (VStr a) = dict_get l (VStr a)) /\
    (forall a, ~ has_name (ft_fields t) a -> a <> fname f -> dict_get l2 (VStr a) = dict_get l1 (VStr a)) /\
    (~ has_name post (fname f) -> dict_get l1 (VStr (fname f)) = Some (VForm (length (forms s)))).
Proof.
  cbv zeta. destruct (flat_alike Raise) as (A1 & A2 & _), (inline_alike Raise) as (B1 & B2 & _). rewrite A1, A2, B1, B2.
  exact (C38_raise_lem W fuel d one f t pre post n1 n2 id1 id2 s es (doc_plain _ JO) FU ID FS TF TP N1 N2 SL C).
Qed.
Lemma C38_union_fails_lem e es :
  fst (Form_map W fuel id2 src [] false UIgnore Collect s) = Ok (e :: es) ->
  exists es1 es2,
    fst (Form_map W fuel id1 src [] false UIgnore Raise s) = Exn (EForm (e :: es1)) /\
    fst (Form_map W fuel id2 src [] false UIgnore Raise s) = Exn (EForm (e :: es2)).
Proof.
  destruct (flat_alike Raise) as (A1 & _), (inline_alike Raise) as (B1 & _), (inline_alike Collect) as (B3 & _). rewrite A1, B1, B3.
  exact (C38_fails_lem W fuel d one f t pre post n1 n2 id1 id2 s e es (doc_plain _ JO) FU ID FS TF TP N1 N2 SL C).
Qed.
End Union.
