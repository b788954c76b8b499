(** * PropsNative: unions of Python dicts: their mapping as an evaluation (C30), errors raised and
    collected (C40, C41), mapped again (C47), flat sub-forms (C38). *)
From Verif Require Import PyBase PyStr Source Field Context Fields SpecSrc Eval SpecField SpecForm SpecUnion SpecJson SpecTame SpecJoin Demo PropsEval PropsJson PropsJoin PropsFlat JoinNative.
Open Scope Z_scope.

(** The mapping is the evaluation of the form on the dict that merges the others. *)
Theorem C30_native_union_map_is_evaluation : forall W fuel P docs merging seqs depth one id tags rs u m s t l tg,
  docs <> [] -> plain_native (w_env W) P -> sentinel_ok (w_env W) P -> Forall (fun d => P (VDict d)) docs -> P (VDict one) ->
  leaves_with (native_read (w_env W)) (USource (map native_doc docs) merging seqs depth) (all_native docs) one u -> direct_unm u -> in_force s tags tg -> nth_error (forms s) id = Some (t, l) ->
  direct_form t -> mapping_context s ->
  (forall f, In f (ft_fields t) -> chosen tg f -> reads_with (native_read (w_env W)) (USource (map native_doc docs) merging seqs depth) (all_native docs) one f) ->
  let src := ASrc (SBase (BUnion (USource (map native_doc docs) merging seqs depth))) in
  let x := Form_map W fuel id src tags rs u m s in
  (fst x, forms (snd x)) = ev_map W fuel (outer_of s) (SDefault (VDict one) [] [] None) (VDict one) id tags rs u m (forms s) /\ stk (snd x) = stk s.
Proof. intros W fuel P docs mm sm dp one id tags rs u m s t l tg NE PN SE JD JO. exact (C30_native_union_lem W fuel P docs mm sm dp one NE PN SE JD JO id tags rs u m s t l tg). Qed.
Print Assumptions C30_native_union_map_is_evaluation.

(** Errors raised and collected *)
Theorem C40_native_union : forall W fuel P docs merging seqs depth one id t l tags rs u s tg,
  docs <> [] -> plain_native (w_env W) P -> sentinel_ok (w_env W) P -> Forall (fun d => P (VDict d)) docs -> P (VDict one) ->
  ignoring u -> in_force s tags tg -> nth_error (forms s) id = Some (t, l) -> bare_form t -> mapping_context s ->
  (forall f, In f (ft_fields t) -> chosen tg f -> reads_with (native_read (w_env W)) (USource (map native_doc docs) merging seqs depth) (all_native docs) one f) ->
  let src := ASrc (SBase (BUnion (USource (map native_doc docs) merging seqs depth))) in
  let x := Form_map W fuel id src tags rs u Collect s in
  let y := Form_map W fuel id src tags rs u Raise s in
  (fst x = Ok [] -> fst y = Ok [] /\ forms (snd y) = forms (snd x)) /\
  (forall e es, fst x = Ok (e :: es) -> exists es', fst y = Exn (EForm (e :: es'))) /\
  (forall e, fst x = Exn e -> fst y = Exn e \/ exists e' es', fst y = Exn (EForm (e' :: es'))) /\
  (forall es, fst y = Ok es -> fst x = Ok [] /\ es = []).
Proof. intros W fuel P docs mm sm dp one id t l tags rs u s tg NE PN SE JD JO. exact (C40_native_union_lem W fuel P docs mm sm dp one NE PN SE JD JO id t l tags rs u s tg). Qed.
Print Assumptions C40_native_union.
(** One error where no field gives several *)
Theorem C41_native_union : forall W fuel P docs merging seqs depth one id t l tags rs u s tg e es,
  docs <> [] -> plain_native (w_env W) P -> sentinel_ok (w_env W) P -> Forall (fun d => P (VDict d)) docs -> P (VDict one) ->
  ignoring u -> in_force s tags tg -> nth_error (forms s) id = Some (t, l) -> bare_form t -> mapping_context s ->
  (forall f, In f (ft_fields t) -> chosen tg f -> reads_with (native_read (w_env W)) (USource (map native_doc docs) merging seqs depth) (all_native docs) one f) ->
  (forall f, In f (ft_fields t) -> single f = true) ->
  let src := ASrc (SBase (BUnion (USource (map native_doc docs) merging seqs depth))) in
  fst (Form_map W fuel id src tags rs u Collect s) = Ok (e :: es) -> fst (Form_map W fuel id src tags rs u Raise s) = Exn (EForm [e]).
Proof. intros W fuel P docs mm sm dp one id t l tags rs u s tg e es NE PN SE JD JO. exact (C41_native_union_lem W fuel P docs mm sm dp one NE PN SE JD JO id t l tags rs u s tg e es). Qed.
Print Assumptions C41_native_union.

(** Mapped again, it reports the same and changes nothing. *)
Theorem C47_native_union_partial : forall W fuel P docs merging seqs depth one d id tags rs u s t l tg,
  docs <> [] -> plain_native (w_env W) P -> sentinel_ok (w_env W) P -> Forall (fun d => P (VDict d)) docs -> P (VDict one) ->
  ignoring u -> in_force s tags tg -> nth_error (forms s) id = Some (t, l) -> tame_form d t -> mapping_context s ->
  (forall f, In f (ft_fields t) -> chosen tg f -> reads_with (native_read (w_env W)) (USource (map native_doc docs) merging seqs depth) (all_native docs) one f) ->
  let src := ASrc (SBase (BUnion (USource (map native_doc docs) merging seqs depth))) in
  (let again := Form_map W fuel id src tags rs u Collect in
   same_report (fst (again s)) (fst (again (snd (again s)))) /\ forms (snd (again (snd (again s)))) = forms (snd (again s))) /\
  (let again := Form_map W fuel id src tags rs u Raise in
   same_raised (fst (again s)) (fst (again (snd (again s)))) /\ forms (snd (again (snd (again s)))) = forms (snd (again s))).
Proof. intros W fuel P docs mm sm dp one d id tags rs u s t l tg NE PN SE JD JO. exact (C47_native_union_lem W fuel P docs mm sm dp one NE PN SE JD JO d id tags rs u s t l tg). Qed.
Print Assumptions C47_native_union_partial.

(** A flat sub-form reads the union as its fields in its place do: errors collected... *)
Theorem C38_native_union_flat_partial : forall W fuel P docs merging seqs depth one d f t pre post n1 n2 id1 id2 s tg es,
  docs <> [] -> plain_native (w_env W) P -> sentinel_ok (w_env W) P -> Forall (fun d => P (VDict d)) docs -> P (VDict one) ->
  (S d <= fuel)%nat -> id1 <> id2 ->
  flat_sub f t -> tame_form d t -> (forall g, In g pre \/ In g post -> tame d g) ->
  (forall g, In g (pre ++ ft_fields t ++ post) -> reads_with (native_read (w_env W)) (USource (map native_doc docs) merging seqs depth) (all_native docs) one g) -> in_force s [] tg ->
  nth_error (forms s) id1 = Some (FormTy n1 (pre ++ f :: post), []) ->
  nth_error (forms s) id2 = Some (FormTy n2 (pre ++ ft_fields t ++ post), []) ->
  selected (tags_seen (lookup "tags" (stk s))) f = true -> mapping_context s ->
  let src := ASrc (SBase (BUnion (USource (map native_doc docs) merging seqs depth))) in
  let x := Form_map W fuel id1 src [] false UIgnore Collect s in
  let y := Form_map W fuel id2 src [] false UIgnore Collect s in
  fst y = Ok es ->
  fst x = Ok es /\
  exists l l1 l2, nth_error (forms (snd x)) (length (forms s)) = Some (t, l) /\
    nth_error (forms (snd x)) id1 = Some (FormTy n1 (pre ++ f :: post), l1) /\
    nth_error (forms (snd y)) id2 = Some (FormTy n2 (pre ++ ft_fields t ++ post), l2) /\
    (forall a, ~ has_name pre a -> ~ has_name post a -> dict_get l2 (VStr a) = dict_get l (VStr a)) /\
    (forall a, ~ has_name (ft_fields t) a -> a <> fname f -> dict_get l2 (VStr a) = dict_get l1 (VStr a)) /\
    (es = [] -> ~ has_name post (fname f) -> dict_get l1 (VStr (fname f)) = Some (VForm (length (forms s)))).
Proof.
  intros W fuel P docs mm sm dp one d f t pre post n1 n2 id1 id2 s tg es NE PN SE JD JO. intros FU ID FS TF TP RD IF N1 N2 SL C.
  exact (C38_native_union_lem W fuel P docs mm sm dp one NE PN SE JD JO d f t pre post n1 n2 id1 id2 s tg FU ID FS TF TP RD IF N1 N2 SL C es).
Qed.
Print Assumptions C38_native_union_flat_partial.
(** ...or raised, without an error... *)
Theorem C38_native_union_raise_partial : forall W fuel P docs merging seqs depth one d f t pre post n1 n2 id1 id2 s tg es,
  docs <> [] -> plain_native (w_env W) P -> sentinel_ok (w_env W) P -> Forall (fun d => P (VDict d)) docs -> P (VDict one) ->
  (S d <= fuel)%nat -> id1 <> id2 ->
  flat_sub f t -> tame_form d t -> (forall g, In g pre \/ In g post -> tame d g) ->
  (forall g, In g (pre ++ ft_fields t ++ post) -> reads_with (native_read (w_env W)) (USource (map native_doc docs) merging seqs depth) (all_native docs) one g) -> in_force s [] tg ->
  nth_error (forms s) id1 = Some (FormTy n1 (pre ++ f :: post), []) ->
  nth_error (forms s) id2 = Some (FormTy n2 (pre ++ ft_fields t ++ post), []) ->
  selected (tags_seen (lookup "tags" (stk s))) f = true -> mapping_context s ->
  let src := ASrc (SBase (BUnion (USource (map native_doc docs) merging seqs depth))) in
  let x := Form_map W fuel id1 src [] false UIgnore Raise s in
  let y := Form_map W fuel id2 src [] false UIgnore Raise s in
  fst y = Ok es ->
  fst x = Ok [] /\
  exists l l1 l2, nth_error (forms (snd x)) (length (forms s)) = Some (t, l) /\
    nth_error (forms (snd x)) id1 = Some (FormTy n1 (pre ++ f :: post), l1) /\
    nth_error (forms (snd y)) id2 = Some (FormTy n2 (pre ++ ft_fields t ++ post), l2) /\
    (forall a, ~ has_name pre a -> ~ has_name post a -> dict_get l2 (VStr a) = dict_get l (VStr a)) /\
    (forall a, ~ has_name (ft_fields t) a -> a <> fname f -> dict_get l2 (VStr a) = dict_get l1 (VStr a)) /\
    (~ has_name post (fname f) -> dict_get l1 (VStr (fname f)) = Some (VForm (length (forms s)))).
Proof.
  intros W fuel P docs mm sm dp one d f t pre post n1 n2 id1 id2 s tg es NE PN SE JD JO. intros FU ID FS TF TP RD IF N1 N2 SL C.
  exact (C38_native_union_raise_lem W fuel P docs mm sm dp one NE PN SE JD JO d f t pre post n1 n2 id1 id2 s tg FU ID FS TF TP RD IF N1 N2 SL C es).
Qed.
Print Assumptions C38_native_union_raise_partial.
(** ...or with one. *)
Theorem C38_native_union_fails_partial : forall W fuel P docs merging seqs depth one d f t pre post n1 n2 id1 id2 s tg e es,
  docs <> [] -> plain_native (w_env W) P -> sentinel_ok (w_env W) P -> Forall (fun d => P (VDict d)) docs -> P (VDict one) ->
  (S d <= fuel)%nat -> id1 <> id2 ->
  flat_sub f t -> tame_form d t -> (forall g, In g pre \/ In g post -> tame d g) ->
  (forall g, In g (pre ++ ft_fields t ++ post) -> reads_with (native_read (w_env W)) (USource (map native_doc docs) merging seqs depth) (all_native docs) one g) -> in_force s [] tg ->
  nth_error (forms s) id1 = Some (FormTy n1 (pre ++ f :: post), []) ->
  nth_error (forms s) id2 = Some (FormTy n2 (pre ++ ft_fields t ++ post), []) ->
  selected (tags_seen (lookup "tags" (stk s))) f = true -> mapping_context s ->
  let src := ASrc (SBase (BUnion (USource (map native_doc docs) merging seqs depth))) in
  fst (Form_map W fuel id2 src [] false UIgnore Collect s) = Ok (e :: es) ->
  exists es1 es2,
    fst (Form_map W fuel id1 src [] false UIgnore Raise s) = Exn (EForm (e :: es1)) /\
    fst (Form_map W fuel id2 src [] false UIgnore Raise s) = Exn (EForm (e :: es2)).
Proof.
  intros W fuel P docs mm sm dp one d f t pre post n1 n2 id1 id2 s tg e es NE PN SE JD JO. intros FU ID FS TF TP RD IF N1 N2 SL C.
  exact (C38_native_union_fails_lem W fuel P docs mm sm dp one NE PN SE JD JO d f t pre post n1 n2 id1 id2 s tg FU ID FS TF TP RD IF N1 N2 SL C e es).
Qed.
Print Assumptions C38_native_union_fails_partial.

(** The forms and dicts of C103_native_case, and those of C38_union_case with Python dicts *)
Example C30_native_union_case : direct_form native_form /\ bare_form native_form /\ tame_form 2 (FormTy "Counts" [counts]) /\ mapping_context (held native_form) /\
  (forall f, In f (ft_fields inner) -> single f = true) /\ (exists e es, fst native_run = Ok (e :: es)).
Proof.
  assert (DI : direct_form inner) by (constructor; intros f [<-|[<-|[]]]; apply direct_fld; constructor).
  assert (BI : bare_form inner) by (constructor; intros f [<-|[<-|[]]]; apply bare_fld; constructor).
  split; [constructor; intros f [<-|[<-|[<-|[]]]]; apply direct_fld; [constructor; [exact DI|constructor]|constructor; try apply direct_anon; try constructor; intros ? [=]|constructor]|].
  split; [constructor; intros f [<-|[<-|[<-|[]]]]; apply bare_fld; [constructor; [exact BI|constructor]|constructor; apply bare_anon; constructor|constructor]|].
  split; [intros f [<-|[]]; split; [split; cbn; try reflexivity; try easy; now intros k0 [= <-]|]; (repeat split); cbn; try reflexivity; try easy; now intros k0 [=]|].
  split; [repeat split; eexists; reflexivity|]. split; [intros f [<-|[<-|[]]]; reflexivity|]. vm_compute. eauto.
Qed.
Example C38_native_union_case : Forall (fun d => tidy (VDict d) = true) of_both /\ tidy (VDict (concat of_both)) = true /\
  (forall g, In g (ft_fields in_place) -> reads_with (native_read env0) (USource (map native_doc of_both) MLast MLast None) (all_native of_both) (concat of_both) g) /\
  fst (Form_map world0 4 1 (ASrc (SBase (BUnion (USource (map native_doc of_both) MLast MLast None)))) [] false UIgnore Collect both_held) = Ok [].
Proof.
  split; [repeat constructor|]. split; [reflexivity|]. split; [|vm_compute; reflexivity].
  intros g [<-|[<-|[<-|[<-|[]]]]]; [eapply (ra_at _ _ _ _ _ "p")|eapply (ra_at _ _ _ _ _ "a")|eapply (ra_at _ _ _ _ _ "b")|eapply (ra_at _ _ _ _ _ "q")]; nreads.
Qed.
