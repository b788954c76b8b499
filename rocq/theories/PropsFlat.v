(** * PropsFlat: unions of JSON documents: flat sub-forms (C38), errors raised and collected (C40, C41). *)
From Verif Require Import PyBase PyStr Source Field Context Fields SpecSrc Eval SpecField SpecForm SpecUnion SpecJson SpecTame SpecJoin Demo PropsJson PropsJoin JoinFlat.
Open Scope Z_scope.

(** Forms within forms mapped from a union: raising and collecting agree as they do for one document. *)
Theorem C40_union : forall W n strict docs merging seqs depth one id t l tags rs u s tg,
  docs <> [] -> Forall (fun d => json_val (VDict d) = true) docs -> json_val (VDict one) = true ->
  ignoring u -> in_force s tags tg -> nth_error (forms s) id = Some (t, l) -> bare_form t -> mapping_context s ->
  (forall f, In f (ft_fields t) -> chosen tg f -> reads_alike (USource (map (json_doc strict) docs) merging seqs depth) (all_docs strict docs) one f) ->
  let src := ASrc (SBase (BUnion (USource (map (json_doc strict) docs) merging seqs depth))) in
  let x := Form_map W n id src tags rs u Collect s in
  let y := Form_map W n id src tags rs u Raise s in
  (fst x = Ok [] -> fst y = Ok [] /\ forms (snd y) = forms (snd x)) /\
  (forall e es, fst x = Ok (e :: es) -> exists es', fst y = Exn (EForm (e :: es'))) /\
  (forall e, fst x = Exn e -> fst y = Exn e \/ exists e' es', fst y = Exn (EForm (e' :: es'))) /\
  (forall es, fst y = Ok es -> fst x = Ok [] /\ es = []).
Proof. intros W n strict docs mm sm dp one id t l tags rs u s tg NE JD. exact (C40_union_lem W n strict docs mm sm dp NE JD one id t l tags rs u s tg). Qed.
Print Assumptions C40_union.

(** With single values only, the first error collected is the one raised. *)
Theorem C41_union : forall W n strict docs merging seqs depth one id t l tags rs u s tg e es,
  docs <> [] -> Forall (fun d => json_val (VDict d) = true) docs -> json_val (VDict one) = true ->
  ignoring u -> in_force s tags tg -> nth_error (forms s) id = Some (t, l) -> bare_form t -> mapping_context s ->
  (forall f, In f (ft_fields t) -> chosen tg f -> reads_alike (USource (map (json_doc strict) docs) merging seqs depth) (all_docs strict docs) one f) ->
  (forall f, In f (ft_fields t) -> single f = true) ->
  let src := ASrc (SBase (BUnion (USource (map (json_doc strict) docs) merging seqs depth))) in
  fst (Form_map W n id src tags rs u Collect s) = Ok (e :: es) -> fst (Form_map W n id src tags rs u Raise s) = Exn (EForm [e]).
Proof. intros W n strict docs mm sm dp one id t l tags rs u s tg e es NE JD. exact (C41_union_lem W n strict docs mm sm dp NE JD one id t l tags rs u s tg e es). Qed.
Print Assumptions C41_union.
Example C40_union_case : bare_form outer /\ bare_form inner /\ mapping_context (held outer) /\ (forall f, In f (ft_fields inner) -> single f = true) /\
  (exists e es, fst (Form_map world0 4 0 (of_union two_docs MCombine) [] true UIgnore Collect (held outer)) = Ok (e :: es)) /\
  (exists e es, fst (Form_map world0 4 0 (of_union two_docs MCombine) [] true UIgnore Raise (held outer)) = Exn (EForm (e :: es))).
Proof.
  assert (B : bare_form inner) by (constructor; intros f [<-|[<-|[]]]; apply bare_fld; constructor).
  split; [constructor; intros f [<-|[<-|[]]]; apply bare_fld; constructor; [exact B|constructor]|]. split; [exact B|]. split; [repeat split; eexists; reflexivity|].
  split; [intros f [<-|[<-|[]]]; reflexivity|]. split; vm_compute; eauto.
Qed.

(** A flat sub-form reads the union as its fields in its place do: errors collected... *)
Theorem C38_union_flat_partial : forall W fuel d strict docs merging seqs depth one f t pre post n1 n2 id1 id2 s tg es,
  docs <> [] -> Forall (fun d => json_val (VDict d) = true) docs -> json_val (VDict one) = true -> (S d <= fuel)%nat -> id1 <> id2 ->
  flat_sub f t -> tame_form d t -> (forall g, In g pre \/ In g post -> tame d g) ->
  (forall g, In g (pre ++ ft_fields t ++ post) -> reads_alike (USource (map (json_doc strict) docs) merging seqs depth) (all_docs strict docs) one g) -> in_force s [] tg ->
  nth_error (forms s) id1 = Some (FormTy n1 (pre ++ f :: post), []) ->
  nth_error (forms s) id2 = Some (FormTy n2 (pre ++ ft_fields t ++ post), []) ->
  selected (tags_seen (lookup "tags" (stk s))) f = true -> mapping_context s ->
  let src := ASrc (SBase (BUnion (USource (map (json_doc strict) docs) merging seqs depth))) in
  let x := Form_map W fuel id1 src [] false UIgnore Collect s in
  let y := Form_map W fuel id2 src [] false UIgnore Collect s in
  fst y = Ok es ->
  fst x = Ok es /\
  exists l l1 l2, nth_error (forms (snd x)) (length (forms s)) = Some (t, l) /\
    nth_error (forms (snd x)) id1 = Some (FormTy n1 (pre ++ f :: post), l1) /\
    nth_error (forms (snd y)) id2 = Some (FormTy n2 (pre ++ ft_fields t ++ post), l2) /\
    (forall a, ~ has_name pre a -> ~ has_name post a -> dict_get l2 (VStr a) = dict_get l (VStr a)) /\
    (forall a, ~ has_name (ft_fields t) a -> a <> fname f -> dict_get l2 (VStr a) = dict_get l1 (VStr a)) /\
    (es = [] -> ~ has_name post (fname f) -> dict_get l1 (VStr (fname f)) = Some (VForm (length (forms s)))).
Proof.
  intros W fuel d strict docs mm sm dp one f t pre post n1 n2 id1 id2 s tg es NE JD JO FU ID FS TF TP RD IF N1 N2 SL C.
  exact (C38_union_lem W fuel strict docs mm sm dp NE JD one d f t pre post n1 n2 id1 id2 s tg JO FU ID FS TF TP RD IF N1 N2 SL C es).
Qed.
Print Assumptions C38_union_flat_partial.

(** ...or raised, without an error... *)
Theorem C38_union_raise_partial : forall W fuel d strict docs merging seqs depth one f t pre post n1 n2 id1 id2 s tg es,
  docs <> [] -> Forall (fun d => json_val (VDict d) = true) docs -> json_val (VDict one) = true -> (S d <= fuel)%nat -> id1 <> id2 ->
  flat_sub f t -> tame_form d t -> (forall g, In g pre \/ In g post -> tame d g) ->
  (forall g, In g (pre ++ ft_fields t ++ post) -> reads_alike (USource (map (json_doc strict) docs) merging seqs depth) (all_docs strict docs) one g) -> in_force s [] tg ->
  nth_error (forms s) id1 = Some (FormTy n1 (pre ++ f :: post), []) ->
  nth_error (forms s) id2 = Some (FormTy n2 (pre ++ ft_fields t ++ post), []) ->
  selected (tags_seen (lookup "tags" (stk s))) f = true -> mapping_context s ->
  let src := ASrc (SBase (BUnion (USource (map (json_doc strict) docs) merging seqs depth))) in
  let x := Form_map W fuel id1 src [] false UIgnore Raise s in
  let y := Form_map W fuel id2 src [] false UIgnore Raise s in
  fst y = Ok es ->
  fst x = Ok [] /\
  exists l l1 l2, nth_error (forms (snd x)) (length (forms s)) = Some (t, l) /\
    nth_error (forms (snd x)) id1 = Some (FormTy n1 (pre ++ f :: post), l1) /\
    nth_error (forms (snd y)) id2 = Some (FormTy n2 (pre ++ ft_fields t ++ post), l2) /\
    (forall a, ~ has_name pre a -> ~ has_name post a -> dict_get l2 (VStr a) = dict_get l (VStr a)) /\
    (forall a, ~ has_name (ft_fields t) a -> a <> fname f -> dict_get l2 (VStr a) = dict_get l1 (VStr a)) /\
    (~ has_name post (fname f) -> dict_get l1 (VStr (fname f)) = Some (VForm (length (forms s)))).
Proof.
  intros W fuel d strict docs mm sm dp one f t pre post n1 n2 id1 id2 s tg es NE JD JO FU ID FS TF TP RD IF N1 N2 SL C.
  exact (C38_union_raise_lem W fuel strict docs mm sm dp NE JD one d f t pre post n1 n2 id1 id2 s tg JO FU ID FS TF TP RD IF N1 N2 SL C es).
Qed.
Print Assumptions C38_union_raise_partial.

(** ...and with errors both raise one that begins with the same. *)
Theorem C38_union_fails_partial : forall W fuel d strict docs merging seqs depth one f t pre post n1 n2 id1 id2 s tg e es,
  docs <> [] -> Forall (fun d => json_val (VDict d) = true) docs -> json_val (VDict one) = true -> (S d <= fuel)%nat -> id1 <> id2 ->
  flat_sub f t -> tame_form d t -> (forall g, In g pre \/ In g post -> tame d g) ->
  (forall g, In g (pre ++ ft_fields t ++ post) -> reads_alike (USource (map (json_doc strict) docs) merging seqs depth) (all_docs strict docs) one g) -> in_force s [] tg ->
  nth_error (forms s) id1 = Some (FormTy n1 (pre ++ f :: post), []) ->
  nth_error (forms s) id2 = Some (FormTy n2 (pre ++ ft_fields t ++ post), []) ->
  selected (tags_seen (lookup "tags" (stk s))) f = true -> mapping_context s ->
  let src := ASrc (SBase (BUnion (USource (map (json_doc strict) docs) merging seqs depth))) in
  fst (Form_map W fuel id2 src [] false UIgnore Collect s) = Ok (e :: es) ->
  exists es1 es2,
    fst (Form_map W fuel id1 src [] false UIgnore Raise s) = Exn (EForm (e :: es1)) /\
    fst (Form_map W fuel id2 src [] false UIgnore Raise s) = Exn (EForm (e :: es2)).
Proof.
  intros W fuel d strict docs mm sm dp one f t pre post n1 n2 id1 id2 s tg e es NE JD JO FU ID FS TF TP RD IF N1 N2 SL C.
  exact (C38_union_fails_lem W fuel strict docs mm sm dp NE JD one d f t pre post n1 n2 id1 id2 s tg JO FU ID FS TF TP RD IF N1 N2 SL C e es).
Qed.
Print Assumptions C38_union_fails_partial.

(** [class Flat(Form): p = Integer(); sub = SubForm(Inner, flat=True); q = String()], and the same with the fields in place *)
Definition sub_here : field := MkField (MkOpts (Some "sub") None true (DUnset None) [] [] [] false None None None None None None) (KSubForm inner false UIgnore).
Definition with_flat : formty := FormTy "Flat" ([fld "p" (KInteger None None)] ++ sub_here :: [fld "q" (KString no_strc)]).
Definition in_place : formty := FormTy "Inline" ([fld "p" (KInteger None None)] ++ ft_fields inner ++ [fld "q" (KString no_strc)]).
Definition of_both : list (list (val * val)) := [[entry "p" (VInt 1); entry "a" (VInt 4)]; [entry "a" (VInt 9); entry "b" (VStr "x"); entry "q" (VStr "y")]].
Definition both_held : st := St [base_frame] [(with_flat, []); (in_place, [])] [] [].
Example C38_union_case : of_both <> [] /\ Forall (fun d => json_val (VDict d) = true) of_both /\ flat_sub sub_here inner /\ tame_form 1 inner /\
  (forall g, In g [fld "p" (KInteger None None)] \/ In g [fld "q" (KString no_strc)] -> tame 1 g) /\
  json_val (VDict (concat of_both)) = true /\ (forall m g, In g (ft_fields in_place) -> reads_alike (USource (map (json_doc false) of_both) m m None) (all_docs false of_both) (concat of_both) g) /\ in_force both_held [] [] /\
  selected (tags_seen (lookup "tags" (stk both_held))) sub_here = true /\ mapping_context both_held /\
  fst (Form_map world0 4 1 (of_union of_both MLast) [] false UIgnore Collect both_held) = Ok [] /\
  forms (snd (Form_map world0 4 0 (of_union of_both MLast) [] false UIgnore Collect both_held)) =
    [(with_flat, [(VStr "p", VInt 1); (VStr "sub", VForm 2); (VStr "q", VStr "y")]); (in_place, []); (inner, [(VStr "a", VInt 4); (VStr "b", VStr "x")])] /\
  (exists e es, fst (Form_map world0 4 1 (of_union flat_docs MLast) [] false UIgnore Collect both_held) = Ok (e :: es)).
Proof.
  assert (TI : forall n a b, tame 1 (fld n (KInteger a b))) by (intros; split; [split; cbn; try reflexivity; try easy; now intros k0 [= <-]|exact I]).
  assert (TS : forall n, tame 1 (fld n (KString no_strc))) by (intros; split; [split; cbn; try reflexivity; try easy; now intros k0 [= <-]|exact I]).
  split; [discriminate|]. split; [repeat constructor|]. split; [unfold flat_sub; do 4 eexists; reflexivity|]. split; [intros g [<-|[<-|[]]]; first [apply TI|apply TS]|].
  split; [intros g [[<-|[]]|[<-|[]]]; first [apply TI|apply TS]|].
  split; [reflexivity|]. split; [intros m g [<-|[<-|[<-|[<-|[]]]]]; apply simple_alike; [exists "p"|exists "a"|exists "b"|exists "q"]; (split; [simple|vm_compute; discriminate])|].
  split; [right; split; [reflexivity|vm_compute; auto]|]. split; [reflexivity|]. split; [repeat split; eexists; reflexivity|]. split; [vm_compute; reflexivity|]. split; vm_compute; eauto.
Qed.
(** The flat form of C103 itself, here below a key *)
Definition deep_flat : formty := FormTy "Deep" [fld "x" (KInteger None None); fld "in" (KSubForm (FormTy "Mid" [sub_here]) true UIgnore)].
Example C103_flat_case : forall f, In f (ft_fields deep_flat) -> reads_alike (two_union MCombine) (all_docs false two_docs) one_all f.
Proof.
  intros f [<-|[<-|[]]]; [eapply (ra_at _ _ _ _ _ "x"), at_value; [simple|split; reflexivity|reflexivity|discriminate|reflexivity|exact I]|].
  eapply (ra_at _ _ _ _ _ "in"), (at_form _ _ _ _ _ _ _ (FormTy "Mid" [sub_here]) true UIgnore); [simple|split; reflexivity|discriminate|reflexivity|reflexivity|now apply lv_ignored; left|].
  intros g [<-|[]]. eapply (ra_flat _ _ _ _ _ inner false UIgnore); [split; cbn; try exact I; try reflexivity; intros ? [=]|discriminate|now apply lv_ignored; left|].
  intros g [<-|[<-|[]]]; [eapply (ra_at _ _ _ _ _ "a"), at_value; [simple|split; reflexivity|reflexivity|discriminate|reflexivity|exact I]|eapply (ra_at _ _ _ _ _ "b"), at_value; [simple|split; reflexivity|reflexivity|discriminate|reflexivity|exact I]].
Qed.
