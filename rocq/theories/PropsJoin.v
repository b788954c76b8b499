(** * PropsJoin: forms mapped from a union of documents (C102, C103). *)
From Verif Require Import PyBase PyStr Source Field Context Fields SpecSrc Eval SpecField SpecForm SpecTame SpecUnion SpecJoin Demo PropsEval JoinProofs JoinLemmas AgainProofs JoinTree JoinAgain.
Open Scope Z_scope.

(** A form of strings, numbers, booleans, dates, code and fields of no type maps from a union of JSON documents, however
    they are merged, as from one document that has at each key what the first of them with the key
    has there: the same values, errors and exceptions, at the same places. *)
Theorem C102_first_wins : forall W n strict docs one merging seqs depth id tags reset u m s t l tg,
  docs <> [] -> Forall (fun d => json_val (VDict d) = true) docs -> json_val (VDict one) = true -> first_wins docs one ->
  ignoring u -> in_force s tags tg -> nth_error (forms s) id = Some (t, l) ->
  (forall f, In f (ft_fields t) -> chosen tg f -> exists k, simple_field f k /\ first_with docs k <> Some VNone) ->
  let x := Form_map W n id (ASrc (SBase (BUnion (USource (map (json_doc strict) docs) merging seqs depth)))) tags reset u m s in
  let y := Form_map W n id (ASrc (SBase (BPlain (json_doc strict one)))) tags reset u m s in
  fst x = fst y /\ forms (snd x) = forms (snd y) /\ errs (snd x) = errs (snd y) /\ stk (snd x) = stk (snd y).
Proof. exact join_lem. Qed.
Print Assumptions C102_first_wins.

(** The same for dicts of plain Python data, where the values read are no dates or times. *)
Theorem C102_native : forall W n docs one merging seqs depth id tags reset u m s t l tg P,
  docs <> [] -> plain_native (w_env W) P -> Forall (fun d => P (VDict d)) docs -> P (VDict one) -> first_wins docs one ->
  ignoring u -> in_force s tags tg -> nth_error (forms s) id = Some (t, l) ->
  (forall f, In f (ft_fields t) -> chosen tg f -> exists k, simple_field f k /\ plain_read (w_env W) docs one k) ->
  let x := Form_map W n id (ASrc (SBase (BUnion (USource (map native_doc docs) merging seqs depth)))) tags reset u m s in
  let y := Form_map W n id (ASrc (SBase (BPlain (native_doc one)))) tags reset u m s in
  fst x = fst y /\ forms (snd x) = forms (snd y) /\ errs (snd x) = errs (snd y) /\ stk (snd x) = stk (snd y).
Proof. exact join_native_lem. Qed.
Print Assumptions C102_native.

Definition entry (k : string) (v : val) : val * val := (VStr k, v).
Definition flat : formty := FormTy "Flat" [fld "a" (KInteger None (Some (VInt 5))); fld "b" (KString no_strc); fld "c" KBool].
Definition flat_docs : list (list (val * val)) := [[entry "a" (VInt 7)]; [entry "a" (VInt 2); entry "b" (VStr "x")]].
Definition flat_one : list (val * val) := [entry "a" (VInt 7); entry "b" (VStr "x")].
Definition held (t : formty) : st := St [base_frame] [(t, [])] [] [].
Definition of_union (docs : list (list (val * val))) (m : merge) : srcarg := ASrc (SBase (BUnion (USource (map (json_doc false) docs) m m None))).
Definition of_doc (one : list (val * val)) : srcarg := ASrc (SBase (BPlain (json_doc false one))).
Ltac simple := split; cbn; try exact I; try reflexivity; try (intros ? Q; discriminate); split; reflexivity.
Lemma flat_wins : first_wins flat_docs flat_one.
Proof.
  intros k. unfold flat_docs, flat_one, entry. cbn [first_with]. unfold dict_get. cbn [find fst].
  destruct (py_eq (VStr "a") (VStr k)) eqn:A; [reflexivity|]. cbn [option_map]. now destruct (py_eq (VStr "b") (VStr k)).
Qed.
Example C102_case : flat_docs <> [] /\ Forall (fun d => json_val (VDict d) = true) flat_docs /\ json_val (VDict flat_one) = true /\
  first_wins flat_docs flat_one /\ in_force (held flat) [] [] /\
  (forall f, In f (ft_fields flat) -> chosen [] f -> exists k, simple_field f k /\ first_with flat_docs k <> Some VNone) /\
  (exists a b, fst (Form_map world0 3 0 (of_union flat_docs MLast) [] true UIgnore Collect (held flat)) = Ok [a; b]).
Proof.
  split; [discriminate|]. split; [repeat constructor|]. split; [reflexivity|]. split; [exact flat_wins|]. split.
  { right. split; [reflexivity|]. vm_compute. auto. }
  split; [|vm_compute; eauto]. intros f [<-|[<-|[<-|[]]]] _; [exists "a"|exists "b"|exists "c"]; (split; [simple|vm_compute; discriminate]).
Qed.

Example C102_native_case : plain_native env0 (fun v => tidy v = true) /\ Forall (fun d => tidy (VDict d) = true) flat_docs /\ tidy (VDict flat_one) = true /\
  (forall f, In f (ft_fields flat) -> chosen [] f -> exists k, simple_field f k /\ plain_read env0 flat_docs flat_one k).
Proof.
  split; [exact tidy_native|]. split; [repeat constructor|]. split; [reflexivity|].
  intros f [<-|[<-|[<-|[]]]] _; [exists "a"|exists "b"|exists "c"]; (split; [simple|vm_compute; try exact I; reflexivity]).
Qed.

(** With a null at the key they differ, also for a field that takes nulls... *)
Theorem C102_null_refuted : exists W n docs one t s,
  docs <> [] /\ Forall (fun d => json_val (VDict d) = true) docs /\ json_val (VDict one) = true /\ first_wins docs one /\
  nth_error (forms s) 0 = Some (t, []) /\ (forall f, In f (ft_fields t) -> exists k, simple_field f k) /\
  fst (Form_map W n 0 (of_doc one) [] true UIgnore Collect s) = Ok [] /\ fst (Form_map W n 0 (of_union docs MCombine) [] true UIgnore Collect s) <> Ok [].
Proof.
  set (f := MkField (MkOpts (Some "a") (Some (KStr "a")) true (DUnset None) [] [] [] false None None None None None None) (KInteger None None)).
  exists world0, 3%nat, [[entry "a" VNone]], [entry "a" VNone], (FormTy "F" [f]), (held (FormTy "F" [f])).
  split; [discriminate|]. split; [repeat constructor|]. split; [reflexivity|]. split; [intros k; cbn; now destruct (dict_get _ _)|]. split; [reflexivity|].
  split; [intros g [<-|[]]; exists "a"; simple|]. split; vm_compute; [reflexivity|discriminate].
Qed.
Print Assumptions C102_null_refuted.
(** ...and so does a Decimal, which looks at the number itself in the document and at its text in the
    union. *)
Theorem C102_decimal_refuted : exists W n docs one t s,
  docs <> [] /\ Forall (fun d => json_val (VDict d) = true) docs /\ json_val (VDict one) = true /\ first_wins docs one /\
  nth_error (forms s) 0 = Some (t, []) /\ ft_fields t = [fld "a" (KDecimal None None)] /\
  fst (Form_map W n 0 (ASrc (SBase (BPlain (json_doc true one)))) [] true UIgnore Collect s) = Ok [] /\
  fst (Form_map W n 0 (ASrc (SBase (BUnion (USource (map (json_doc true) docs) MCombine MCombine None)))) [] true UIgnore Collect s) <> Ok [].
Proof.
  set (t := FormTy "F" [fld "a" (KDecimal None None)]). exists world0, 3%nat, [[entry "a" (VInt 1)]], [entry "a" (VInt 1)], t, (held t).
  split; [discriminate|]. split; [repeat constructor|]. split; [reflexivity|]. split; [intros k; cbn; now destruct (dict_get _ _)|]. split; [reflexivity|]. split; [reflexivity|].
  split; vm_compute; [reflexivity|discriminate].
Qed.
Print Assumptions C102_decimal_refuted.
(** Nor does a date in a native dict map from the union, which reads it as a text. *)
Theorem C102_date_refuted : exists W n docs one t s,
  docs <> [] /\ first_wins docs one /\ nth_error (forms s) 0 = Some (t, []) /\ (forall f, In f (ft_fields t) -> exists k, simple_field f k) /\
  fst (Form_map W n 0 (ASrc (SBase (BPlain (native_doc one)))) [] true UIgnore Collect s) = Ok [] /\
  fst (Form_map W n 0 (ASrc (SBase (BUnion (USource (map native_doc docs) MCombine MCombine None)))) [] true UIgnore Collect s) <> Ok [].
Proof.
  set (t := FormTy "F" [fld "a" (KDate [] None None)]). exists world0, 3%nat, [[entry "a" (VDate 3)]], [entry "a" (VDate 3)], t, (held t).
  split; [discriminate|]. split; [intros k; cbn; now destruct (dict_get _ _)|]. split; [reflexivity|].
  split; [intros g [<-|[]]; exists "a"; simple|]. split; vm_compute; [reflexivity|discriminate].
Qed.
Print Assumptions C102_date_refuted.

(** So the mapping of such a form is that of the evaluator on the documents one after the other, of
    whose entries for a key the first counts (C30)... *)
Theorem C30_union_map_is_evaluation : forall W n strict docs merging seqs depth id tags reset u m s t l tg,
  docs <> [] -> Forall (fun d => json_val (VDict d) = true) docs -> ignoring u -> in_force s tags tg -> nth_error (forms s) id = Some (t, l) ->
  direct_form t -> mapping_context s ->
  (forall f, In f (ft_fields t) -> chosen tg f -> exists k, simple_field f k /\ first_with docs k <> Some VNone) ->
  let x := Form_map W n id (ASrc (SBase (BUnion (USource (map (json_doc strict) docs) merging seqs depth)))) tags reset u m s in
  let one := VDict (concat docs) in
  (fst x, forms (snd x)) = ev_map W n (outer_of s) (SJson one strict None) one id tags reset u m (forms s) /\ stk (snd x) = stk s.
Proof. exact C30_union_lem. Qed.
Print Assumptions C30_union_map_is_evaluation.

(** ...and mapping it from the union again reports the same and changes nothing (C47). *)
Theorem C47_union_partial : forall W n d strict docs merging seqs depth id tags reset u s t l tg,
  docs <> [] -> Forall (fun d => json_val (VDict d) = true) docs -> ignoring u -> in_force s tags tg -> nth_error (forms s) id = Some (t, l) ->
  tame_form d t -> mapping_context s ->
  (forall f, In f (ft_fields t) -> chosen tg f -> exists k, simple_field f k /\ first_with docs k <> Some VNone) ->
  let src := ASrc (SBase (BUnion (USource (map (json_doc strict) docs) merging seqs depth))) in
  (let again := Form_map W n id src tags reset u Collect in
   same_report (fst (again s)) (fst (again (snd (again s)))) /\ forms (snd (again (snd (again s)))) = forms (snd (again s))) /\
  (let again := Form_map W n id src tags reset u Raise in
   same_raised (fst (again s)) (fst (again (snd (again s)))) /\ forms (snd (again (snd (again s)))) = forms (snd (again s))).
Proof. exact C47_union_lem. Qed.
Print Assumptions C47_union_partial.

Example C47_union_case : tame_form 1 flat /\ direct_form flat /\ mapping_context (held flat) /\
  forms (snd (Form_map world0 3 0 (of_union flat_docs MLast) [] true UIgnore Collect (held flat))) = [(flat, [(VStr "b", VStr "x")])].
Proof.
  assert (TF : tame_form 1 flat).
  { intros f [<-|[<-|[<-|[]]]]; (split; [split; cbn; try reflexivity; try easy; now intros k0 [= <-]|exact I]). }
  split; [exact TF|]. split; [exact (tame_form_direct _ _ TF)|]. split; [repeat split; eexists; reflexivity|]. vm_compute. reflexivity.
Qed.

(** Forms within forms: the mappings a form reads are merged by the rule of the union, at every
    depth, and the whole maps as from the document that has them merged. *)
Theorem C103_merged : forall W n strict docs one merging seqs depth id tags reset u m s t l tg,
  docs <> [] -> Forall (fun d => json_val (VDict d) = true) docs -> json_val (VDict one) = true ->
  leaves (USource (map (json_doc strict) docs) merging seqs depth) (all_docs strict docs) one u -> in_force s tags tg -> nth_error (forms s) id = Some (t, l) ->
  (forall f, In f (ft_fields t) -> chosen tg f -> reads_alike (USource (map (json_doc strict) docs) merging seqs depth) (all_docs strict docs) one f) ->
  let x := Form_map W n id (ASrc (SBase (BUnion (USource (map (json_doc strict) docs) merging seqs depth)))) tags reset u m s in
  let y := Form_map W n id (ASrc (SBase (BPlain (json_doc strict one)))) tags reset u m s in
  fst x = fst y /\ forms (snd x) = forms (snd y) /\ errs (snd x) = errs (snd y) /\ stk (snd x) = stk (snd y).
Proof. exact deep_lem. Qed.
Print Assumptions C103_merged.
(** ... and of dicts of plain Python data, where no date or time is read *)
Theorem C103_native : forall W n P docs one merging seqs depth id tags reset u m s t l tg,
  docs <> [] -> plain_native (w_env W) P -> sentinel_ok (w_env W) P -> Forall (fun d => P (VDict d)) docs -> P (VDict one) ->
  leaves_with (native_read (w_env W)) (USource (map native_doc docs) merging seqs depth) (all_native docs) one u -> in_force s tags tg -> nth_error (forms s) id = Some (t, l) ->
  (forall f, In f (ft_fields t) -> chosen tg f -> reads_with (native_read (w_env W)) (USource (map native_doc docs) merging seqs depth) (all_native docs) one f) ->
  let x := Form_map W n id (ASrc (SBase (BUnion (USource (map native_doc docs) merging seqs depth)))) tags reset u m s in
  let y := Form_map W n id (ASrc (SBase (BPlain (native_doc one)))) tags reset u m s in
  fst x = fst y /\ forms (snd x) = forms (snd y) /\ errs (snd x) = errs (snd y) /\ stk (snd x) = stk (snd y).
Proof. exact native_lem. Qed.
Print Assumptions C103_native.
(** The same in terms of the evaluator on that document (C30) *)
Theorem C30_nested_union_map_is_evaluation : forall W n strict docs one merging seqs depth id tags reset u m s t l tg,
  docs <> [] -> Forall (fun d => json_val (VDict d) = true) docs -> json_val (VDict one) = true ->
  leaves (USource (map (json_doc strict) docs) merging seqs depth) (all_docs strict docs) one u -> direct_unm u -> in_force s tags tg -> nth_error (forms s) id = Some (t, l) ->
  direct_form t -> mapping_context s ->
  (forall f, In f (ft_fields t) -> chosen tg f -> reads_alike (USource (map (json_doc strict) docs) merging seqs depth) (all_docs strict docs) one f) ->
  let x := Form_map W n id (ASrc (SBase (BUnion (USource (map (json_doc strict) docs) merging seqs depth)))) tags reset u m s in
  (fst x, forms (snd x)) = ev_map W n (outer_of s) (SJson (VDict one) strict None) (VDict one) id tags reset u m (forms s) /\ stk (snd x) = stk s.
Proof. exact C30_nested_lem. Qed.
Print Assumptions C30_nested_union_map_is_evaluation.
(** ...and mapping it again reports the same and changes nothing (C47). *)
Theorem C47_nested_union_partial : forall W n d strict docs one merging seqs depth id tags reset u s t l tg,
  docs <> [] -> Forall (fun d => json_val (VDict d) = true) docs -> json_val (VDict one) = true -> ignoring u -> in_force s tags tg -> nth_error (forms s) id = Some (t, l) ->
  tame_form d t -> mapping_context s ->
  (forall f, In f (ft_fields t) -> chosen tg f -> reads_alike (USource (map (json_doc strict) docs) merging seqs depth) (all_docs strict docs) one f) ->
  let src := ASrc (SBase (BUnion (USource (map (json_doc strict) docs) merging seqs depth))) in
  (let again := Form_map W n id src tags reset u Collect in
   same_report (fst (again s)) (fst (again (snd (again s)))) /\ forms (snd (again (snd (again s)))) = forms (snd (again s))) /\
  (let again := Form_map W n id src tags reset u Raise in
   same_raised (fst (again s)) (fst (again (snd (again s)))) /\ forms (snd (again (snd (again s)))) = forms (snd (again s))).
Proof. exact C47_nested_lem. Qed.
Print Assumptions C47_nested_union_partial.
Definition inner : formty := FormTy "Inner" [fld "a" (KInteger None (Some (VInt 5))); fld "b" (KString no_strc)].
Definition outer : formty := FormTy "Outer" [fld "x" (KInteger None None); fld "in" (KSubForm inner true UIgnore)].
Definition two_docs : list (list (val * val)) :=
  [[entry "x" (VInt 1); entry "in" (VDict [entry "a" (VInt 7)])]; [entry "in" (VDict [entry "a" (VInt 2); entry "b" (VStr "s")])]].
(** combined, and of the last *)
Definition one_all : list (val * val) := [entry "x" (VInt 1); entry "in" (VDict [entry "a" (VInt 7); entry "b" (VStr "s")])].
Definition one_last : list (val * val) := [entry "x" (VInt 1); entry "in" (VDict [entry "a" (VInt 2); entry "b" (VStr "s")])].
Definition two_union (m : merge) : usource := USource (map (json_doc false) two_docs) m m None.
Lemma two_alike m one : (m, one) = (MCombine, one_all) \/ (m, one) = (MLast, one_last) ->
  forall f, In f (ft_fields outer) -> reads_alike (two_union m) (all_docs false two_docs) one f.
Proof.
  intros [Q|Q]; injection Q as -> ->; (intros f [<-|[<-|[]]]; [eapply (ra_at _ _ _ _ _ "x"), at_value; [simple|split; reflexivity|reflexivity|discriminate|reflexivity|exact I]|
    eapply (ra_at _ _ _ _ _ "in"), (at_form _ _ _ _ _ _ _ inner true UIgnore); [simple|split; reflexivity|discriminate|reflexivity|reflexivity|now apply lv_ignored; left|];
    intros g [<-|[<-|[]]]; [eapply (ra_at _ _ _ _ _ "a"), at_value; [simple|split; reflexivity|reflexivity|discriminate|reflexivity|exact I]|eapply (ra_at _ _ _ _ _ "b"), at_value; [simple|split; reflexivity|reflexivity|discriminate|reflexivity|exact I]]]).
Qed.
Example C103_case : two_docs <> [] /\ Forall (fun d => json_val (VDict d) = true) two_docs /\ json_val (VDict one_all) = true /\ json_val (VDict one_last) = true /\
  in_force (held outer) [] [] /\
  (forall f, In f (ft_fields outer) -> chosen [] f -> reads_alike (two_union MCombine) (all_docs false two_docs) one_all f) /\
  (forall f, In f (ft_fields outer) -> chosen [] f -> reads_alike (two_union MLast) (all_docs false two_docs) one_last f) /\
  fst (Form_map world0 4 0 (of_union two_docs MCombine) [] true UIgnore Collect (held outer)) <> Ok [] /\
  fst (Form_map world0 4 0 (of_union two_docs MLast) [] true UIgnore Collect (held outer)) = Ok [].
Proof.
  split; [discriminate|]. split; [repeat constructor|]. split; [reflexivity|]. split; [reflexivity|]. split; [right; split; [reflexivity|vm_compute; auto]|].
  split; [intros f I _; apply (two_alike MCombine one_all); auto|]. split; [intros f I _; apply (two_alike MLast one_last); auto|]. split; vm_compute; [discriminate|reflexivity].
Qed.
Example C30_nested_union_case : direct_form outer /\ mapping_context (held outer).
Proof.
  assert (IN : direct_form inner) by (constructor; intros f [<-|[<-|[]]]; apply direct_fld; constructor).
  split; [|repeat split; eexists; reflexivity]. constructor. intros f [<-|[<-|[]]]; apply direct_fld; constructor; [exact IN|constructor].
Qed.

(** [Dict(String(), Integer())] and [Dict(String(), SubForm(Inner))], and the keys no field has read
    captured by the forms below *)
Definition counts : field := fld "n" (KDict (anon (KString no_strc)) (anon (KInteger None (Some (VInt 5)))) None [] None).
Definition parts : field := fld "parts" (KDict (anon (KString no_strc)) (anon (KSubForm inner true UCapture)) None [] None).
Definition wide : formty := FormTy "Wide" [counts; parts].
Definition wide_docs : list (list (val * val)) :=
  [[entry "n" (VDict [entry "a" (VInt 1); entry "b" (VInt 9)]); entry "parts" (VDict [entry "p" (VDict [entry "z" (VInt 3); entry "a" (VInt 1)])])];
   [entry "y" (VBool true); entry "n" (VDict [entry "b" (VInt 2); entry "c" (VInt 3)]);
    entry "parts" (VDict [entry "q" (VDict [entry "b" (VStr "t"); entry "a" (VInt 2)]); entry "p" (VDict [entry "z" VNone; entry "b" (VStr "s")])])]].
Definition wide_one : list (val * val) :=
  [entry "n" (VDict [entry "a" (VInt 1); entry "b" (VInt 9); entry "c" (VInt 3)]);
   entry "parts" (VDict [entry "p" (VDict [entry "z" (VInt 3); entry "a" (VInt 1); entry "b" (VStr "s")]); entry "q" (VDict [entry "b" (VStr "t"); entry "a" (VInt 2)])]);
   entry "y" (VBool true)].
Definition wide_union : usource := USource (map (json_doc false) wide_docs) MCombine MCombine None.
Ltac reads := eapply at_value; [simple|split; reflexivity|reflexivity|discriminate|reflexivity|exact I].
Lemma wide_alike : forall f, In f (ft_fields wide) -> reads_alike wide_union (all_docs false wide_docs) wide_one f.
Proof.
  intros f [<-|[<-|[]]].
  - eapply (ra_at _ _ _ _ _ "n"), at_dict; [simple|intros ? [=]|split; reflexivity|discriminate|reflexivity|reflexivity|].
    apply (ia_items _ _ _ _ _ _ ["a"; "b"; "c"]).
    + exists ["a"; "b"; "b"; "c"]. split; [reflexivity|]. split; [repeat (constructor; cbn)|reflexivity].
    + simple.
    + reflexivity.
    + intros k [<-|[<-|[<-|[]]]]; reads.
  - eapply (ra_at _ _ _ _ _ "parts"), at_dict; [simple|intros ? [=]|split; reflexivity|discriminate|reflexivity|reflexivity|].
    apply (ia_items _ _ _ _ _ _ ["p"; "q"]).
    + exists ["p"; "q"; "p"]. split; [reflexivity|]. split; [repeat (constructor; cbn)|reflexivity].
    + simple.
    + reflexivity.
    + intros k [<-|[<-|[]]].
      * eapply (at_form _ _ _ _ _ _ _ inner true UCapture); [simple|split; reflexivity|discriminate|reflexivity|reflexivity| |intros g [<-|[<-|[]]]; [eapply (ra_at _ _ _ _ _ "a")|eapply (ra_at _ _ _ _ _ "b")]; reads].
        apply lv_capture; [discriminate|]. apply (ia_items _ _ _ _ _ _ ["z"; "a"; "b"]); [exists ["z"; "a"; "z"; "b"]; split; [reflexivity|]; split; [repeat (constructor; cbn)|reflexivity]|simple|reflexivity|].
        intros k [<-|[<-|[<-|[]]]]; reads.
      * eapply (at_form _ _ _ _ _ _ _ inner true UCapture); [simple|split; reflexivity|discriminate|reflexivity|reflexivity| |intros g [<-|[<-|[]]]; [eapply (ra_at _ _ _ _ _ "a")|eapply (ra_at _ _ _ _ _ "b")]; reads].
        apply lv_capture; [discriminate|]. apply (ia_items _ _ _ _ _ _ ["b"; "a"]); [exists ["b"; "a"]; split; [reflexivity|]; split; [repeat (constructor; cbn)|reflexivity]|simple|reflexivity|].
        intros k [<-|[<-|[]]]; reads.
Qed.
Definition wide_run : res (list err) * st := Form_map world0 9 0 (ASrc (SBase (BUnion wide_union))) [] true UIgnore Collect (held wide).
Example C103_dict_case : json_val (VDict wide_one) = true /\ in_force (held wide) [] [] /\
  (forall f, In f (ft_fields wide) -> chosen [] f -> reads_alike wide_union (all_docs false wide_docs) wide_one f) /\
  direct_form wide /\ tame_form 2 (FormTy "Counts" [counts]) /\
  (exists e, fst wide_run = Ok [e]) /\ map snd (forms (snd wide_run)) =
    [[(VStr "n", VDict [(VStr "a", VInt 1); (VStr "c", VInt 3)]); (VStr "parts", VDict [(VStr "p", VForm 1); (VStr "q", VForm 2)])];
     [(VStr "a", VInt 1); (VStr "b", VStr "s"); (VStr "z", VInt 3)]; [(VStr "a", VInt 2); (VStr "b", VStr "t")]].
Proof.
  split; [reflexivity|]. split; [right; split; [reflexivity|vm_compute; auto]|]. split; [intros f I _; exact (wide_alike f I)|].
  assert (DI : direct_form inner) by (constructor; intros f [<-|[<-|[]]]; apply direct_fld; constructor).
  split; [constructor; intros f [<-|[<-|[]]]; apply direct_fld; constructor; try apply direct_anon; try constructor; try exact DI; try constructor; intros ? [=]|].
  split; [intros f [<-|[]]; split; [split; cbn; try reflexivity; try easy; now intros k0 [= <-]|]; (repeat split); cbn; try reflexivity; try easy; now intros k0 [=]|].
  split; vm_compute; eauto.
Qed.
(** Captured at the top, by [unmapped=(String(), Integer())] *)
Definition pair_docs : list (list (val * val)) := [[entry "x" (VInt 1); entry "y" (VInt 2)]; [entry "z" (VInt 3); entry "y" (VInt 4)]].
Definition pair_one : list (val * val) := [entry "x" (VInt 1); entry "y" (VInt 2); entry "z" (VInt 3)].
Definition pair_union : usource := USource (map (json_doc true) pair_docs) MLast MLast None.
Definition by_pair : unm := UPair (anon (KString no_strc)) (anon (KInteger None None)).
Definition just_x : formty := FormTy "X" [fld "x" (KInteger None None)].
Example C103_capture_case : leaves pair_union (all_docs true pair_docs) pair_one by_pair /\ direct_unm by_pair /\
  (forall f, In f (ft_fields just_x) -> chosen [] f -> reads_alike pair_union (all_docs true pair_docs) pair_one f) /\
  map snd (forms (snd (Form_map world0 9 0 (ASrc (SBase (BUnion pair_union))) [] true by_pair Collect (held just_x)))) = [[(VStr "x", VInt 1); (VStr "y", VInt 2); (VStr "z", VInt 3)]].
Proof.
  split.
  { apply lv_pair; [discriminate|]. apply (ia_items _ _ _ _ _ _ ["x"; "y"; "z"]).
    - exists ["x"; "y"; "z"; "y"]. split; [reflexivity|]. split; [repeat (constructor; cbn)|reflexivity].
    - simple.
    - reflexivity.
    - intros k [<-|[<-|[<-|[]]]]; reads. }
  split; [constructor; apply direct_anon; constructor|]. split; [intros f [<-|[]] _; eapply (ra_at _ _ _ _ _ "x"); reads|]. vm_compute. reflexivity.
Qed.
(** Dicts of Python data: a form within a form and a [Dict] of integers; "d" is nowhere *)
Definition native_form : formty := FormTy "N" [fld "in" (KSubForm inner true UIgnore); counts; fld "d" KBool].
Definition native_docs : list (list (val * val)) :=
  [[entry "in" (VDict [entry "a" (VInt 4)]); entry "n" (VDict [entry "k" (VInt 9)])]; [entry "n" (VDict [entry "j" (VInt 1); entry "k" VNone]); entry "in" (VDict [entry "b" (VStr "s")])]].
Definition native_one : list (val * val) := [entry "in" (VDict [entry "a" (VInt 4); entry "b" (VStr "s")]); entry "n" (VDict [entry "k" (VInt 9); entry "j" (VInt 1)])].
Definition native_union : usource := USource (map native_doc native_docs) MCombine MCombine None.
Definition native_run : res (list err) * st := Form_map world0 9 0 (ASrc (SBase (BUnion native_union))) [] true UIgnore Collect (held native_form).
Ltac nreads := eapply at_value; [simple|split; reflexivity|reflexivity|discriminate|reflexivity|exact I].
Example C103_native_case : plain_native env0 (fun v => tidy v = true) /\ sentinel_ok env0 (fun v => tidy v = true) /\
  Forall (fun d => tidy (VDict d) = true) native_docs /\ tidy (VDict native_one) = true /\ in_force (held native_form) [] [] /\
  (forall f, In f (ft_fields native_form) -> chosen [] f -> reads_with (native_read env0) native_union (all_native native_docs) native_one f) /\
  (exists a b, fst native_run = Ok [a; b]) /\ map snd (forms (snd native_run)) = [[(VStr "in", VForm 1); (VStr "n", VDict [(VStr "j", VInt 1)])]; [(VStr "a", VInt 4); (VStr "b", VStr "s")]].
Proof.
  split; [exact tidy_native|]. split; [split; [reflexivity|intros ? ? [=]]|]. split; [repeat constructor|]. split; [reflexivity|]. split; [right; split; [reflexivity|vm_compute; auto]|].
  split; [|split; [vm_compute; eauto|reflexivity]]. intros f [<-|[<-|[<-|[]]]] _.
  - eapply (ra_at _ _ _ _ _ "in"), (at_form _ _ _ _ _ _ _ inner true UIgnore); [simple|split; reflexivity|discriminate|reflexivity|reflexivity|now apply lv_ignored; left|].
    intros g [<-|[<-|[]]]; [eapply (ra_at _ _ _ _ _ "a")|eapply (ra_at _ _ _ _ _ "b")]; nreads.
  - eapply (ra_at _ _ _ _ _ "n"), at_dict; [simple|intros ? [=]|split; reflexivity|discriminate|reflexivity|reflexivity|].
    apply (ia_items _ _ _ _ _ _ ["k"; "j"]); [exists ["k"; "j"; "k"]; split; [reflexivity|]; split; [repeat (constructor; cbn)|reflexivity]|simple|reflexivity|]. intros k [<-|[<-|[]]]; nreads.
  - eapply (ra_at _ _ _ _ _ "d"), at_nothing; [simple|split; reflexivity|reflexivity|reflexivity|reflexivity].
Qed.
