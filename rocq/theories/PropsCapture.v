(** * PropsCapture: capturing the keys of a union (C45). *)
From Verif Require Import PyBase PyStr Source Field Context Fields SpecSrc Eval SpecField SpecForm SpecUnion SpecJson SpecJoin Demo PropsEval PropsJoin JoinCapture.
Open Scope Z_scope.

(** With [unmapped='capture'] a form of values mapped from a union of JSON documents takes every key
    of any of the documents that is no entry yet, with the value of the first document that has it;
    nothing else changes, and no error is added. *)
Theorem C45_union_capture : forall W fuel strict docs merging seqs depth id tags rs s t l tg es s0,
  docs <> [] -> Forall (fun d => json_val (VDict d) = true) docs -> in_force s tags tg -> nth_error (forms s) id = Some (t, l) -> direct_form t -> mapping_context s ->
  (forall f, In f (ft_fields t) -> chosen tg f -> exists k, simple_field f k) ->
  (forall d k v, In d docs -> In (VStr k, v) d -> one_key (KStr k)) -> (forall k, first_with docs k <> Some VNone) ->
  let src := ASrc (SBase (BUnion (USource (map (json_doc strict) docs) merging seqs depth))) in
  Form_map W (S (S fuel)) id src tags rs UIgnore Collect s = (Ok es, s0) ->
  exists s1, Form_map W (S (S fuel)) id src tags rs UCapture Collect s = (Ok es, s1) /\
    (forall k, dict_get (entries_at s1 id) (VStr k) =
       match dict_get (entries_at s0 id) (VStr k) with Some v => Some v | None => first_with docs k end) /\
    (forall k, (forall a, k <> VStr a) -> dict_get (entries_at s1 id) k = dict_get (entries_at s0 id) k) /\
    (forall i, i <> id -> nth_error (forms s1) i = nth_error (forms s0) i).
Proof. exact C45_union_lem. Qed.
Print Assumptions C45_union_capture.

(** One form reads ["a"]; the documents also have ["b"], ["c"], the first of them in both. *)
Definition takes : formty := FormTy "Takes" [fld "a" (KInteger None None)].
Definition spare_docs : list (list (val * val)) :=
  [[entry "a" (VInt 7); entry "b" (VInt 1)]; [entry "b" (VInt 2); entry "c" (VDict [entry "d" VNone]); entry "a" (VInt 0)]].
Example C45_union_case : spare_docs <> [] /\ Forall (fun d => json_val (VDict d) = true) spare_docs /\ in_force (held takes) [] [] /\ direct_form takes /\ mapping_context (held takes) /\
  (forall f, In f (ft_fields takes) -> chosen [] f -> exists k, simple_field f k) /\
  (forall d k v, In d spare_docs -> In (VStr k, v) d -> one_key (KStr k)) /\ (forall k, first_with spare_docs k <> Some VNone) /\
  (exists s0, Form_map world0 3 0 (of_union spare_docs MLast) [] true UIgnore Collect (held takes) = (Ok [], s0)) /\
  forms (snd (Form_map world0 3 0 (of_union spare_docs MLast) [] true UCapture Collect (held takes))) =
    [(takes, [(VStr "a", VInt 7); (VStr "b", VInt 1); (VStr "c", VDict [(VStr "d", VNone)])])].
Proof.
  split; [discriminate|]. split; [repeat constructor|]. split; [right; split; [reflexivity|vm_compute; auto]|].
  split; [constructor; intros f [<-|[]]; apply PropsEval.direct_fld; constructor|]. split; [repeat split; eexists; reflexivity|].
  split; [intros f [<-|[]] _; exists "a"; simple|].
  split; [intros d k v [<-|[<-|[]]] I; cbn in I; repeat (destruct I as [[= <- _]|I]; [split; reflexivity|]); contradiction|].
  split; [|vm_compute; eauto]. intros k. unfold spare_docs, entry. cbn [first_with]. unfold dict_get. cbn [find fst].
  repeat (match goal with |- context [py_eq ?a (VStr k)] => destruct (py_eq a (VStr k)) end; [discriminate|]). discriminate.
Qed.
(** Forms within forms, for a document that merges the others: see C103 *)
Theorem C45_nested_union_capture : forall W fuel strict docs one merging seqs depth id tags rs s t l tg es s0,
  docs <> [] -> Forall (fun d => json_val (VDict d) = true) docs -> json_val (VDict one) = true -> in_force s tags tg -> nth_error (forms s) id = Some (t, l) -> direct_form t -> mapping_context s ->
  leaves (USource (map (json_doc strict) docs) merging seqs depth) (all_docs strict docs) one UCapture ->
  (forall f, In f (ft_fields t) -> chosen tg f -> reads_alike (USource (map (json_doc strict) docs) merging seqs depth) (all_docs strict docs) one f) ->
  let src := ASrc (SBase (BUnion (USource (map (json_doc strict) docs) merging seqs depth))) in
  Form_map W (S (S fuel)) id src tags rs UIgnore Collect s = (Ok es, s0) ->
  exists s1, Form_map W (S (S fuel)) id src tags rs UCapture Collect s = (Ok es, s1) /\
    (forall k, dict_get (entries_at s1 id) (VStr k) =
       match dict_get (entries_at s0 id) (VStr k) with Some v => Some v | None => dict_get one (VStr k) end) /\
    (forall k, (forall a, k <> VStr a) -> dict_get (entries_at s1 id) k = dict_get (entries_at s0 id) k) /\
    (forall i, i <> id -> nth_error (forms s1) i = nth_error (forms s0) i).
Proof. exact C45_nested_lem. Qed.
Print Assumptions C45_nested_union_capture.
(** A union of Python dicts *)
Theorem C45_native_union_capture : forall W fuel P docs one merging seqs depth id tags rs s t l tg es s0,
  docs <> [] -> plain_native (w_env W) P -> sentinel_ok (w_env W) P -> Forall (fun d => P (VDict d)) docs -> P (VDict one) -> in_force s tags tg -> nth_error (forms s) id = Some (t, l) -> direct_form t -> mapping_context s ->
  leaves_with (native_read (w_env W)) (USource (map native_doc docs) merging seqs depth) (all_native docs) one UCapture ->
  (forall f, In f (ft_fields t) -> chosen tg f -> reads_with (native_read (w_env W)) (USource (map native_doc docs) merging seqs depth) (all_native docs) one f) ->
  let src := ASrc (SBase (BUnion (USource (map native_doc docs) merging seqs depth))) in
  Form_map W (S (S fuel)) id src tags rs UIgnore Collect s = (Ok es, s0) ->
  exists s1, Form_map W (S (S fuel)) id src tags rs UCapture Collect s = (Ok es, s1) /\
    (forall k, dict_get (entries_at s1 id) (VStr k) =
       match dict_get (entries_at s0 id) (VStr k) with Some v => Some v | None => dict_get one (VStr k) end) /\
    (forall i, i <> id -> nth_error (forms s1) i = nth_error (forms s0) i).
Proof. exact C45_native_union_lem. Qed.
Print Assumptions C45_native_union_capture.

(** [Outer] of C103, "z" and "w" of no field; the mappings of the first document count *)
Definition more_docs : list (list (val * val)) :=
  [[entry "x" (VInt 1); entry "z" (VInt 3); entry "in" (VDict [entry "b" (VStr "s"); entry "a" (VInt 2)])]; [entry "in" (VDict [entry "a" (VInt 7)]); entry "w" (VInt 5); entry "z" (VInt 4)]].
Definition more_one : list (val * val) :=
  [entry "x" (VInt 1); entry "z" (VInt 3); entry "in" (VDict [entry "b" (VStr "s"); entry "a" (VInt 2)]); entry "w" (VInt 5)].
Ltac whole := intros f [<-|[<-|[]]] _; [eapply (ra_at _ _ _ _ _ "x"); nreads|];
  eapply (ra_at _ _ _ _ _ "in"), (at_form _ _ _ _ _ _ _ inner true UIgnore); [simple|split; reflexivity|discriminate|reflexivity|reflexivity|now apply lv_ignored; left|];
  intros g [<-|[<-|[]]]; [eapply (ra_at _ _ _ _ _ "a")|eapply (ra_at _ _ _ _ _ "b")]; nreads.
Ltac rest := apply lv_capture; [discriminate|]; apply (ia_items _ _ _ _ _ _ ["x"; "z"; "in"; "w"]); [exists ["x"; "z"; "in"; "in"; "w"; "z"]; split; [reflexivity|]; split; [once (repeat (constructor; cbn))|reflexivity]|simple|reflexivity|];
  intros k [<-|[<-|[<-|[<-|[]]]]]; nreads.
Definition more_json : usource := USource (map (json_doc false) more_docs) MFirst MFirst None.
Definition more_native : usource := USource (map native_doc more_docs) MFirst MFirst None.
Example C45_nested_union_case : Forall (fun d => json_val (VDict d) = true) more_docs /\ json_val (VDict more_one) = true /\ in_force (held outer) [] [] /\ direct_form outer /\ mapping_context (held outer) /\
  leaves more_json (all_docs false more_docs) more_one UCapture /\
  (forall f, In f (ft_fields outer) -> chosen [] f -> reads_alike more_json (all_docs false more_docs) more_one f) /\
  (exists s0, Form_map world0 4 0 (ASrc (SBase (BUnion more_json))) [] true UIgnore Collect (held outer) = (Ok [], s0)) /\
  entries_at (snd (Form_map world0 4 0 (ASrc (SBase (BUnion more_json))) [] true UCapture Collect (held outer))) 0 =
    [(VStr "x", VInt 1); (VStr "in", VForm 1); (VStr "z", VInt 3); (VStr "w", VInt 5)].
Proof.
  split; [repeat constructor|]. split; [reflexivity|]. split; [right; split; [reflexivity|vm_compute; auto]|]. split; [exact (proj1 C30_nested_union_case)|]. split; [repeat split; eexists; reflexivity|].
  split; [rest|]. split; [whole|]. split; vm_compute; eauto.
Qed.
Example C45_native_union_case : Forall (fun d => tidy (VDict d) = true) more_docs /\ tidy (VDict more_one) = true /\
  leaves_with (native_read env0) more_native (all_native more_docs) more_one UCapture /\
  (forall f, In f (ft_fields outer) -> chosen [] f -> reads_with (native_read env0) more_native (all_native more_docs) more_one f) /\
  (exists s0, Form_map world0 4 0 (ASrc (SBase (BUnion more_native))) [] true UIgnore Collect (held outer) = (Ok [], s0)) /\
  entries_at (snd (Form_map world0 4 0 (ASrc (SBase (BUnion more_native))) [] true UCapture Collect (held outer))) 0 =
    [(VStr "x", VInt 1); (VStr "in", VForm 1); (VStr "z", VInt 3); (VStr "w", VInt 5)].
Proof. split; [repeat constructor|]. split; [reflexivity|]. split; [rest|]. split; [whole|]. split; vm_compute; eauto. Qed.
