(** * Theorems C86-C87: editing the keys of a path. *)
From Verif Require Import PyBase PyStr Source Field Context Fields SpecSrc PathEdit SpecEdit EditProofs EditMount EditValue Demo PropsUnion PropsMount.
Open Scope Z_scope.

(** C86: under any sequence of edits and reads the keys of the path of a plain or union
    source are edited as a Python list is, with the same answers and errors. *)
Theorem C86_keys_are_a_list : forall E ents src p l,
  source_path E ents (SBase src) = Ok p -> like_list any_edit l [] (transcript E ents l p).
Proof. exact C86_lem. Qed.
Print Assumptions C86_keys_are_a_list.
Definition two_docs : bsource := BUnion (union_of [doc (jdict [("a", jdict [("x", VInt 1)])]); doc (jdict [("a", jdict [("y", VInt 2)])])] MCombine None).
Definition some_edits : list edit :=
  [Ins 0 (KStr "x"); Ins (-5) (KStr "a"); Look OpValue; Ins (-1) (KInt 3); Set_ (-1) (KStr "y"); Del 1; Item 7; Name; Del 2; Size].
Example C86_case : forall ents, exists p q,
  source_path env0 ents (SBase two_docs) = Ok p /\ source_path env0 ents (json (jdict [("a", VInt 1)])) = Ok q /\
  transcript env0 ents some_edits p = transcript env0 ents some_edits q /\
  transcript env0 ents some_edits p =
    [(Done, [KStr "x"]); (Done, [KStr "a"; KStr "x"]); (Whatever, [KStr "a"; KStr "x"]); (Done, [KStr "a"; KInt 3; KStr "x"]);
     (Done, [KStr "a"; KInt 3; KStr "y"]); (Done, [KStr "a"; KStr "y"]); (Raised EIndex, [KStr "a"; KStr "y"]);
     (Key (KStr "y"), [KStr "a"; KStr "y"]); (Raised EIndex, [KStr "a"; KStr "y"]); (Num 2, [KStr "a"; KStr "y"])].
Proof. intros ents. eexists _, _. split; [vm_compute; reflexivity|]. split; [vm_compute; reflexivity|]. split; vm_compute; reflexivity. Qed.
(** The path of a mounted source is a list as long as the first key is only ever added
    to an empty path and removed from a path of one key. *)
Theorem C86_mount_keys_partial : forall E ents srcs p l,
  source_path E ents (SMount srcs) = Ok p -> like_list leaves_first l [] (transcript E ents l p).
Proof. exact C86_mount_lem. Qed.
Print Assumptions C86_mount_keys_partial.
Definition mount_edits : list edit := [Ins 0 (KStr "a"); Ins 1 (KStr "x"); Look (OpPrimitive TyInt); Ins 1 (KStr "y"); Set_ (-1) (KInt 0); Del 1; Del (-1); Set_ 0 (KStr "b"); Del 0].
Example C86_mount_case : forall ents, exists p,
  source_path (w_env world2) ents (SMount mounted) = Ok p /\
  map snd (transcript (w_env world2) ents mount_edits p) =
    [[KStr "a"]; [KStr "a"; KStr "x"]; [KStr "a"; KStr "x"]; [KStr "a"; KStr "y"; KStr "x"]; [KStr "a"; KStr "y"; KInt 0]; [KStr "a"; KInt 0]; [KStr "a"]; [KStr "b"]; []] /\
  leaves_first (Ins 1 (KStr "y")) [KStr "a"; KStr "x"] /\ leaves_first (Set_ 0 (KStr "b")) [KStr "a"].
Proof.
  intros ents. eexists. split; [vm_compute; reflexivity|]. split; [vm_compute; reflexivity|]. split.
  - exists [KStr "a"], [KStr "x"]. split; [reflexivity|]. split; [left; now split|]. left. discriminate.
  - exists [], (KStr "a"), []. split; [reflexivity|]. split; [now left|now right].
Qed.
(** In general it is not: inserting before the first key replaces it. *)
Theorem C86_mount_keys_refuted : exists E ents srcs p l,
  source_path E ents (SMount srcs) = Ok p /\ ~ like_list any_edit l [] (transcript E ents l p).
Proof.
  exists (w_env world2), (fun _ => []), mounted. eexists _, [Ins 0 (KStr "a"); Ins 0 (KStr "b")]. split; [vm_compute; reflexivity|].
  intros L. vm_compute in L. inversion L as [|? ? ? ? N|? ? ? ? ? ? _ D1 L1]; subst; [apply N; exact I|].
  inversion L1 as [|? ? ? ? N|? ? ? ? ? ? _ D2 _]; subst; [apply N; exact I|].
  apply ins_longer in D2. discriminate.
Qed.
Print Assumptions C86_mount_keys_refuted.
(** The first key cannot be deleted from a longer path, can be set on an empty one, and
    an index counting back beyond it edits another key. *)
Example C86_mount_edges : forall ents, exists p,
  source_path (w_env world2) ents (SMount mounted) = Ok p /\
  transcript (w_env world2) ents [Set_ 0 (KStr "a"); Ins 1 (KStr "x"); Ins 2 (KStr "y"); Del 0; Set_ (-4) (KStr "z")] p =
    [(Done, [KStr "a"]); (Done, [KStr "a"; KStr "x"]); (Done, [KStr "a"; KStr "x"; KStr "y"]);
     (Raised (EType "Cannot delete mount point"), [KStr "a"; KStr "x"; KStr "y"]); (Done, [KStr "a"; KStr "z"; KStr "y"])].
Proof. intros ents. eexists. split; vm_compute; reflexivity. Qed.

(** C87: after an edit a path should read what is at its keys.  It does not. *)
Theorem C87_reads_its_keys_refuted : exists E ents src p before p1 v e,
  source_path E ents (SBase src) = Ok p /\ p_value E ents (do_edits E ents before p) = (p1, Ok v) /\
  let p2 := fst (do_edit E ents e p1) in
  exists q, q = do_edits E ents (map (fun k => Ins 100 k) (p_keys p2)) p /\ p_keys q = p_keys p2 /\
    snd (p_value E ents q) <> snd (p_value E ents p2).
Proof.
  exists env0, (fun _ => []), (BPlain (doc (jdict [("a", jdict [("x", VInt 1)]); ("b", jdict [("x", VInt 2)])]))).
  eexists _, [Ins 0 (KStr "a"); Ins 1 (KStr "x")], _, _, (Set_ 0 (KStr "b")).
  split; [vm_compute; reflexivity|]. split; [vm_compute; reflexivity|]. cbv zeta. eexists. split; [reflexivity|]. split; [vm_compute; reflexivity|]. vm_compute. discriminate.
Qed.
Print Assumptions C87_reads_its_keys_refuted.
(** For all sources: once a value was read, no edit that leaves the last key alone
    changes what is read. *)
Theorem C87_inner_edits_ignored : forall E ents src p0 before p p1 v l,
  source_path E ents (SBase src) = Ok p0 -> p = do_edits E ents before p0 ->
  p_value E ents p = (p1, Ok v) -> v <> VConst NONE -> p_keys p <> [] ->
  Forall (peeks src) l -> all_before_last l (p_keys p) ->
  snd (p_value E ents (do_edits E ents l p1)) = Ok v.
Proof. exact C87_ignored_lem. Qed.
Print Assumptions C87_inner_edits_ignored.
Example C87_ignored_case : let src := BPlain (doc (jdict [("a", jdict [("x", VInt 1)]); ("b", jdict [("x", VInt 2)])])) in
  forall ents, exists p0 p1, source_path env0 ents (SBase src) = Ok p0 /\
  p_value env0 ents (do_edits env0 ents [Ins 0 (KStr "a"); Ins 1 (KStr "x")] p0) = (p1, Ok (VInt 1)) /\
  Forall (peeks src) [Look OpExists; Set_ 0 (KStr "b")] /\ all_before_last [Look OpExists; Set_ 0 (KStr "b")] [KStr "a"; KStr "x"].
Proof.
  cbv zeta. intros ents. eexists _, _. split; [vm_compute; reflexivity|]. split; [vm_compute; reflexivity|]. split; [apply Forall_cons; [exact I|apply Forall_cons; [exact I|apply Forall_nil]]|].
  apply abl_step; [exact I|]. intros a ks' D. inversion D; subst. apply abl_step; [|intros; constructor].
  exists [], (KStr "a"), (KStr "x"), []. split; [reflexivity|]. now left.
Qed.
(** A path that nobody has read may be edited anyhow: it is the path of its keys. *)
Theorem C87_unread_partial : forall E ents src root l ks, Forall no_look l ->
  let p := do_edits E ents l (untouched src root ks) in p = untouched src root (p_keys p).
Proof. intros E ents src root l ks. exact (C87_never_lem E ents src root l ks). Qed.
Print Assumptions C87_unread_partial.
Example C87_unread_case : forall E ents src root,
  do_edits E ents [Ins 0 (KStr "b"); Set_ (-1) (KStr "c"); Ins 0 (KStr "a"); Del 5] (untouched src root []) = untouched src root [KStr "a"; KStr "c"] /\
  Forall no_look [Ins 0 (KStr "b"); Set_ (-1) (KStr "c"); Ins 0 (KStr "a"); Del 5].
Proof. intros. split; [reflexivity|]. repeat (apply Forall_cons; [exact I|]). apply Forall_nil. Qed.
(** A key that is neither a name nor an index cannot be read: whoever put it there, the
    path answers no read with it among its keys. *)
Theorem C87_odd_key : forall E ents src root ks v, In (KRaw v) ks ->
  p_value E ents (untouched src root ks) = (untouched src root ks, Exn (EAttr "no attribute 'value'")).
Proof. exact C87_odd_lem. Qed.
Print Assumptions C87_odd_key.
Example C87_odd_case : forall E ents src root,
  do_edits E ents [Ins 0 (KStr "b"); Ins 0 (KRaw (VConst NONE))] (untouched src root []) = untouched src root [KRaw (VConst NONE); KStr "b"] /\
  In (KRaw (VConst NONE)) [KRaw (VConst NONE); KStr "b"].
Proof. intros. split; [reflexivity|now left]. Qed.
(** Editing the end is going down and coming back, after which C07 says what is read. *)
Theorem C87_end_partial : forall E ents src p0 before p k,
  source_path E ents (SBase src) = Ok p0 -> p = do_edits E ents before p0 ->
  p_insert (Z.of_nat (p_len p)) k p = (p_append k p, Ok tt) /\
  (p_keys p <> [] -> p_delitem (-1) p = p_pop p /\ p_setitem (-1) k p = (p_append k (fst (p_pop p)), Ok tt)).
Proof. exact C87_end_lem. Qed.
Print Assumptions C87_end_partial.
Example C87_end_case : forall ents, exists p0 p1,
  source_path env0 ents (SBase two_docs) = Ok p0 /\ p_setitem (-1) (KStr "b") (do_edits env0 ents [Ins 0 (KStr "a")] p0) = (p1, Ok tt) /\ p_keys p1 = [KStr "b"].
Proof. intros ents. eexists _, _. split; [vm_compute; reflexivity|]. split; vm_compute; reflexivity. Qed.
