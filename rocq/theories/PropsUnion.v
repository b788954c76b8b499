(** * Theorems C57-C60, C70: unions of sources. *)
From Verif Require Import PyBase PyStr Source Field Context Fields SpecSrc Eval SpecUnion UnionProofs UnionLemmas Demo.
Open Scope Z_scope.

(** C57: a union of JSON documents and plain Python data answers every sequence of entering
    and leaving keys, asking for existence, null, keys and lengths and reading primitives
    like the machine of SpecUnion, which knows of values and positions only. *)
Theorem C57_union_answers : forall E ents u os pos xs pos',
  Forall (plain_src E) (us_srcs u) ->
  start u = Some pos -> Forall plain_op os -> answers E u os pos = Some (xs, pos') ->
  exists p ys p', usource_path E ents u = Ok p /\ do_ops E ents os p = (ys, p') /\ Forall2 same_out ys xs.
Proof. exact union_lem. Qed.
Print Assumptions C57_union_answers.
(** With merge='combine' the keys at a location are those of the mappings there... *)
Theorem C57_keys : forall E ents u ks,
  Forall (plain_src E) (us_srcs u) -> us_mapping u = MCombine -> us_depth u = None ->
  Forall one_key ks -> mappable_along (roots u) ks ->
  exists p ys p' l, usource_path E ents u = Ok p /\ do_ops E ents (down ks ++ [Keys]) p = (ys, p') /\
    ends_with ys (OKeys l) /\ keys_among l (values_at u ks).
Proof. exact C57_keys_lem. Qed.
Print Assumptions C57_keys.
(** ...and a primitive is taken from the first source that has the key. *)
Theorem C57_first_value : forall E ents u ks k t,
  Forall (plain_src E) (us_srcs u) -> us_mapping u = MCombine -> us_depth u = None ->
  Forall one_key ks -> one_key k -> mappable_along (roots u) ks ->
  exists p ys p', usource_path E ents u = Ok p /\ do_ops E ents (down ks ++ [Enter k; Prim t]) p = (ys, p') /\
    ends_with ys (read_first E t (values_at u (ks ++ [k]))).
Proof. exact C57_read_lem. Qed.
Print Assumptions C57_first_value.
Definition doc (v : val) : psource := SJson v false None.
Definition da : psource := doc (jdict [("a", jdict [("x", VInt 1); ("y", VNone)]); ("l", VList [VInt 1; VInt 2])]).
Definition db : psource := doc (jdict [("a", jdict [("y", VInt 2); ("z", VInt 3)]); ("l", VNone); ("m", VInt 7)]).
Definition dc : psource := doc (jdict [("a", VNone); ("l", VList [VInt 3])]).
Definition union_of (l : list psource) (m : merge) (d : option Z) : usource := USource l m m d.
Lemma plain_abc : Forall (plain_src env0) [da; db; dc].
Proof. repeat constructor. Qed.
Lemma mappable_a m d : mappable_along (roots (union_of [da; db; dc] m d)) [KStr "a"].
Proof.
  intros [|[|i]] Hi; [| |cbn in Hi; Lia.lia]; (split; [discriminate|]); repeat (apply Forall_cons; [cbn; unfold jdict; eauto|]); apply Forall_nil.
Qed.
Example C57_case : forall ents,
  let u := union_of [da; db; dc] MCombine None in
  Forall (plain_src env0) (us_srcs u) /\ Forall one_key [KStr "a"] /\ mappable_along (roots u) [KStr "a"] /\
  (exists pos, start u = Some pos /\ exists xs pos', answers env0 u (down [KStr "a"] ++ [Enter (KStr "z"); Prim TyInt]) pos = Some (xs, pos')) /\
  values_at u [KStr "a"; KStr "y"] = [(da, VNone); (db, VInt 2)] /\
  exists p, usource_path env0 ents u = Ok p /\
    fst (do_ops env0 ents (down [KStr "a"] ++ [Keys]) p) =
      [OBool true; OKeys [VStr "x"; VStr "y"; VStr "z"]; OKeys [VStr "x"; VStr "y"; VStr "z"]] /\
    fst (do_ops env0 ents (down [KStr "a"] ++ [Enter (KStr "z"); Prim TyInt]) p) =
      [OBool true; OKeys [VStr "x"; VStr "y"; VStr "z"]; OBool true; OVal (VInt 3)].
Proof.
  intros ents u. split; [exact plain_abc|]. split; [repeat constructor|]. split; [apply mappable_a|].
  split; [eexists; split; [vm_compute; reflexivity|]; eexists _, _; vm_compute; reflexivity|]. split; [reflexivity|].
  eexists. split; [vm_compute; reflexivity|]. split; vm_compute; reflexivity.
Qed.

(** C58: with merge='first' the first source that has the key is the only one read below it,
    also if its value is null (then there are no keys below it). *)
Theorem C58_first : forall E ents u k s v rest ks,
  Forall (plain_src E) (us_srcs u) -> us_mapping u = MFirst ->
  Forall one_key (k :: ks) -> mappable (roots u) -> values_at u [k] = (s, v) :: rest -> mappable_along [(s, v)] ks ->
  (exists p ys p' l, usource_path E ents u = Ok p /\ do_ops E ents (down (k :: ks) ++ [Keys]) p = (ys, p') /\
     ends_with ys (OKeys l) /\ keys_among l (deeper [(s, v)] ks)) /\
  forall k' t, one_key k' ->
    exists p ys p', usource_path E ents u = Ok p /\ do_ops E ents (down (k :: ks) ++ [Enter k'; Prim t]) p = (ys, p') /\
      ends_with ys (read_first E t (deeper [(s, v)] (ks ++ [k']))).
Proof. exact C58_first_lem. Qed.
Print Assumptions C58_first.
(** With merge='last' it is the last source whose value there is not null. *)
Theorem C58_last : forall E ents u k pre s d post ks,
  Forall (plain_src E) (us_srcs u) -> us_mapping u = MLast -> us_depth u = None ->
  Forall one_key (k :: ks) -> mappable (roots u) -> values_at u [k] = pre ++ (s, VDict d) :: post ->
  Forall (fun sv => snd sv = VNone \/ exists d, snd sv = VDict d) pre -> Forall (fun sv => snd sv = VNone) post ->
  mappable_along [(s, VDict d)] ks ->
  (exists p ys p' l, usource_path E ents u = Ok p /\ do_ops E ents (down (k :: ks) ++ [Keys]) p = (ys, p') /\
     ends_with ys (OKeys l) /\ keys_among l (deeper [(s, VDict d)] ks)) /\
  forall k' t, one_key k' ->
    exists p ys p', usource_path E ents u = Ok p /\ do_ops E ents (down (k :: ks) ++ [Enter k'; Prim t]) p = (ys, p') /\
      ends_with ys (read_first E t (deeper [(s, VDict d)] (ks ++ [k']))).
Proof. exact C58_last_lem. Qed.
Print Assumptions C58_last.
Lemma mappable_roots m d : mappable (roots (union_of [da; db; dc] m d)).
Proof. exact (mappable_a m d 0%nat (Nat.le_0_l _)). Qed.
Lemma along_nil s v : v = VNone \/ (exists d, v = VDict d) -> mappable_along [(s, v)] [].
Proof. intros H [|i] Hi; [|cbn in Hi; Lia.lia]. split; [discriminate|]. apply Forall_cons; [exact H|apply Forall_nil]. Qed.
Example C58_first_case : forall ents,
  let u := union_of [da; db; dc] MFirst None in
  us_mapping u = MFirst /\ mappable (roots u) /\ Forall one_key [KStr "a"] /\
  (exists rest, values_at u [KStr "a"] = (da, jdict [("x", VInt 1); ("y", VNone)]) :: rest) /\
  mappable_along [(da, jdict [("x", VInt 1); ("y", VNone)])] [] /\
  (exists p, usource_path env0 ents u = Ok p /\
    fst (do_ops env0 ents (down [KStr "a"] ++ [Keys]) p) = [OBool true; OKeys [VStr "x"; VStr "y"]; OKeys [VStr "x"; VStr "y"]]) /\
  exists p, usource_path env0 ents (union_of [dc; da] MFirst None) = Ok p /\
    fst (do_ops env0 ents (down [KStr "a"] ++ [Keys]) p) = [OBool true; OKeys []; OKeys []].
Proof.
  intros ents u. split; [reflexivity|]. split; [apply mappable_roots|]. split; [repeat constructor|]. split; [eexists; reflexivity|].
  split; [apply along_nil; right; eexists; reflexivity|]. split; eexists; (split; [vm_compute; reflexivity|vm_compute; reflexivity]).
Qed.
Example C58_last_case : forall ents,
  let u := union_of [da; db; dc] MLast None in
  us_mapping u = MLast /\ mappable (roots u) /\
  values_at u [KStr "a"] = [(da, jdict [("x", VInt 1); ("y", VNone)])] ++ (db, jdict [("y", VInt 2); ("z", VInt 3)]) :: [(dc, VNone)] /\
  mappable_along [(db, jdict [("y", VInt 2); ("z", VInt 3)])] [] /\
  exists p, usource_path env0 ents u = Ok p /\
    fst (do_ops env0 ents (down [KStr "a"] ++ [Keys; Enter (KStr "y"); Prim TyInt]) p) =
      [OBool true; OKeys [VStr "y"; VStr "z"]; OKeys [VStr "y"; VStr "z"]; OBool true; OVal (VInt 2)].
Proof.
  intros ents u. split; [reflexivity|]. split; [apply mappable_roots|]. split; [reflexivity|]. split; [apply along_nil; right; eexists; reflexivity|].
  eexists; (split; [vm_compute; reflexivity|vm_compute; reflexivity]).
Qed.
(** Any other strategy is refused where mappings are merged. *)
Theorem C58_invalid : forall E ents u k b,
  Forall (plain_src E) (us_srcs u) -> us_mapping u = MBad b -> us_depth u = None ->
  one_key k -> mappable (roots u) -> values_at u [k] <> [] ->
  exists p ys p' t, usource_path E ents u = Ok p /\ do_ops E ents [Enter k; Keys] p = (ys, p') /\ ends_with ys (OErr (EValue t)).
Proof. exact C58_invalid_lem. Qed.
Print Assumptions C58_invalid.
Example C58_invalid_case : forall ents,
  let u := union_of [da; db; dc] (MBad "newest") None in
  Forall (plain_src env0) (us_srcs u) /\ us_mapping u = MBad "newest" /\ us_depth u = None /\ one_key (KStr "a") /\ mappable (roots u) /\ values_at u [KStr "a"] <> [] /\
  exists p, usource_path env0 ents u = Ok p /\ fst (do_ops env0 ents [Enter (KStr "a"); Keys] p) = [OBool true; OErr (EValue "merge invalid")].
Proof.
  intros ents u. split; [exact plain_abc|]. split; [reflexivity|]. split; [reflexivity|]. split; [repeat constructor|]. split; [apply mappable_roots|]. split; [discriminate|].
  eexists; (split; [vm_compute; reflexivity|vm_compute; reflexivity]).
Qed.

(** C59: with merge='combine' for sequences, those of all sources (nulls left out) are
    concatenated: the length is the total and element [i] that of the concatenation. *)
Theorem C59_concatenation : forall E ents u ks k ss,
  Forall (plain_src E) (us_srcs u) -> us_mapping u = MCombine -> us_sequence u = MCombine -> us_depth u = None ->
  Forall one_key ks -> one_key k -> mappable_along (roots u) ks ->
  values_at u (ks ++ [k]) <> [] -> shaped seq_of (values_at u (ks ++ [k])) = Some ss ->
  (exists p ys p', usource_path E ents u = Ok p /\ do_ops E ents (down ks ++ [Enter k; Len]) p = (ys, p') /\
     ends_with ys (OLen (length (concat_of ss)))) /\
  forall (i : nat) t,
    exists p ys p', usource_path E ents u = Ok p /\ do_ops E ents (down ks ++ [Enter k; Len; Enter (KInt (Z.of_nat i)); Prim t]) p = (ys, p') /\
      ends_with ys (read_first E t (match nth_error (concat_of ss) i with Some sv => [sv] | None => [] end)).
Proof. intros E ents u ks k ss PS M Q D OK K MA NN SH. apply C59_lem; auto; rewrite Q; [exact I|exact SH]. Qed.
Print Assumptions C59_concatenation.
Example C59_case : forall ents,
  let u := union_of [da; db; dc] MCombine None in
  mappable_along (roots u) [] /\ values_at u [KStr "l"] = [(da, VList [VInt 1; VInt 2]); (db, VNone); (dc, VList [VInt 3])] /\
  shaped seq_of (values_at u [KStr "l"]) = Some [(da, [VInt 1; VInt 2]); (dc, [VInt 3])] /\
  exists p, usource_path env0 ents u = Ok p /\
    fst (do_ops env0 ents [Enter (KStr "l"); Len; Enter (KInt 2); Prim TyInt] p) = [OBool true; OLen 3; OBool true; OVal (VInt 3)].
Proof.
  intros ents u. split; [intros [|i] Hi; [exact (mappable_roots MCombine None)|cbn in Hi; Lia.lia]|]. split; [reflexivity|]. split; [reflexivity|].
  eexists; (split; [vm_compute; reflexivity|vm_compute; reflexivity]).
Qed.
(** An invalid strategy goes unnoticed while there is one sequence; a second raises an
    [IndexError] (the message of the error cannot be formatted). *)
Theorem C59_invalid : forall E ents u ks k b ss,
  Forall (plain_src E) (us_srcs u) -> us_mapping u = MCombine -> us_sequence u = MBad b -> us_depth u = None ->
  Forall one_key ks -> one_key k -> mappable_along (roots u) ks ->
  values_at u (ks ++ [k]) <> [] -> shaped seq_of (values_at u (ks ++ [k])) = Some ss ->
  exists p ys p', usource_path E ents u = Ok p /\ do_ops E ents (down ks ++ [Enter k; Len]) p = (ys, p') /\
    ends_with ys (if (length ss <=? 1)%nat then OLen (length (concat_of ss)) else OErr EIndex).
Proof. exact C59_invalid_lem. Qed.
Print Assumptions C59_invalid.
Example C59_invalid_case : forall ents,
  let u := USource [da; db; dc] MCombine (MBad "newest") None in
  let one := USource [da; db] MCombine (MBad "newest") None in
  mappable_along (roots u) [] /\ shaped seq_of (values_at u [KStr "l"]) = Some [(da, [VInt 1; VInt 2]); (dc, [VInt 3])] /\
  (exists p, usource_path env0 ents u = Ok p /\ fst (do_ops env0 ents [Enter (KStr "l"); Len] p) = [OBool true; OErr EIndex]) /\
  exists p, usource_path env0 ents one = Ok p /\ fst (do_ops env0 ents [Enter (KStr "l"); Len] p) = [OBool true; OLen 2].
Proof.
  intros ents u one. split; [intros [|i] Hi; [exact (mappable_roots MCombine None)|cbn in Hi; Lia.lia]|]. split; [reflexivity|].
  split; eexists; (split; [vm_compute; reflexivity|vm_compute; reflexivity]).
Qed.

(** C60: [merge_depth] limits the merging of sequences by depth... *)
Theorem C60_sequences : forall E ents u d ks k ss,
  Forall (plain_src E) (us_srcs u) -> us_mapping u = MCombine -> us_depth u = Some d -> valid (us_sequence u) ->
  Forall one_key ks -> one_key k -> mappable_along (roots u) ks -> values_at u (ks ++ [k]) <> [] ->
  (forall i, (S i <= length ks)%nat ->
     Z.of_nat (length (values_at u (firstn (S i) ks))) < d \/ (length (values_at u (firstn (S i) ks)) <= 1)%nat) ->
  open_seqs (if Z.of_nat (length (ks ++ [k])) <? d then us_sequence u else MFirst) (values_at u (ks ++ [k])) = Some ss ->
  (exists p ys p', usource_path E ents u = Ok p /\ do_ops E ents (down ks ++ [Enter k; Len]) p = (ys, p') /\
     ends_with ys (OLen (length (concat_of ss)))) /\
  forall (i : nat) t,
    exists p ys p', usource_path E ents u = Ok p /\ do_ops E ents (down ks ++ [Enter k; Len; Enter (KInt (Z.of_nat i)); Prim t]) p = (ys, p') /\
      ends_with ys (read_first E t (match nth_error (concat_of ss) i with Some sv => [sv] | None => [] end)).
Proof. exact C60_lem. Qed.
Print Assumptions C60_sequences.
Example C60_case : forall ents,
  (exists p, usource_path env0 ents (union_of [da; dc] MCombine (Some 1)) = Ok p /\
    fst (do_ops env0 ents [Enter (KStr "l"); Len] p) = [OBool true; OLen 2]) /\
  (exists p, usource_path env0 ents (union_of [da; dc] MCombine (Some 2)) = Ok p /\
    fst (do_ops env0 ents [Enter (KStr "l"); Len] p) = [OBool true; OLen 3]).
Proof. intros ents. split; eexists; (split; [vm_compute; reflexivity|vm_compute; reflexivity]). Qed.
(** ...but that of mappings by the number of sources: with two sources and merge_depth=2
    the mappings at depth one are not merged. *)
Theorem C60_mappings_refuted : exists E ents u k d p ys p',
  Forall (plain_src E) (us_srcs u) /\ us_mapping u = MCombine /\ us_depth u = Some d /\ one_key k /\ 1 < d /\
  mappable (values_at u [k]) /\
  usource_path E ents u = Ok p /\ do_ops E ents [Enter k; Keys] p = (ys, p') /\
  ~ exists pre l, ys = pre ++ [OKeys l] /\ keys_among l (values_at u [k]).
Proof.
  exists env0, (fun _ => []), (union_of [da; db] MCombine (Some 2)), (KStr "a"), 2. do 3 eexists. split; [repeat constructor|]. split; [reflexivity|]. split; [reflexivity|]. split; [repeat constructor|]. split; [reflexivity|].
  split; [split; [discriminate|repeat (apply Forall_cons; [cbn; unfold jdict; eauto|]); apply Forall_nil]|]. split; [vm_compute; reflexivity|]. split; [vm_compute; reflexivity|].
  intros (pre & l & Q & _ & K). destruct pre as [|? [|? [|? ?]]]; cbn in Q; try discriminate. injection Q as _ <-. destruct (K (VStr "z")) as [_ K2].
  cbn in K2. specialize (K2 (ex_intro _ db (ex_intro _ _ (conj (or_intror (or_introl eq_refl)) eq_refl)))). discriminate.
Qed.
Print Assumptions C60_mappings_refuted.
(** For all keys down through the mappings: at each key the mappings of all sources still
    there are combined where fewer than [d] have a value, and otherwise the first alone is
    kept ([seen]); the depth does not matter. *)
Theorem C60_mappings_by_number_of_sources : forall E ents u d ks,
  Forall (plain_src E) (us_srcs u) -> us_mapping u = MCombine -> us_depth u = Some d ->
  Forall one_key ks -> mappable_seen d (roots u) ks ->
  (exists p ys p' l, usource_path E ents u = Ok p /\ do_ops E ents (down ks ++ [Keys]) p = (ys, p') /\
     ends_with ys (OKeys l) /\ keys_among l (seen d (roots u) ks)) /\
  forall k t, one_key k ->
    exists p ys p', usource_path E ents u = Ok p /\ do_ops E ents (down ks ++ [Enter k; Prim t]) p = (ys, p') /\
      ends_with ys (read_first E t (seen d (roots u) (ks ++ [k]))).
Proof. exact C60_seen_lem. Qed.
Print Assumptions C60_mappings_by_number_of_sources.
Example C60_mappings_case : forall ents,
  let v x := jdict [("a", jdict [("b", jdict [(x, VInt 1)])])] in
  let three := [doc (v "x"); doc (v "y"); doc (jdict [("a", VNone)])] in
  let u := union_of three MCombine (Some 3) in
  mappable_seen 3 (roots u) [KStr "a"; KStr "b"] /\
  seen 3 (roots u) [KStr "a"; KStr "b"] = [(doc (v "x"), jdict [("x", VInt 1)])] /\
  seen 3 (roots (union_of [doc (v "x"); doc (v "y")] MCombine (Some 3))) [KStr "a"; KStr "b"] =
    [(doc (v "x"), jdict [("x", VInt 1)]); (doc (v "y"), jdict [("y", VInt 1)])] /\
  exists p, usource_path env0 ents u = Ok p /\
    fst (do_ops env0 ents (down [KStr "a"; KStr "b"] ++ [Keys]) p) =
      [OBool true; OKeys [VStr "b"]; OBool true; OKeys [VStr "x"]; OKeys [VStr "x"]].
Proof.
  intros ents v three u. split.
  { intros [|[|[|i]]] Hi; [| | |cbn in Hi; Lia.lia]; (split; [discriminate|]); repeat (apply Forall_cons; [(left; reflexivity) || (right; eexists; reflexivity)|]); apply Forall_nil. }
  split; [reflexivity|]. split; [reflexivity|]. eexists. split; [vm_compute; reflexivity|vm_compute; reflexivity].
Qed.

(** C70: an element of a list in a union can be read with two keys at once, the index and a
    key below it, as a field with a [src] inside a List does.  False: the element is lost. *)
Theorem C70_two_keys_refuted : exists E ents u p q r,
  Forall (plain_src E) (us_srcs u) /\ usource_path E ents u = Ok p /\
  snd (do_ops E ents [Enter (KStr "l"); Len] p) = q /\
  (* key by key the value is there *)
  fst (do_ops E ents [Enter (KInt 0); Keys; Enter (KStr "x"); Prim TyInt] q) = [OBool true; OKeys [VStr "x"]; OBool true; OVal (VInt 5)] /\
  (* with both keys appended it is not *)
  up_exists E ents (up_append (KStr "x") (up_append (KInt 0) q)) = (r, Ok false).
Proof.
  exists env0, (fun _ => []), (union_of [doc (jdict [("l", VList [jdict [("x", VInt 5)]])])] MCombine None). do 3 eexists.
  split; [repeat constructor|]. split; [vm_compute; reflexivity|]. split; [vm_compute; reflexivity|]. split; vm_compute; reflexivity.
Qed.
Print Assumptions C70_two_keys_refuted.
