(** * Theorems C31-C36: lists, tuples, dicts, groups.

    Every source, every reachable state of the context, collect and raise mode, every
    item field (with any hooks; what its mapping does is in the hypotheses [items],
    [pairs], [grouped]).  The container itself has no hooks. *)
From Verif Require Import PyBase PyStr Source Field Context Fields SpecCtx SpecField SpecBox FieldProofs BoxProofs BoxLemmas Demo PropsField.
Open Scope Z_scope.

(** C31: the value of a list is the list of the items that map, in the order of the
    source; the errors are those of the items. *)
Theorem C31_list_in_order : forall W n f s eid m es pid p igd igm g lo hi a len q vs s1 t,
  mapping W s eid m es pid p igd igm -> plain_steps f ->
  f_kind f = KList g lo hi a -> p_str (w_env W) (place f p) = Ok t ->
  sequence_at W s f p len q ->
  items W n (indexed len g) (within f s pid q) vs s1 -> untouched f (VList (survivors vs)) ->
  long_enough lo (length (survivors vs)) -> short_enough hi (length (survivors vs)) ->
  ends W (S n) f s s1 (VList (survivors vs)).
Proof. exact C31_list. Qed.
Print Assumptions C31_list_in_order.
(** An item that raises (in raise mode: one that is wrong) ends the list. *)
Theorem C31_list_raises : forall W n f s eid m es pid p igd igm g lo hi a len q e s1 t,
  mapping W s eid m es pid p igd igm -> plain_steps f ->
  f_kind f = KList g lo hi a -> p_str (w_env W) (place f p) = Ok t ->
  sequence_at W s f p len q ->
  items_raise W n (indexed len g) (within f s pid q) e s1 ->
  if caught_by_compute e then rejects W (S n) f s s1 eid (invalid_at f pid (VioExn (spoken e)) t) else fails W (S n) f s s1 e.
Proof. exact C31_raise. Qed.
Print Assumptions C31_list_raises.

Definition ints (lo hi : option Z) : field := fld "l" (KList (anon (KInteger None None)) lo hi false).
Definition s_list (m : mode) : st := in_map (jdict [("l", VList [VInt 1; VStr "q"; VInt 3])]) [] m.
Ltac plain_value := split; [first [left; reflexivity|right; reflexivity|reflexivity]|split; reflexivity].
Ltac steps := repeat (eapply it_cons; [vm_compute; reflexivity|]); apply it_nil.
Definition demo_vs : list val := [VInt 1; ERRORv; VInt 3].
(** The list ["l": [1, "q", 3]]: two items survive. *)
Lemma demo_list lo hi : exists q s1,
  sequence_at world0 (s_list Collect) (ints lo hi) (at_root (s_list Collect)) 3 q /\
  items world0 3 (indexed 3 (anon (KInteger None None))) (within (ints lo hi) (s_list Collect) 0 q) demo_vs s1.
Proof.
  eexists _, _. split; [eexists; split; [eexists; split; reflexivity|reflexivity]|]. unfold demo_vs. steps.
Qed.
Example C31_list_in_order_case : let f := ints None None in let s := s_list Collect in
  mapping world0 s 0 Collect [] 0 (at_root s) false false /\ plain_steps f /\
  (exists q s1, sequence_at world0 s f (at_root s) 3 q /\
     items world0 3 (indexed 3 (anon (KInteger None None))) (within f s 0 q) demo_vs s1) /\
  survivors demo_vs = [VInt 1; VInt 3] /\ untouched f (VList (survivors demo_vs)) /\
  long_enough None 2 /\ short_enough None 2 /\
  fst (field_map world0 4 f NONEv s) = Ok (VList [VInt 1; VInt 3]).
Proof.
  cbv zeta. split; [in_map|]. split; [free|]. split; [apply demo_list|]. split; [reflexivity|]. split; [plain_value|].
  split; [intros k H; discriminate|]. split; [intros k H; discriminate|]. vm_compute. reflexivity.
Qed.
Example C31_list_raises_case : let f := ints None None in let s := s_list Raise in
  mapping world0 s 0 Raise [] 0 (at_root s) false false /\ plain_steps f /\
  (exists q e s1, sequence_at world0 s f (at_root s) 3 q /\
     items_raise world0 3 (indexed 3 (anon (KInteger None None))) (within f s 0 q) e s1 /\ caught_by_compute e = true) /\
  exists a b, fst (field_map world0 4 f NONEv s) = Exn (EForm [a; b]).
Proof.
  cbv zeta. split; [in_map|]. split; [free|]. split.
  - eexists _, _, _. split; [eexists; split; [eexists; split; reflexivity|reflexivity]|]. split.
    + eapply ir_later; [vm_compute; reflexivity|]. apply ir_here. vm_compute. reflexivity.
    + reflexivity.
  - eexists _, _. vm_compute. reflexivity.
Qed.
(** A value that is no sequence is reported... *)
Theorem C31_not_a_list : forall W n f s eid m es pid p igd igm g lo hi x q t,
  mapping W s eid m es pid p igd igm -> plain_steps f ->
  f_kind f = KList g lo hi false -> p_str (w_env W) (place f p) = Ok t ->
  no_sequence_at W s f p (ESource x) q -> ~ of_mount q ->
  rejects W (S n) f s (within f s pid q) eid (invalid_at f pid (VioExn (ESource x)) t).
Proof. exact C31_no_list. Qed.
Print Assumptions C31_not_a_list.
(** ...or, with [allow_field], mapped as the one item of the list, where it is. *)
Theorem C31_scalar : forall W n f s eid m es pid p igd igm g lo hi x q v s1 t,
  mapping W s eid m es pid p igd igm -> plain_steps f ->
  f_kind f = KList g lo hi true -> p_str (w_env W) (place f p) = Ok t ->
  no_sequence_at W s f p (ESource x) q -> ~ of_mount q ->
  field_map W n g NONEv (within f s pid q) = (Ok v, s1) -> ignored v = false -> untouched f (VList [v]) ->
  long_enough lo 1 -> short_enough hi 1 ->
  ends W (S n) f s s1 (VList [v]).
Proof. exact C31_lone. Qed.
Print Assumptions C31_scalar.
Definition int_or_ints (a : bool) : field := fld "l" (KList (MkField no_opts (KInteger None None)) None None a).
Definition s_scalar : st := in_map (jdict [("l", VInt 7)]) [] Collect.
Example C31_scalar_case : let s := s_scalar in
  mapping world0 s 0 Collect [] 0 (at_root s) false false /\ plain_steps (int_or_ints false) /\ plain_steps (int_or_ints true) /\
  (exists q, no_sequence_at world0 s (int_or_ints false) (at_root s) (ESource NotSequence) q /\ ~ of_mount q) /\
  (exists q s1, no_sequence_at world0 s (int_or_ints true) (at_root s) (ESource NotSequence) q /\ ~ of_mount q /\
     field_map world0 3 (MkField no_opts (KInteger None None)) NONEv (within (int_or_ints true) s 0 q) = (Ok (VInt 7), s1)) /\
  (exists s', field_map world0 4 (int_or_ints false) NONEv s = (Ok ERRORv, s') /\
     errs s' = [(Collect, [MkErr (Invalid (VioExn (ESource NotSequence))) "l" (Some "l"%string) (Some 0%nat)])]) /\
  fst (field_map world0 4 (int_or_ints true) NONEv s) = Ok (VList [VInt 7]).
Proof.
  cbv zeta. split; [in_map|]. split; [free|]. split; [free|].
  split; [eexists; split; [eexists; split; [eexists; split; reflexivity|reflexivity]|intros []]|].
  split; [eexists _, _; split; [eexists; split; [eexists; split; reflexivity|reflexivity]|split; [intros []|vm_compute; reflexivity]]|].
  split; [eexists; split; vm_compute; reflexivity|vm_compute; reflexivity].
Qed.

(** C32: [min_length] and [max_length] are about the surviving items; exactly one error. *)
Theorem C32_too_short : forall W n f s eid m es pid p igd igm g lo hi a len q vs s1 t k,
  mapping W s eid m es pid p igd igm -> plain_steps f ->
  f_kind f = KList g lo hi a -> p_str (w_env W) (place f p) = Ok t ->
  sequence_at W s f p len q ->
  items W n (indexed len g) (within f s pid q) vs s1 -> untouched f (VList (survivors vs)) ->
  lo = Some k -> Z.of_nat (length (survivors vs)) < k ->
  rejects W (S n) f s s1 eid (invalid_at f pid (VioMinItems k) t).
Proof. exact C32_min. Qed.
Print Assumptions C32_too_short.
Theorem C32_too_long : forall W n f s eid m es pid p igd igm g lo hi a len q vs s1 t k,
  mapping W s eid m es pid p igd igm -> plain_steps f ->
  f_kind f = KList g lo hi a -> p_str (w_env W) (place f p) = Ok t ->
  sequence_at W s f p len q ->
  items W n (indexed len g) (within f s pid q) vs s1 -> untouched f (VList (survivors vs)) ->
  long_enough lo (length (survivors vs)) -> hi = Some k -> k < Z.of_nat (length (survivors vs)) ->
  rejects W (S n) f s s1 eid (invalid_at f pid (VioMaxItems k) t).
Proof. exact C32_max. Qed.
Print Assumptions C32_too_long.
(** Three items, two survive: [min_length=3] is violated, [max_length=2] is not,
    [max_length=1] is. *)
Example C32_cases : let s := s_list Collect in
  (exists q s1, sequence_at world0 s (ints (Some 3) None) (at_root s) 3 q /\
     items world0 3 (indexed 3 (anon (KInteger None None))) (within (ints (Some 3) None) s 0 q) demo_vs s1) /\
  Z.of_nat (length (survivors demo_vs)) < 3 /\ untouched (ints (Some 3) None) (VList (survivors demo_vs)) /\
  long_enough None (length (survivors demo_vs)) /\ 1 < Z.of_nat (length (survivors demo_vs)) /\
  map (fun f => fst (field_map world0 4 f NONEv s)) [ints (Some 3) None; ints (Some 2) (Some 2); ints None (Some 1)]
  = [Ok ERRORv; Ok (VList [VInt 1; VInt 3]); Ok ERRORv].
Proof.
  cbv zeta. split; [apply demo_list|]. split; [reflexivity|]. split; [plain_value|]. split; [intros k H; discriminate|]. split; [reflexivity|].
  vm_compute. reflexivity.
Qed.

(** C33: a sequence of the right length: the items that map, in order; all of them if all
    of them map. *)
Theorem C33_tuple_in_order : forall W n f s eid m es pid p igd igm gs q vs s1 t,
  mapping W s eid m es pid p igd igm -> plain_steps f ->
  f_kind f = KTuple gs -> p_str (w_env W) (place f p) = Ok t ->
  sequence_at W s f p (length gs) q ->
  items W n (zipped 0 gs) (within f s pid q) vs s1 -> untouched f (VTuple (survivors vs)) ->
  ends W (S n) f s s1 (VTuple (survivors vs)) /\
  (Forall (fun v => ignored v = false) vs -> survivors vs = vs /\ length vs = length gs).
Proof. exact C33_tuple. Qed.
Print Assumptions C33_tuple_in_order.
(** The wrong length: nothing is stored, one error. *)
Theorem C33_wrong_length : forall W n f s eid es pid p igd igm gs q len t,
  mapping W s eid Collect es pid p igd igm -> plain_steps f ->
  f_kind f = KTuple gs -> p_str (w_env W) (place f p) = Ok t ->
  sequence_at W s f p len q -> len <> length gs ->
  yields W (S n) f NONEv s eid Collect es ERRORv [invalid_at f pid (VioItems (length gs)) t].
Proof. exact C33_length. Qed.
Print Assumptions C33_wrong_length.
(** In raise mode the tuple catches what it raised itself: two errors. *)
Theorem C33_wrong_length_raise : forall W n f s eid es pid p igd igm gs q len t,
  mapping W s eid Raise es pid p igd igm -> plain_steps f ->
  f_kind f = KTuple gs -> p_str (w_env W) (place f p) = Ok t ->
  sequence_at W s f p len q -> len <> length gs ->
  let e1 := invalid_at f pid (VioItems (length gs)) t in
  let e2 := invalid_at f pid (VioExn (spoken (EForm (es ++ [e1])))) t in
  exists s', field_map W (S n) f NONEv s = (Exn (EForm (es ++ [e1; e2])), s') /\ stk s' = stk s /\ forms s' = forms s.
Proof. exact C33_length_raise. Qed.
Print Assumptions C33_wrong_length_raise.
Definition pair_of : field := fld "l" (KTuple [anon (KInteger None None); anon (KString no_strc)]).
Definition s_pair (m : mode) (l : list val) : st := in_map (jdict [("l", VList l)]) [] m.
Example C33_case : let f := pair_of in let s := s_pair Collect [VInt 1; VStr "q"] in
  mapping world0 s 0 Collect [] 0 (at_root s) false false /\ plain_steps f /\
  (exists q s1, sequence_at world0 s f (at_root s) 2 q /\
     items world0 3 (zipped 0 [anon (KInteger None None); anon (KString no_strc)]) (within f s 0 q) [VInt 1; VStr "q"] s1) /\
  untouched f (VTuple [VInt 1; VStr "q"]).
Proof.
  cbv zeta. split; [in_map|]. split; [free|]. split; [|plain_value].
  eexists _, _. split; [eexists; split; [eexists; split; reflexivity|reflexivity]|]. steps.
Qed.
Example C33_wrong_length_case : forall m, let f := pair_of in let s := s_pair m [VInt 1] in
  mapping world0 s 0 m [] 0 (at_root s) false false /\ plain_steps f /\
  exists q, sequence_at world0 s f (at_root s) 1 q.
Proof.
  intros m. cbv zeta. split; [in_map|]. split; [free|].
  eexists. eexists. split; [eexists; split; reflexivity|reflexivity].
Qed.
(** A stored tuple may be shorter than declared. *)
Theorem C33_arity_refuted : exists W n f s gs vs,
  f_kind f = KTuple gs /\ fst (field_map W n f NONEv s) = Ok (VTuple vs) /\ length vs <> length gs.
Proof.
  exists world0, 4%nat, pair_of, (s_pair Collect [VStr "q"; VStr "z"]). eexists _, _. split; [reflexivity|].
  split; [vm_compute; reflexivity|discriminate].
Qed.
Print Assumptions C33_arity_refuted.

(** C34: a dict holds the pairs of the accepted keys whose key and value map; a key mapped
    to twice keeps its first place and its last value. *)
Theorem C34_dict_of_pairs : forall W n f s eid m es pid p igd igm keyf kf vf required mx keys q ps s1 t,
  mapping W s eid m es pid p igd igm -> plain_steps f ->
  f_kind f = KDict kf vf keyf required mx -> p_str (w_env W) (place f p) = Ok t ->
  mapping_at W s f p keys q -> pairs W n keyf kf vf keys (within f s pid q) ps s1 ->
  untouched f (VDict (dict_of ps)) -> has_required required (dict_of ps) -> few_enough mx (dict_of ps) ->
  ends W (S n) f s s1 (VDict (dict_of ps)).
Proof. exact C34_dict. Qed.
Print Assumptions C34_dict_of_pairs.
Theorem C34_distinct_keys : forall ps,
  ForallOrdPairs (fun a b => py_eq (fst a) (fst b) = false) ps -> dict_of ps = ps.
Proof. exact dict_of_distinct. Qed.
Print Assumptions C34_distinct_keys.
(** Without the keys required: one error names them, if they are all strings. *)
Theorem C34_required_keys_partial : forall W n f s eid m es pid p igd igm keyf kf vf required mx keys q ps s1 t,
  mapping W s eid m es pid p igd igm -> plain_steps f ->
  f_kind f = KDict kf vf keyf required mx -> p_str (w_env W) (place f p) = Ok t ->
  mapping_at W s f p keys q -> pairs W n keyf kf vf keys (within f s pid q) ps s1 ->
  untouched f (VDict (dict_of ps)) -> ~ has_required required (dict_of ps) -> lacks_strings required (dict_of ps) ->
  exists missing, (forall k, In k missing <-> lacks required (dict_of ps) k) /\
    rejects W (S n) f s s1 eid (invalid_at f pid (VioMissingKeys missing) t).
Proof. exact C34_required. Qed.
Print Assumptions C34_required_keys_partial.
(** A missing key that is not a string is not reported: the message joins the missing keys,
    which raises a [TypeError] out of the mapping. *)
Theorem C34_odd_keys_raise : forall W n f s eid m es pid p igd igm keyf kf vf required mx keys q ps s1 t,
  mapping W s eid m es pid p igd igm -> plain_steps f ->
  f_kind f = KDict kf vf keyf required mx -> p_str (w_env W) (place f p) = Ok t ->
  mapping_at W s f p keys q -> pairs W n keyf kf vf keys (within f s pid q) ps s1 ->
  untouched f (VDict (dict_of ps)) -> ~ lacks_strings required (dict_of ps) ->
  fails W (S n) f s s1 (EType "expected str instance").
Proof. exact C34_crash. Qed.
Print Assumptions C34_odd_keys_raise.
Theorem C34_max_keys : forall W n f s eid m es pid p igd igm keyf kf vf required mx keys q ps s1 t k,
  mapping W s eid m es pid p igd igm -> plain_steps f ->
  f_kind f = KDict kf vf keyf required mx -> p_str (w_env W) (place f p) = Ok t ->
  mapping_at W s f p keys q -> pairs W n keyf kf vf keys (within f s pid q) ps s1 ->
  untouched f (VDict (dict_of ps)) -> has_required required (dict_of ps) ->
  mx = Some k -> k <> 0 -> k < Z.of_nat (length (dict_of ps)) ->
  rejects W (S n) f s s1 eid (invalid_at f pid (VioMaxKeys k) t).
Proof. exact C34_max. Qed.
Print Assumptions C34_max_keys.
(** [{"d": {"a": 1, "b": "q", "c": 3, "z": 4}}]: the key filter refuses "z", the value at
    "b" is not an integer. *)
Definition not_z : hook prog := MkHook true (fun _ args => PRet (VBool (match args with [VStr k] => negb (String.eqb k "z") | _ => false end))).
Definition d_field (req : list val) (mx : option Z) : field :=
  fld "d" (KDict (anon (KString no_strc)) (anon (KInteger None None)) (Some not_z) req mx).
Definition s_dict : st := in_map (jdict [("d", jdict [("a", VInt 1); ("b", VStr "q"); ("c", VInt 3); ("z", VInt 4)])]) [] Collect.
Definition demo_ps : list (val * val) := [(VStr "a", VInt 1); (VStr "c", VInt 3)].
Lemma demo_dict req mx : exists q s1,
  mapping_at world0 s_dict (d_field req mx) (at_root s_dict) (map VStr ["a"; "b"; "c"; "z"]) q /\
  pairs world0 3 (Some not_z) (anon (KString no_strc)) (anon (KInteger None None)) (map VStr ["a"; "b"; "c"; "z"])
    (within (d_field req mx) s_dict 0 q) demo_ps s1.
Proof.
  eexists _, _. split; [eexists; split; [eexists; split; reflexivity|reflexivity]|].
  cbn [map]. unfold demo_ps.
  eapply pr_pair; [eapply (acc_hook world0 3 _ _ not_z (VBool true)); vm_compute; reflexivity|vm_compute; reflexivity|reflexivity|vm_compute; reflexivity|reflexivity|intros U; inversion U|].
  eapply pr_no_value; [eapply (acc_hook world0 3 _ _ not_z (VBool true)); vm_compute; reflexivity|vm_compute; reflexivity|reflexivity|].
  eapply pr_pair; [eapply (acc_hook world0 3 _ _ not_z (VBool true)); vm_compute; reflexivity|vm_compute; reflexivity|reflexivity|vm_compute; reflexivity|reflexivity|intros U; inversion U|].
  eapply pr_refused; [eapply (acc_hook world0 3 _ _ not_z (VBool false)); vm_compute; reflexivity|]. apply pr_nil.
Qed.
Example C34_case : let f := d_field [VStr "a"] (Some 2) in let s := s_dict in
  mapping world0 s 0 Collect [] 0 (at_root s) false false /\ plain_steps f /\
  untouched f (VDict (dict_of demo_ps)) /\ has_required [VStr "a"] (dict_of demo_ps) /\ few_enough (Some 2) (dict_of demo_ps) /\
  ~ has_required [VStr "a"; VStr "b"] (dict_of demo_ps) /\ lacks_strings [VStr "a"; VStr "b"] (dict_of demo_ps) /\
  ~ lacks_strings [VInt 7] (dict_of demo_ps) /\ 1 < Z.of_nat (length (dict_of demo_ps)) /\
  map (fun f => fst (field_map world0 4 f NONEv s)) [f; d_field [VStr "a"; VStr "b"] None; d_field [] (Some 1)]
  = [Ok (VDict demo_ps); Ok ERRORv; Ok ERRORv].
Proof.
  cbv zeta. split; [in_map|]. split; [free|]. split; [plain_value|].
  split; [intros k [<-|[]]; now exists (VInt 1)|]. split; [intros k H _; injection H as <-; discriminate|].
  split; [intros H; destruct (H (VStr "b")) as (v & Hv); [cbn; auto|discriminate]|].
  split; [intros k [[<-|[<-|[]]] _]; eauto|].
  split; [intros H; destruct (H (VInt 7)) as (v & Hv); [split; [cbn; auto|reflexivity]|discriminate]|].
  split; [reflexivity|vm_compute; reflexivity].
Qed.
Theorem C34_required_keys_refuted : exists W n f s eid m es pid p igd igm keyf kf vf required mx keys q ps s1 t,
  (mapping W s eid m es pid p igd igm /\ plain_steps f /\
   f_kind f = KDict kf vf keyf required mx /\ p_str (w_env W) (place f p) = Ok t /\
   mapping_at W s f p keys q /\ pairs W n keyf kf vf keys (within f s pid q) ps s1 /\
   untouched f (VDict (dict_of ps)) /\ ~ has_required required (dict_of ps)) /\
  ~ exists missing, rejects W (S n) f s s1 eid (invalid_at f pid (VioMissingKeys missing) t).
Proof.
  destruct (demo_dict [VInt 7] None) as (q & s1 & M & P).
  exists world0, 3%nat, (d_field [VInt 7] None), s_dict, 0%nat, Collect, [], 0%nat, (at_root s_dict), false, false, (Some not_z),
    (anon (KString no_strc)), (anon (KInteger None None)), [VInt 7], None, (map VStr ["a"; "b"; "c"; "z"]), q, demo_ps, s1, "d"%string.
  split.
  - split; [in_map|]. split; [free|]. split; [reflexivity|]. split; [vm_compute; reflexivity|]. split; [exact M|]. split; [exact P|]. split; [plain_value|].
    intros H. destruct (H (VInt 7)) as (v & Hv); [cbn; auto|discriminate].
  - intros (missing & m & es & s' & _ & H & _).
    assert (X : fst (field_map world0 4 (d_field [VInt 7] None) NONEv s_dict) = Exn (EType "expected str instance")) by (vm_compute; reflexivity).
    rewrite H in X. destruct m; discriminate.
Qed.
Print Assumptions C34_required_keys_refuted.
Example C34_distinct_case : ForallOrdPairs (fun a b => py_eq (fst a) (fst b) = false) demo_ps.
Proof. repeat constructor. Qed.

(** C35: a group holds (key, captures, value) for the keys some entry matches, each mapped
    by the first entry that does, in the order of the source. *)
Theorem C35_group_in_order : forall W n f s eid m es pid p igd igm l keys q ts c s1 t,
  mapping W s eid m es pid p igd igm -> plain_steps f ->
  f_kind f = KGroup l -> p_str (w_env W) (place f p) = Ok t ->
  mapping_at W s f p keys q -> grouped W n l keys (within f s pid q) ts c s1 -> c <> O ->
  untouched f (VList ts) -> ends W (S n) f s s1 (VList ts).
Proof. exact C35_group. Qed.
Print Assumptions C35_group_in_order.
(** No key matches: the default, which is [list] unless given. *)
Theorem C35_no_match : forall W n f s eid m es pid p igm l keys q ts s1 d,
  mapping W s eid m es pid p false igm -> plain_steps f ->
  f_kind f = KGroup l -> mapping_at W s f p keys q -> grouped W n l keys (within f s pid q) ts 0 s1 ->
  o_default (f_opts f) = DCall (PRet d) \/ (o_default (f_opts f) = DVal d /\ d <> VConst NOTSET) ->
  ends W (S n) f s s1 d.
Proof. exact C35_default. Qed.
Print Assumptions C35_no_match.
(** A key of the mapping stops the group: one that is not a text comes to a pattern, or its field
    raises.  The exception is the field's error if mapping reports its class, or else it is raised. *)
Theorem C35_stopped : forall W n f s eid m es pid p igd igm l pre k post q ts c s1 e s2 t,
  mapping W s eid m es pid p igd igm -> plain_steps f ->
  f_kind f = KGroup l -> p_str (w_env W) (place f p) = Ok t ->
  mapping_at W s f p (pre ++ k :: post) q -> grouped W n l pre (within f s pid q) ts c s1 -> stops W n l k s1 e s2 ->
  if caught_by_compute e then rejects W (S n) f s s2 eid (invalid_at f pid (VioExn (spoken e)) t) else fails W (S n) f s s2 e.
Proof. exact C35_stops. Qed.
Print Assumptions C35_stopped.
Definition g_field (l : list (gmatch * field)) : field :=
  MkField (MkOpts (Some "g") None false (DCall (PRet (VList []))) [] [] [] false None None None None None None) (KGroup l).
Definition g_entries : list (gmatch * field) :=
  [(GRe "x", anon (KInteger None None)); (GRe "xy", anon (KString no_strc))].
Definition s_group : st := in_map (jdict [("xyz", VInt 1); ("a", VInt 2); ("x2", VStr "q")]) [] Collect.
Example C35_case : let f := g_field g_entries in let s := s_group in
  mapping world0 s 0 Collect [] 0 (at_root s) false false /\ plain_steps f /\
  (exists q s1 ts, mapping_at world0 s f (at_root s) (map VStr ["xyz"; "a"; "x2"]) q /\
     grouped world0 3 g_entries (map VStr ["xyz"; "a"; "x2"]) (within f s 0 q) ts 2 s1 /\
     ts = [VTuple [VStr "xyz"; VDict [(VInt 0, VStr "x")]; VInt 1]]) /\
  fst (field_map world0 4 f NONEv s) = Ok (VList [VTuple [VStr "xyz"; VDict [(VInt 0, VStr "x")]; VInt 1]]).
Proof.
  cbv zeta. split; [in_map|]. split; [free|]. split; [|vm_compute; reflexivity].
  eexists _, _, _. split; [eexists; split; [eexists; split; reflexivity|reflexivity]|]. cbn [map]. split.
  - eapply gr_kept.
    + exists [], (GRe "x"), (tl g_entries). split; [reflexivity|]. split; [|constructor]. eapply hit_re; reflexivity.
    + vm_compute. reflexivity.
    + reflexivity.
    + eapply gr_unmatched; [repeat constructor; eapply miss_re; reflexivity|].
      eapply gr_dropped.
      * exists [], (GRe "x"), (tl g_entries). split; [reflexivity|]. split; [|constructor]. eapply hit_re; reflexivity.
      * vm_compute. reflexivity.
      * reflexivity.
      * apply gr_nil.
  - reflexivity.
Qed.
Definition s_stuck : st := in_map (VDict [(VStr "xyz", VInt 1); (VInt 5, VInt 2)]) [] Collect.
Example C35_stopped_case : let f := g_field g_entries in let s := s_stuck in
  mapping world0 s 0 Collect [] 0 (at_root s) false false /\
  (exists q s1 ts, mapping_at world0 s f (at_root s) ([VStr "xyz"] ++ [VInt 5]) q /\
     grouped world0 3 g_entries [VStr "xyz"] (within f s 0 q) ts 1 s1 /\ stops world0 3 g_entries (VInt 5) s1 (EType "expected string or buffer") s1) /\
  fst (field_map world0 4 f NONEv s) = Exn (EType "expected string or buffer").
Proof.
  cbv zeta. split; [in_map|]. split; [|vm_compute; reflexivity].
  eexists _, _, _. split; [eexists; split; [eexists; split; reflexivity|reflexivity]|]. split.
  - eapply gr_kept.
    + exists [], (GRe "x"), (tl g_entries). split; [reflexivity|]. split; [|constructor]. eapply hit_re; reflexivity.
    + vm_compute. reflexivity.
    + reflexivity.
    + apply gr_nil.
  - apply st_match. exists [], "x", (anon (KInteger None None)), (tl g_entries). split; [reflexivity|]. split; [constructor|discriminate].
Qed.
Example C35_no_match_case : let f := g_field [(GName "nope", int_field)] in let s := s_group in
  (exists q s1, mapping_at world0 s f (at_root s) (map VStr ["xyz"; "a"; "x2"]) q /\
     grouped world0 3 [(GName "nope", int_field)] (map VStr ["xyz"; "a"; "x2"]) (within f s 0 q) [] 0 s1) /\
  fst (field_map world0 4 f NONEv s) = Ok (VList []).
Proof.
  cbv zeta. split; [|vm_compute; reflexivity].
  eexists _, _. split; [eexists; split; [eexists; split; reflexivity|reflexivity]|]. cbn [map].
  repeat (eapply gr_unmatched; [repeat constructor; reflexivity|]). apply gr_nil.
Qed.

(** C36, false: [Group(Integer('a'))] (a bare field stands for itself under its own source
    key) looks for 'a' inside the value at 'a'. *)
Theorem C36_bare_field_refuted : exists W n f s g,
  f_kind f = KGroup [(GName "a", g)] /\ plain_steps f /\ o_src (f_opts g) = Some (KStr "a") /\
  fst (field_map W n g NONEv s) = Ok (VInt 1) /\
  fst (field_map W n f NONEv s) <> Ok (VList [VTuple [VStr "a"; VNone; VInt 1]]) /\
  fst (field_map W n f NONEv s) = Ok (VList []).
Proof.
  exists world0, 4%nat, (g_field [(GName "a", fld "a" (KInteger None None))]), (in_map (jdict [("a", VInt 1)]) [] Collect), (fld "a" (KInteger None None)).
  split; [reflexivity|]. split; [free|]. split; [reflexivity|]. split; [vm_compute; reflexivity|].
  split; [vm_compute; discriminate|vm_compute; reflexivity].
Qed.
Print Assumptions C36_bare_field_refuted.
