(** * Theorems C61-C63: mounted sources and configuration sections. *)
From Verif Require Import PyBase PyStr Source Field Context Fields SpecCtx SpecField SpecMount SpecBox MountProofs BoxLemmas Demo PropsField.
Open Scope Z_scope.

(** C61: whatever is done with the path of a MountSource, the replies given below the key [m]
    are those the source mounted at [m] gives to these steps alone; what happens below other
    keys makes no difference.  [is_null] is asked as [value is None]. *)
Theorem C61_mount_alone : forall E ents l p m b pb acts,
  source_path E ents (SMount l) = Ok p -> alookup l m = Some b -> bsource_path E ents b = Ok pb ->
  pick m (routed None acts) (run_acts (act_path E ents) acts p) =
  run_acts (act_base (null_value E ents) E ents) (pick m (routed None acts) acts) pb.
Proof. exact C61_lem. Qed.
Print Assumptions C61_mount_alone.
(** For sources other than unions that is their own [is_null]. *)
Theorem C61_plain_alone : forall E ents l p m src pb acts,
  source_path E ents (SMount l) = Ok p -> alookup l m = Some (BPlain src) -> bsource_path E ents (BPlain src) = Ok pb ->
  pick m (routed None acts) (run_acts (act_path E ents) acts p) =
  run_acts (act_base (bp_is_null E ents) E ents) (pick m (routed None acts) acts) pb.
Proof. exact C61_plain_lem. Qed.
Print Assumptions C61_plain_alone.
Definition mounted : list (string * bsource) :=
  [("a", BPlain (SJson (jdict [("x", VInt 1)]) false None)); ("b", BPlain (SJson (jdict [("x", VInt 2); ("y", VNone)]) false None))].
Definition steps_ab : list act := [Down (KStr "a"); Down (KStr "x"); Get TyInt; Up; Up; Down (KStr "b"); Names; Down (KStr "x"); Get TyInt; Up; Down (KStr "y"); Null].
Example C61_case : forall ents,
  (exists p, source_path (w_env world2) ents (SMount mounted) = Ok p /\
     run_acts (act_path (w_env world2) ents) steps_ab p =
       [RDone; RDone; RVal (Ok (VInt 1)); RUnit (Ok tt); RUnit (Ok tt); RDone; RNames (Ok (Ok [VStr "x"; VStr "y"])); RDone; RVal (Ok (VInt 2)); RUnit (Ok tt); RDone; RBool (Ok true)]) /\
  (exists src pb, alookup mounted "b" = Some (BPlain src) /\ bsource_path (w_env world2) ents (BPlain src) = Ok pb) /\
  pick "b" (routed None steps_ab) steps_ab = [Names; Down (KStr "x"); Get TyInt; Up; Down (KStr "y"); Null].
Proof.
  intros ents. split; [eexists; split; [vm_compute; reflexivity|vm_compute; reflexivity]|]. split; [eexists _, _; split; [reflexivity|vm_compute; reflexivity]|reflexivity].
Qed.
(** At the root itself, however the run got there; *)
Theorem C61_root : forall E ents l p acts a, source_path E ents (SMount l) = Ok p -> spot_after acts = None ->
  exists r, run_acts (act_path E ents) (acts ++ [a]) p = run_acts (act_path E ents) acts p ++ [r] /\ root_says (map fst l) a r.
Proof. exact C61_root_lem. Qed.
Print Assumptions C61_root.
(** and at a key where nothing is mounted, which is not absent: it holds an empty mapping. *)
Theorem C61_unmounted : forall E ents l p acts a k, source_path E ents (SMount l) = Ok p -> spot_after acts = Some (k, O) -> ~ mounted_at (map fst l) k ->
  exists r, run_acts (act_path E ents) (acts ++ [a]) p = run_acts (act_path E ents) acts p ++ [r] /\ nothing_says a r.
Proof. exact C61_nothing_lem. Qed.
Print Assumptions C61_unmounted.
Definition steps_no : list act := [Down (KStr "a"); Down (KStr "x"); Get TyInt; Up; Up; Down (KStr "c"); Down (KStr "x"); Val; Up].
Example C61_unmounted_case : spot_after steps_no = Some (KStr "c", O) /\ ~ mounted_at (map fst mounted) (KStr "c") /\
  spot_after (steps_no ++ [Up]) = None /\
  forall ents, exists p, source_path (w_env world2) ents (SMount mounted) = Ok p /\
    run_acts (act_path (w_env world2) ents) (steps_no ++ [Here; Names; Get TyInt; Up; Names; Val; Up]) p =
      [RDone; RDone; RVal (Ok (VInt 1)); RUnit (Ok tt); RUnit (Ok tt); RDone; RDone; RVal (Ok (VConst NONE)); RUnit (Ok tt);
       RBool (Ok true); RNames (Ok (Ok [])); RVal (Exn EKey); RUnit (Ok tt); RNames (Ok (Ok [VStr "a"; VStr "b"])); RVal (Ok (VConst NONE)); RUnit (Exn EIndex)].
Proof.
  split; [reflexivity|]. split; [intros (m & Q & I); injection Q as <-; cbn in I; intuition discriminate|]. split; [reflexivity|].
  intros ents. eexists. split; [vm_compute; reflexivity|vm_compute; reflexivity].
Qed.
(** On Python 3 the path of a MountSource cannot be made: mapping from one raises an
    [AttributeError] before any field is looked at, and reports nothing. *)
Theorem C61_python3 : forall W fuel id l tags u m s, py3 (w_env W) = true -> (exists c, lookup "src" (stk s) = Some c) ->
  exists x s', Form_map W fuel id (ASrc (SMount l)) tags false u m s = (Exn (EAttr x), s') /\
    stk s' = stk s /\ forms s' = forms s /\ paths s' = paths s /\ forall j e, nth_error (errs s) j = Some e -> nth_error (errs s') j = Some e.
Proof. exact C61_python3_lem. Qed.
Print Assumptions C61_python3.
Example C61_python3_case : py3 (w_env world0) = true /\ (exists c, lookup "src" (stk init) = Some c) /\
  (exists s', Form_map world2 9 0 (ASrc (SMount mounted)) [] false UIgnore Collect (snd (new_form (FormTy "Empty" []) init)) = (Ok [], s')).
Proof. split; [reflexivity|]. split; [eexists; reflexivity|]. eexists. vm_compute. reflexivity. Qed.
(** For unions it is not: a mapping all of whose sources are null counts as null in the union
    and not below its mount. *)
Theorem C61_union_null_refuted : exists E ents l p m b pb acts,
  source_path E ents (SMount l) = Ok p /\ alookup l m = Some b /\ bsource_path E ents b = Ok pb /\
  pick m (routed None acts) (run_acts (act_path E ents) acts p) <>
  run_acts (act_base (bp_is_null E ents) E ents) (pick m (routed None acts) acts) pb.
Proof.
  exists (w_env world2), (fun _ => []), [("a", BUnion (USource [SJson (jdict [("x", VNone)]) false None] MCombine MCombine None))].
  eexists _, "a"%string, _, _, [Down (KStr "a"); Down (KStr "x"); Names; Null].
  split; [vm_compute; reflexivity|]. split; [reflexivity|]. split; [vm_compute; reflexivity|]. vm_compute. discriminate.
Qed.
Print Assumptions C61_union_null_refuted.
(** Nor does a [List] map below a mount as it does alone: if its value is no sequence, the error
    that is to be reported (and [allow_field]) becomes an [AttributeError], whatever the error
    was: the path of a mount has no [src] (fields.py:1109). *)
Theorem C61_list_raises : forall W n f s eid m es pid p igd igm g lo hi a e q t,
  mapping W s eid m es pid p igd igm -> plain_steps f ->
  f_kind f = KList g lo hi a -> p_str (w_env W) (place f p) = Ok t ->
  no_sequence_at W s f p e q -> of_mount q ->
  exists msg, fails W (S n) f s (within f s pid q) (EAttr msg).
Proof. exact C31_mount. Qed.
Print Assumptions C61_list_raises.
Definition s_mounted : st :=
  snd (push world2 [("src", CSrc (SMount mounted)); ("errors", CErrs 0)] (St (stk init) [] [] [(Collect, [])])).
Definition list_x (a : bool) : field := MkField (opts "a" false (DUnset None) [] []) (KList (MkField no_opts (KInteger None None)) None None a).
Example C61_list_raises_case : let s := s_mounted in
  mapping world2 s 0 Collect [] 0 (at_root s) false false /\ plain_steps (list_x true) /\
  (exists q e, no_sequence_at world2 s (list_x true) (at_root s) e q /\ of_mount q) /\
  exists msg s', field_map world2 4 (list_x true) NONEv s = (Exn (EAttr msg), s').
Proof.
  cbv zeta. split.
  { split; try reflexivity; [|eexists; split; reflexivity|eexists; split; reflexivity].
    apply (reach_open world2 [("src", CSrc (SMount mounted)); ("errors", CErrs 0)] (St (stk init) [] [] [(Collect, [])]));
      [apply (reach_heap world2 [] [(Collect, [])] init), reach_init|reflexivity|reflexivity]. }
  split; [free|]. split; [eexists _, _; split; [eexists; split; [eexists; split; reflexivity|reflexivity]|exact I]|].
  eexists _, _. vm_compute. reflexivity.
Qed.

(** C62: a key that names no mount should be missing.  It is said to exist, reading a
    primitive there raises [KeyError], and so does mapping an optional field. *)
Theorem C62_missing_mount_refuted : exists W l k p,
  alookup l k = None /\ source_path (w_env W) (fun _ => []) (SMount l) = Ok p /\
  run_acts (act_path (w_env W) (fun _ => [])) [Down (KStr k); Here; Get TyInt] p = [RDone; RBool (Ok true); RVal (Exn EKey)] /\
  exists n t s s', nth_error (forms s) 0 = Some (t, []) /\
    ft_fields t = [with_default (VInt 0) (fld k (KInteger None None))] /\
    Form_map W n 0 (ASrc (SMount l)) [] false UIgnore Collect s = (Exn EKey, s').
Proof.
  exists world2, mounted, "c"%string. eexists. split; [reflexivity|]. split; [vm_compute; reflexivity|]. split; [vm_compute; reflexivity|].
  exists 3%nat, (FormTy "M" [with_default (VInt 0) (fld "c" (KInteger None None))]), (snd (new_form (FormTy "M" [with_default (VInt 0) (fld "c" (KInteger None None))]) init)). eexists.
  split; [reflexivity|]. split; [reflexivity|]. vm_compute. reflexivity.
Qed.
Print Assumptions C62_missing_mount_refuted.

(** C63: at a key of a section a ConfigSource has the options [key[sub]], if there are any, as a
    mapping (for each [sub] the last option of that name), else the option [key], else the
    default for [key], else nothing. *)
Theorem C63_precedence : forall E ents cfg sec opts d loc p s,
  sec <> ""%string -> alookup cfg sec = Some opts -> psource_path (SConfig cfg (Some sec) d loc) = Ok p ->
  exists q v, pp_value E ents (pp_append (KStr s) p) = (q, Ok v) /\ config_value opts d s v.
Proof. exact C63_lem. Qed.
Print Assumptions C63_precedence.
Definition opts_demo : list (string * string) := [("a[x]", "1"); ("a", "plain"); ("b", "2"); ("a[x]z", "3"); ("a[]", "4")]%string.
Definition cfg_demo : psource := SConfig [("main", opts_demo)]%string (Some "main"%string) (jdict [("b", VInt 7); ("c", VInt 8)]) None.
Example C63_case : forall ents,
  exists p, psource_path cfg_demo = Ok p /\
    map (fun k => snd (pp_value env0 ents (pp_append (KStr k) p))) ["a"; "B"; "c"; "d"]%string =
      [Ok (jdict [("x", VStr "3")]); Ok (VStr "2"); Ok (VInt 8); Ok (VConst NONE)] /\
    names_sub "a[x]z" "a" "x" /\ ~ (exists n k, names_sub "a[]" n k).
Proof.
  intros ents. eexists. split; [reflexivity|]. split; [vm_compute; reflexivity|]. split.
  - apply sub_option_iff. reflexivity.
  - intros (n & k & H). apply sub_option_iff in H. discriminate.
Qed.
