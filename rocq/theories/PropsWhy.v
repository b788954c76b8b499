(** * PropsWhy: what the code does, for all inputs, where the expected claim is false. *)
From Verif Require Import PyBase PyStr Source Field Context Fields Forms Meta SpecCtx SpecField SpecBox SpecUnion SpecMount SpecWhy Demo PropsField PropsForm PropsBox PropsUnion PropsMount PropsMeta Why Why36 Why50 Why62 Why68.
Open Scope Z_scope.

(** C36: an entry [String('a')] of a group reads below its own key once more.  When nothing
    is there it is reported missing at "a.a" and left out, whatever the value at "a" is ... *)
Theorem C36_own_key_below : forall W n f g s eid es pid p igd k ks1 ks2 q q2 t0 t,
  mapping W s eid Collect es pid p igd false -> plain_steps f -> f_kind f = KGroup [(GName k, g)] ->
  p_str (w_env W) (place f p) = Ok t0 -> mapping_at W s f p (ks1 ++ VStr k :: ks2) q ->
  Forall (fun x => py_eq (VStr k) x = false) (ks1 ++ ks2) ->
  direct_read g -> required g -> own_key g = Some (KStr k) ->
  p_exists (w_env W) (entries s) (p_append (KStr k) (p_append (KStr k) q)) = (q2, Ok false) ->
  p_str (w_env W) (p_append (KStr k) (p_append (KStr k) q)) = Ok t -> untouched f (VList []) ->
  exists s', field_map W (S (S n)) f NONEv s = (Ok (VList []), s') /\
    stk s' = stk s /\ forms s' = forms s /\ errs s' = replace_nth eid (Collect, es ++ [missing_at g pid t]) (errs s).
Proof. exact C36_absent_lem. Qed.
Print Assumptions C36_own_key_below.
(** ... and when something is there the group holds that value. *)
Theorem C36_own_key_found : forall W n f g s eid es pid p igd igm k ks1 ks2 q q1 q2 q3 ty w t0 t,
  mapping W s eid Collect es pid p igd igm -> plain_steps f -> f_kind f = KGroup [(GName k, g)] ->
  p_str (w_env W) (place f p) = Ok t0 -> mapping_at W s f p (ks1 ++ VStr k :: ks2) q ->
  Forall (fun x => py_eq (VStr k) x = false) (ks1 ++ ks2) ->
  hook_free g -> own_key g = Some (KStr k) -> primitive_kind (f_kind g) = Some ty ->
  let qq := p_append (KStr k) (p_append (KStr k) q) in
  p_exists (w_env W) (entries s) qq = (q1, Ok true) -> p_is_null (w_env W) (entries s) q1 = (q2, Ok false) ->
  p_primitive (w_env W) (entries s) ty q2 = (q3, Ok w) -> ignored w = false -> untouched g w ->
  field_violation (w_env W) (entries s) g w = Ok None ->
  p_str (w_env W) qq = Ok t -> untouched f (VList [VTuple [VStr k; VNone; w]]) ->
  exists s', field_map W (S (S n)) f NONEv s = (Ok (VList [VTuple [VStr k; VNone; w]]), s') /\
    stk s' = stk s /\ forms s' = forms s /\ errs s' = errs s.
Proof. exact C36_below_lem. Qed.
Print Assumptions C36_own_key_found.
Definition bare : field := fld "a" (KInteger None None).
Definition g_bare : field := g_field [(GName "a", bare)].
Definition s_bare : st := in_map (jdict [("x", VInt 0); ("a", VInt 1)]) [] Collect.
Definition s_nested : st := in_map (jdict [("x", VInt 0); ("a", jdict [("a", VInt 7)])]) [] Collect.
Definition keys_read (s : st) : path := fst (p_mapping env0 (entries s) (fst (p_is_null env0 (entries s) (fst (p_exists env0 (entries s) (at_root s)))))).
Example C36_own_key_case : let s := s_bare in
  mapping world0 s 0 Collect [] 0 (at_root s) false false /\ plain_steps g_bare /\ f_kind g_bare = KGroup [(GName "a", bare)] /\
  mapping_at world0 s g_bare (at_root s) ([VStr "x"] ++ VStr "a" :: []) (keys_read s) /\
  direct_read bare /\ required bare /\ own_key bare = Some (KStr "a") /\
  snd (p_exists env0 (entries s) (p_append (KStr "a") (p_append (KStr "a") (keys_read s)))) = Ok false /\
  p_str env0 (p_append (KStr "a") (p_append (KStr "a") (keys_read s))) = Ok "a.a".
Proof.
  cbv zeta. split; [in_map|]. split; [free|]. split; [reflexivity|]. split; [eexists; split; [eexists; split; reflexivity|reflexivity]|]. split; [free|]. split; [now left|].
  split; [reflexivity|]. split; vm_compute; reflexivity.
Qed.
Example C36_own_key_found_case : let s := s_nested in
  mapping world0 s 0 Collect [] 0 (at_root s) false false /\
  mapping_at world0 s g_bare (at_root s) ([VStr "x"] ++ VStr "a" :: []) (keys_read s) /\
  snd (p_primitive env0 (entries s) TyInt (p_append (KStr "a") (p_append (KStr "a") (keys_read s)))) = Ok (VInt 7) /\
  fst (field_map world0 4 g_bare NONEv s) = Ok (VList [VTuple [VStr "a"; VNone; VInt 7]]).
Proof.
  cbv zeta. split; [in_map|]. split; [eexists; split; [eexists; split; reflexivity|reflexivity]|]. split; vm_compute; reflexivity.
Qed.

(** C50: outside a mapping, for a name without an entry.  A required field raises. *)
Theorem C50_required_raises : forall W n id a t l f s p0 q txt,
  reach W s -> outside_mapping s -> nth_error (forms s) id = Some (t, l) -> dict_get l (VStr a) = None ->
  find_field a t = Some f -> find_field "src" t = None ->
  source_path (w_env W) (entries s) empty_src = Ok p0 ->
  p_exists (w_env W) (entries s) (place f p0) = (q, Ok false) -> p_str (w_env W) (place f p0) = Ok txt ->
  direct_read f -> required f ->
  exists s', has_name W (field_map W (S n)) id a s = (Exn (EForm [missing_at f (length (paths s)) txt]), s') /\
    stk s' = stk s /\ forms s' = forms s.
Proof. exact C50_required_lem. Qed.
Print Assumptions C50_required_raises.
(** One with a default stores it and then raises, unless the default is [None] or a method; one that is
    optional is the only one that answers [False] and leaves the form alone. *)
Theorem C50_default_stored : forall W n id a t l f s p0 q txt,
  reach W s -> outside_mapping s -> nth_error (forms s) id = Some (t, l) -> dict_get l (VStr a) = None ->
  find_field a t = Some f -> find_field "src" t = None ->
  source_path (w_env W) (entries s) empty_src = Ok p0 ->
  p_exists (w_env W) (entries s) (place f p0) = (q, Ok false) -> p_str (w_env W) (place f p0) = Ok txt ->
  direct_read f -> forall v, o_default (f_opts f) = DVal v -> v <> VConst NOTSET ->
  exists s', has_name W (field_map W (S n)) id a s =
      (match v with VNone | VConst _ => Ok false | VObj c _ => if String.prefix "method " c then Ok true else Exn (EAttr "__get__") | _ => Exn (EAttr "__get__") end, s') /\
    stk s' = stk s /\
    forms s' = match v with VConst _ => forms s | _ => replace_nth id (t, dict_set l (VStr a) v) (forms s) end.
Proof. exact C50_default_lem. Qed.
Print Assumptions C50_default_stored.
Definition Answers : formty := FormTy "Answers" [fld "x" (KInteger None None); with_default (VInt 4) (fld "y" (KInteger None None)); with_default VNone (fld "z" KAny)].
Definition s_answers : st := snd (new_form Answers init).
Example C50_outside_case : reach world0 s_answers /\ outside_mapping s_answers /\ nth_error (forms s_answers) 0 = Some (Answers, []) /\
  Forall (fun f => find_field (fname f) Answers = Some f /\ direct_read f /\
    exists p0, source_path env0 (entries s_answers) empty_src = Ok p0 /\
      snd (p_exists env0 (entries s_answers) (place f p0)) = Ok false /\ p_str env0 (place f p0) = Ok (fname f)) (ft_fields Answers).
Proof.
  split; [apply (reach_form world0 Answers init); constructor|]. split.
  { split; [reflexivity|exists (CVal (VBool false)); split; reflexivity..]. }
  split; [reflexivity|]. cbn [ft_fields Answers].
  repeat (apply Forall_cons; [split; [reflexivity|split; [free|eexists; split; [reflexivity|split; vm_compute; reflexivity]]]|]). apply Forall_nil.
Qed.

(** Asked with the field instead of its name, [has] answers whether an entry is [None]... *)
Theorem C50_field_present : forall W n id f s v, dict_get (entries s id) (VStr (fname f)) = Some v ->
  exists b, has_field W (field_map W n) id f s = (Ok b, s) /\ (b = true <-> v <> VNone).
Proof. exact C50_field_present_lem. Qed.
Print Assumptions C50_field_present.
(** ...and without an entry it reads the field: one that is required raises... *)
Theorem C50_field_required : forall W n id a t l f s p0 q txt,
  reach W s -> outside_mapping s -> nth_error (forms s) id = Some (t, l) -> dict_get l (VStr a) = None ->
  find_field a t = Some f -> find_field "src" t = None ->
  source_path (w_env W) (entries s) empty_src = Ok p0 ->
  p_exists (w_env W) (entries s) (place f p0) = (q, Ok false) -> p_str (w_env W) (place f p0) = Ok txt ->
  direct_read f -> required f ->
  exists s', has_field W (field_map W (S n)) id f s = (Exn (EForm [missing_at f (length (paths s)) txt]), s') /\
    stk s' = stk s /\ forms s' = forms s.
Proof. exact C50_field_required_lem. Qed.
Print Assumptions C50_field_required.
(** ...one with a default stores it and answers; one that is optional raises
    [AttributeError], although with its name [has] answers [False]. *)
Theorem C50_field_default : forall W n id a t l f s p0 q txt,
  reach W s -> outside_mapping s -> nth_error (forms s) id = Some (t, l) -> dict_get l (VStr a) = None ->
  find_field a t = Some f -> find_field "src" t = None ->
  source_path (w_env W) (entries s) empty_src = Ok p0 ->
  p_exists (w_env W) (entries s) (place f p0) = (q, Ok false) -> p_str (w_env W) (place f p0) = Ok txt ->
  direct_read f -> forall v, o_default (f_opts f) = DVal v -> v <> VConst NOTSET ->
  exists s', has_field W (field_map W (S n)) id f s =
      (match v with VNone => Ok false | VConst _ => Exn (EAttr "form cannot map field") | _ => Ok true end, s') /\
    stk s' = stk s /\
    forms s' = match v with VConst _ => forms s | _ => replace_nth id (t, dict_set l (VStr a) v) (forms s) end.
Proof. exact C50_field_default_lem. Qed.
Print Assumptions C50_field_default.
Example C50_field_case :
  map (fun f => let '(r, s) := has_field world0 (field_map world0 3) 0 f s_answers in (match r with Ok b => Some b | Exn _ => None end, map snd (forms s))) (ft_fields Answers) =
  [(None, [[]]); (Some true, [[(VStr "y", VInt 4)]]); (Some false, [[(VStr "z", VNone)]])].
Proof. vm_compute. reflexivity. Qed.

(** ...and one whose compute hook raises is absent if that is a [LookupError], and raises
    anything else. *)
Theorem C50_field_raising : forall W n id a t l f s p0,
  reach W s -> outside_mapping s -> nth_error (forms s) id = Some (t, l) -> dict_get l (VStr a) = None ->
  find_field a t = Some f -> find_field "src" t = None ->
  source_path (w_env W) (entries s) empty_src = Ok p0 ->
  forall h e, o_resolve (f_opts f) = None -> o_attach_parent (f_opts f) = false ->
  o_compute (f_opts f) = Some h -> hk_attached h = true -> hk_fun h VNone [] = PRaise e ->
  exists s', has_field W (field_map W (S n)) id f s = (match e with EKey | EIndex => Ok false | _ => Exn e end, s') /\
    stk s' = stk s /\ forms s' = forms s.
Proof. exact C50_field_raising_lem. Qed.
Print Assumptions C50_field_raising.
Definition computed_by (n : string) (p : prog) : field :=
  MkField (MkOpts (Some n) (Some (KStr n)) false (DUnset None) [] [] [] false (Some (MkHook true (fun _ _ => p))) None None None None None) KAny.
Definition Faults : formty := FormTy "Faults" [computed_by "x" (PRaise EKey); computed_by "y" (PRaise EIndex); computed_by "z" (PRaise (EValue ""))].
Definition s_faults : st := snd (new_form Faults init).
Example C50_raising_case : reach world0 s_faults /\ outside_mapping s_faults /\ nth_error (forms s_faults) 0 = Some (Faults, []) /\
  Forall (fun f => find_field (fname f) Faults = Some f) (ft_fields Faults) /\ find_field "src" Faults = None /\
  (exists p0, source_path env0 (entries s_faults) empty_src = Ok p0) /\
  map (fun f => fst (has_field world0 (field_map world0 3) 0 f s_faults)) (ft_fields Faults) = [Ok false; Ok false; Exn (EValue "")].
Proof.
  split; [apply reach_heap with (s := init); apply reach_init|]. split; [split; [reflexivity|eexists; split; reflexivity|eexists; split; reflexivity]|].
  split; [reflexivity|]. split; [repeat constructor|]. split; [reflexivity|]. split; [eexists; vm_compute; reflexivity|vm_compute; reflexivity].
Qed.

(** C56: a table that was used when some subclass was known stays as it was, whatever is
    defined later. *)
Theorem C56_frozen_partial : forall s s' f x t, types_cached s f None = Some (x :: t) ->
  types_cached s' f (types_cached s f None) = Some (x :: t).
Proof. intros s s' f x t H. rewrite H. reflexivity. Qed.
Print Assumptions C56_frozen_partial.
Example C56_frozen_case : exists s f x t, types_cached s f None = Some (x :: t).
Proof.
  exists (define_class [0]%nat [0]%nat [("type", MField 1)]
    (snd (new_field None (Some ["a"]) (define_class [] [] [("type", MField 0)] (snd (new_field None None (MkS [] [] 0))))))), 0%nat.
  do 2 eexists. vm_compute. reflexivity.
Qed.

(** C62: below a key that names no mount, always: there is something, not null, with no
    names in it, and reading it as a sequence or a primitive raises [KeyError], wherever the
    path was before. *)
Theorem C62_unmounted_key : forall E ents l p k t, at_mounts E ents l p -> alookup l k = None ->
  let q := p_append (KStr k) p in
  p_value E ents q = (q, Ok (VDict [])) /\ p_exists E ents q = (q, Ok true) /\ p_is_null E ents q = (q, Ok false) /\
  p_mapping E ents q = (q, Ok (Ok [])) /\ p_sequence E ents q = (q, Exn EKey) /\ p_primitive E ents t q = (q, Exn EKey).
Proof. exact C62_paths_lem. Qed.
Print Assumptions C62_unmounted_key.
(** So every field reading a primitive there ends the whole map with a [KeyError], required,
    optional or defaulted, in either error mode. *)
Theorem C62_field_raises : forall W n f s eid m es pid p igd igm l k t,
  mapping W s eid m es pid p igd igm -> at_mounts (w_env W) (entries s) l p -> alookup l k = None ->
  hook_free f -> own_key f = Some (KStr k) -> primitive_kind (f_kind f) = Some t ->
  exists s', field_map W (S n) f NONEv s = (Exn EKey, s') /\ stk s' = stk s /\ forms s' = forms s /\ errs s' = errs s.
Proof. exact C62_field_lem. Qed.
Print Assumptions C62_field_raises.
Example C62_always_case : exists p0, source_path (w_env world2) (fun _ => []) (SMount mounted) = Ok p0 /\
  at_mounts (w_env world2) (fun _ => []) mounted (after_acts (w_env world2) (fun _ => []) [SpecMount.Down (KStr "a"); Here; SpecMount.Up] p0) /\ alookup mounted "c" = None.
Proof.
  destruct (source_path (w_env world2) (fun _ => []) (SMount mounted)) as [p0|e] eqn:H; [|vm_compute in H; discriminate].
  exists p0. split; [reflexivity|]. split; [|reflexivity]. exists [SpecMount.Down (KStr "a"); Here; SpecMount.Up], p0. split; [exact H|]. split; [reflexivity|].
  change p0 with (match Ok p0 with Ok p => p | Exn _ => p0 end). rewrite <- H. vm_compute. reflexivity.
Qed.

(** C65: a field with [attach_parent] only ever maps a form, an object or nothing. *)
Theorem C65_only_objects_partial : forall W n f v s w s', o_attach_parent (f_opts f) = true ->
  field_map W n f v s = (Ok w, s') -> ignored w = true \/ (exists i, w = VForm i) \/ (exists c k, w = VObj c k).
Proof. exact C65_only_lem. Qed.
Print Assumptions C65_only_objects_partial.
Example C65_only_objects_case : let f := with_parent (fld "sub" (KSubForm Inner false UIgnore)) in
  o_attach_parent (f_opts f) = true /\
  fst (field_map world0 9 f NONEv (in_map outer_ok [] Collect)) = Ok (VForm 0).
Proof. cbv zeta. split; [reflexivity|]. vm_compute. reflexivity. Qed.

(** C68: an ignored location that is read first is missing however often it is read ... *)
Theorem C68_read_first_partial : forall E ents d al ig loc names ops, In names ig -> names <> [] ->
  Forall (fun o => o = OpExists \/ o = OpValue \/ o = OpIsNull) ops ->
  SpecSrc.drive E ents (map SpecSrc.Down (map KStr names) ++ map SpecSrc.Read ops) (SpecSrc.untouched (SDefault d al ig loc) d []) =
  map (fun _ => SpecSrc.ObsUnit (Ok tt)) names ++
  map (fun o => match o with OpValue => SpecSrc.ObsVal (Ok (VConst NONE)) | _ => SpecSrc.ObsBool (Ok false) end) ops.
Proof. exact C68_first_lem. Qed.
Print Assumptions C68_read_first_partial.
(** ... but it always exists once something below it that is not itself listed was read. *)
Theorem C68_read_below : forall E ents d al ig loc names k v, In names ig -> names <> [] -> SpecSrc.plain_key k ->
  is_ignored ig (map KStr names ++ [k]) = false ->
  SpecSrc.value_at E ents (SDefault d al [] loc) d (map KStr names ++ [k]) = Ok v -> is_NONE v = false ->
  SpecSrc.drive E ents (map SpecSrc.Down (map KStr names) ++ [SpecSrc.Down k; SpecSrc.Read OpExists; SpecSrc.Up; SpecSrc.Read OpExists])
    (SpecSrc.untouched (SDefault d al ig loc) d []) =
  map (fun _ => SpecSrc.ObsUnit (Ok tt)) names ++
  [SpecSrc.ObsUnit (Ok tt); SpecSrc.ObsBool (Ok true); SpecSrc.ObsUnit (Ok tt); SpecSrc.ObsBool (Ok true)].
Proof. exact C68_below_lem. Qed.
Print Assumptions C68_read_below.
Example C68_read_case : let d := jdict [("a", jdict [("b", jdict [("c", VInt 1)])])] in
  is_ignored [["a"; "b"]] (map KStr ["a"; "b"] ++ [KStr "c"]) = false /\
  SpecSrc.value_at env0 (fun _ => []) (SDefault d [] [] None) d (map KStr ["a"; "b"] ++ [KStr "c"]) = Ok (VInt 1).
Proof. cbv zeta. split; vm_compute; reflexivity. Qed.

(** C70: below any location of any union, after anything but reading a primitive, two keys
    appended before reading find nothing. *)
Theorem C70_two_keys_always : forall E ents u p os k1 k2, usource_path E ents u = Ok p -> Forall browses os -> named k1 -> named k2 ->
  snd (up_exists E ents (up_append k2 (up_append k1 (snd (do_ops E ents os p))))) = Ok false.
Proof. exact C70_two_lem. Qed.
Print Assumptions C70_two_keys_always.
Example C70_two_keys_case : let u := union_of [doc (jdict [("l", VList [jdict [("x", VInt 5)]])])] MCombine None in
  exists p, usource_path env0 (fun _ => []) u = Ok p /\
  fst (do_ops env0 (fun _ => []) [Enter (KStr "l"); Len; Enter (KInt 0)] p) = [OBool true; OLen 1; OBool true] /\
  Forall browses [Enter (KStr "l"); Len; Enter (KInt 0)].
Proof. cbv zeta. eexists. split; [vm_compute; reflexivity|]. split; [vm_compute; reflexivity|]. repeat constructor. Qed.
