(** * Theorems C16-C25, C27, C28: mapping one field.

    Unless said otherwise: every source (JSON, native, config, union, mount), every
    reachable state of the context, collect and raise mode. *)
From Verif Require Import PyBase PyStr Source Field Context Fields SpecCtx SpecField SpecPipe FieldProofs FieldVios FieldLemmas Demo.
From Coq Require Import QArith.
Open Scope Z_scope.

(** A mapping in progress over a JSON document, for the examples. *)
Definition in_map (d : val) (vars : frame) (m : mode) : st :=
  snd (push world0 (("src", CSrc (json d)) :: ("errors", CErrs 0) :: vars) (St (stk init) [] [] [(m, [])])).
Definition at_root (s : st) : path := match paths s with p :: _ => p | [] => PBase (BP (Source.PPath (SJson VNone false None) VNone [])) end.
Lemma in_map_mapping d vars m igd igm :
  alookup vars "src_path" = None ->
  (exists c, lookup "ignore_default" (stk (in_map d vars m)) = Some c /\ truthy_c c = igd) ->
  (exists c, lookup "ignore_missing" (stk (in_map d vars m)) = Some c /\ truthy_c c = igm) ->
  mapping world0 (in_map d vars m) 0 m [] 0 (at_root (in_map d vars m)) igd igm.
Proof.
  intros B G1 G2. split; try reflexivity; try assumption.
  apply (reach_open world0 (("src", CSrc (json d)) :: ("errors", CErrs 0) :: vars) (St (stk init) [] [] [(m, [])])).
  - apply (reach_heap world0 [] [(m, [])] init), reach_init.
  - exact B.
  - reflexivity.
Qed.
Ltac in_map := apply in_map_mapping; [reflexivity|eexists; split; reflexivity|eexists; split; reflexivity].
Ltac free := repeat split; cbn; eauto.
Definition opts (n : string) (nullable : bool) (d : dflt prog) (ignores : list val) (tr : list (val * val)) : fopts prog :=
  MkOpts (Some n) (Some (KStr n)) nullable d ignores tr [] false None None None None None None.
Definition int_field : field := fld "n" (KInteger None None).
Definition s_empty : st := in_map (jdict [("k", VInt 1)]) [] Collect.

(** C16: [field.map] is the list of stages of [SpecPipe], inside a block that names the
    field: resolve, compute, translate, munge hook, ignores, filter hook, validate,
    validate hook; the first stage that decides ends the list. *)
Theorem C16_field_map_is_pipeline : forall W n f v s,
  field_map W (S n) f v s =
  (w <- with_ctx W [("field", CField f); ("parent", CField f)] (pipeline W (field_map W n) f v);
   (if o_attach_parent (f_opts f) && negb (ignored w) then set_parent w else ret tt);; ret w) s.
Proof. exact C16_pipeline_lem. Qed.
Print Assumptions C16_field_map_is_pipeline.
(** Once computing gave nothing or a marker, munge, filter and validate hooks do not
    matter. *)
Theorem C16_compute_decides : forall W rec f mu fi va s w s1,
  (match o_compute (f_opts f) with Some h => call_hook W rec h [] | None => field_compute W rec f end) s = (Ok w, s1) ->
  ignored w = true ->
  field_body W rec f NONEv s = field_body W rec (with_late mu fi va f) NONEv s.
Proof. exact C16_compute_decides_lem. Qed.
Print Assumptions C16_compute_decides.
(** What the filter and validate hooks answer: a no sends the field to its default, or makes it an
    error; anything else lets the value pass. *)
Theorem C16_answers : forall W rec f h v s r s1, call_hook W rec h [v] s = (Ok r, s1) ->
  (o_filter (f_opts f) = Some h -> (no_answer r -> st_filter_hook W rec f v s = (Ok UseDefault, s1)) /\
                                  (~ no_answer r -> st_filter_hook W rec f v s = (Ok (Next v), s1))) /\
  (o_validate (f_opts f) = Some h -> (no_answer r -> st_validate_hook W rec f v s = (Ok (Done ERRORv), s1)) /\
                                    (~ no_answer r -> st_validate_hook W rec f v s = (Ok (Next v), s1))).
Proof. exact C16_answers_lem. Qed.
Print Assumptions C16_answers.
(** Hooks seen in order: the munge hook doubles, the filter hook rejects 4, the validate
    hook rejects 6, the default hook answers. *)
Definition hooked : field :=
  let arg args k := match args with [VInt z] => k z | _ => PRet VNone end in
  MkField (MkOpts (Some "n") (Some (KStr "n")) true
     (DUnset (Some (MkHook true (fun _ _ => PRet (VStr "default"))))) [VInt 20] [(VInt 5, VInt 6)] [] false
     None None None
     (Some (MkHook true (fun _ args => arg args (fun z => PRet (VInt (z * 2))))))
     (Some (MkHook true (fun _ args => arg args (fun z => PRet (VBool (negb (z =? 4)))))))
     (Some (MkHook true (fun _ args => arg args (fun z => PRet (VBool (negb (z =? 6)))))))) (KInteger None None).
Example C16_pipeline_case :
  map (fun z => fst (field_map world0 3 hooked (VInt z) s_empty)) [1; 2; 3; 5; 10]
  = [Ok (VInt 2); Ok (VStr "default"); Ok ERRORv; Ok (VInt 12); Ok (VStr "default")].
Proof. vm_compute. reflexivity. Qed.
Example C16_answers_case :
  let keep := MkHook true (fun _ args => PRet (match args with [VInt 4] => VList [] | _ => VStr "yes" end)) in
  let f := MkField (MkOpts (Some "n") (Some (KStr "n")) true (DUnset None) [] [] [] false None None None None (Some keep) (Some keep)) KAny in
  fst (call_hook world0 (field_map world0 3) keep [VInt 4] s_empty) = Ok (VList []) /\ no_answer (VList []) /\
  fst (call_hook world0 (field_map world0 3) keep [VInt 5] s_empty) = Ok (VStr "yes") /\ ~ no_answer (VStr "yes") /\
  fst (st_validate_hook world0 (field_map world0 3) f (VInt 4) s_empty) = Ok (Done ERRORv).
Proof.
  cbv zeta. split; [vm_compute; reflexivity|]. split; [constructor|]. split; [vm_compute; reflexivity|].
  split; [intros N; inversion N|vm_compute; reflexivity].
Qed.
Example C16_decides_case :
  exists s1, field_compute world0 (field_map world0 3) hooked (snd (push world0 [("src", CKey (KStr "n"))] s_empty)) = (Ok NONEv, s1)
             /\ ignored NONEv = true.
Proof. eexists. split; vm_compute; reflexivity. Qed.
Example C16_decides_case_error :
  exists s1, field_compute world0 (field_map world0 3) hooked
    (snd (push world0 [("src", CKey (KStr "n")); ("field", CField hooked)] (in_map (jdict [("n", VStr "q")]) [] Collect))) = (Ok ERRORv, s1).
Proof. eexists. vm_compute; reflexivity. Qed.

(** C17: an absent required field: exactly one [Missing], located at the field's place. *)
Theorem C17_missing_required : forall W n f s eid m es pid p igd t,
  mapping W s eid m es pid p igd false -> direct_read f -> required f ->
  absent W s f p -> p_str (w_env W) (place f p) = Ok t ->
  yields W (S n) f NONEv s eid m es NOTSETv [missing_at f pid t].
Proof. exact C17_missing_lem. Qed.
Print Assumptions C17_missing_required.
Example C17_missing_case : forall k, let f := fld "n" k in (match k with KGroup _ => False | _ => True end) ->
  mapping world0 s_empty 0 Collect [] 0 (at_root s_empty) false false /\ direct_read f /\ required f /\
  absent world0 s_empty f (at_root s_empty) /\ p_str env0 (place f (at_root s_empty)) = Ok "n".
Proof.
  intros k f G. split; [in_map|]. split; [free|]. split; [now left|].
  unfold absent, f, place, own_key. destruct k; try destruct G; (split; [eexists; reflexivity|reflexivity]).
Qed.
(** ... and the loop of the form stores nothing and goes on. *)
Theorem C17_nothing_stored : forall W n f s eid es pid p igd t id tags rest,
  mapping W s eid Collect es pid p igd false -> direct_read f -> required f ->
  absent W s f p -> p_str (w_env W) (place f p) = Ok t -> selected tags f = true ->
  exists s1, stk s1 = stk s /\ forms s1 = forms s /\
    errs s1 = replace_nth eid (Collect, es ++ [missing_at f pid t]) (errs s) /\
    map_fields (field_map W (S n)) id tags (f :: rest) s = map_fields (field_map W (S n)) id tags rest s1.
Proof. exact C17_stored_lem. Qed.
Print Assumptions C17_nothing_stored.
Example C17_nothing_stored_case : selected [] int_field = true /\ selected ["t"] (with_tags ["t"] int_field) = true.
Proof. split; reflexivity. Qed.

(** C18: a static default is the result as it is: whatever the translations, ignores,
    constraints and hooks of the field. *)
Theorem C18_default_verbatim : forall W n f s eid m es pid p igm t v,
  mapping W s eid m es pid p false igm -> direct_read f ->
  o_default (f_opts f) = DVal v -> v <> VConst NOTSET ->
  absent W s f p -> p_str (w_env W) (place f p) = Ok t ->
  yields W (S n) f NONEv s eid m es v [].
Proof. exact C18_default_lem. Qed.
Print Assumptions C18_default_verbatim.
Example C18_default_case :
  let f := MkField (opts "n" false (DVal (VStr "bad")) [VStr "bad"] [(VStr "bad", VInt 1)]) (KInteger (Some (VInt 5)) None) in
  mapping world0 s_empty 0 Collect [] 0 (at_root s_empty) false false /\ direct_read f /\
  absent world0 s_empty f (at_root s_empty) /\
  fst (field_map world0 3 f NONEv s_empty) = Ok (VStr "bad").
Proof. cbv zeta. split; [in_map|]. split; [free|]. split; [eexists; reflexivity|vm_compute; reflexivity]. Qed.
(** The same when the value was there but is ignored. *)
Theorem C18_default_for_ignored : forall W n f arg s eid m es pid p igm t v w d,
  mapping W s eid m es pid p false igm -> hook_free f ->
  obtains W s f p arg v -> ignored v = false -> lookable f v -> translated f v w -> ignored w = false ->
  py_in w (o_ignores (f_opts f)) = true -> o_default (f_opts f) = DVal d -> d <> VConst NOTSET ->
  p_str (w_env W) (spot f arg p) = Ok t ->
  yields W (S n) f arg s eid m es d [].
Proof. exact C18_ignored_lem. Qed.
Print Assumptions C18_default_for_ignored.

(** C19: [optional=True] sets the default to [NONE] (fields.py:377-384): nothing is
    reported and the form stores nothing. *)
Theorem C19_optional_vanishes : forall W n f s eid es pid p igm t id tags rest,
  mapping W s eid Collect es pid p false igm -> direct_read f ->
  o_default (f_opts f) = DVal (VConst NONE) ->
  absent W s f p -> p_str (w_env W) (place f p) = Ok t ->
  yields W (S n) f NONEv s eid Collect es NONEv [] /\
  exists s1, stk s1 = stk s /\ forms s1 = forms s /\ errs s1 = errs s /\
    map_fields (field_map W (S n)) id tags (f :: rest) s =
    map_fields (field_map W (S n)) id tags rest s1.
Proof. exact C19_lem. Qed.
Print Assumptions C19_optional_vanishes.
Example C19_case :
  let f := with_default NONEv int_field in
  direct_read f /\ absent world0 s_empty f (at_root s_empty) /\ fst (field_map world0 3 f NONEv s_empty) = Ok NONEv.
Proof. cbv zeta. split; [free|]. split; [eexists; reflexivity|vm_compute; reflexivity]. Qed.

(** C20: [ignore_default]: even with a static default the field is [Missing] ... *)
Theorem C20_ignore_default : forall W n f s eid m es pid p t,
  mapping W s eid m es pid p true false -> direct_read f ->
  absent W s f p -> p_str (w_env W) (place f p) = Ok t ->
  yields W (S n) f NONEv s eid m es NOTSETv [missing_at f pid t].
Proof. exact C20_igd_lem. Qed.
Print Assumptions C20_ignore_default.
(** ... unless [ignore_missing] is set too: nothing is reported; the result is a marker,
    which no form stores. *)
Theorem C20_ignore_both : forall W n f s eid m es pid p t,
  mapping W s eid m es pid p true true -> direct_read f ->
  absent W s f p -> p_str (w_env W) (place f p) = Ok t ->
  yields W (S n) f NONEv s eid m es NOTSETv [].
Proof. exact C20_both_lem. Qed.
Print Assumptions C20_ignore_both.
(** [ignore_missing] alone: required fields are skipped, defaults are used. *)
Theorem C20_ignore_missing : forall W n f s eid m es pid p t,
  mapping W s eid m es pid p false true -> direct_read f ->
  absent W s f p -> p_str (w_env W) (place f p) = Ok t ->
  (required f -> yields W (S n) f NONEv s eid m es NOTSETv []) /\
  (forall v, o_default (f_opts f) = DVal v -> v <> VConst NOTSET -> yields W (S n) f NONEv s eid m es v []).
Proof. exact C20_igm_lem. Qed.
Print Assumptions C20_ignore_missing.
(** A marker is not stored, in any mode. *)
Theorem C20_marker_not_stored : forall W n f s eid es v new id tags rest, selected tags f = true ->
  yields W n f NONEv s eid Collect es v new -> ignored v = true ->
  exists s1, forms s1 = forms s /\ errs s1 = replace_nth eid (Collect, es ++ new) (errs s) /\
    map_fields (field_map W n) id tags (f :: rest) s = map_fields (field_map W n) id tags rest s1.
Proof. exact C20_store_lem. Qed.
Print Assumptions C20_marker_not_stored.
Definition flags (a b : bool) : frame := [("ignore_default", CVal (VBool a)); ("ignore_missing", CVal (VBool b))].
Example C20_case :
  let f := with_default (VInt 7) int_field in let st a b := in_map (jdict []) (flags a b) Collect in
  mapping world0 (st true false) 0 Collect [] 0 (at_root (st true false)) true false /\
  mapping world0 (st true true) 0 Collect [] 0 (at_root (st true true)) true true /\
  mapping world0 (st false true) 0 Collect [] 0 (at_root (st false true)) false true /\
  direct_read f /\ direct_read int_field /\ required int_field /\
  map (fun ab => fst (field_map world0 3 f NONEv (st (fst ab) (snd ab)))) [(false, false); (false, true); (true, false); (true, true)]
    = [Ok (VInt 7); Ok (VInt 7); Ok NOTSETv; Ok NOTSETv].
Proof.
  cbv zeta. split; [in_map|]. split; [in_map|]. split; [in_map|]. split; [free|]. split; [free|].
  split; [now left|vm_compute; reflexivity].
Qed.

(** C21: a present null. *)
Theorem C21_null : forall W n f s eid m es pid p igd igm t,
  mapping W s eid m es pid p igd igm -> hook_free f -> untouched f VNone ->
  (exists q1 q2, p_exists (w_env W) (entries s) (place f p) = (q1, Ok true) /\
                 p_is_null (w_env W) (entries s) q1 = (q2, Ok true)) ->
  p_str (w_env W) (place f p) = Ok t ->
  (o_nullable (f_opts f) = true -> yields W (S n) f NONEv s eid m es VNone []) /\
  (o_nullable (f_opts f) = false ->
   yields W (S n) f NONEv s eid m es ERRORv [invalid_at f pid VioNotNullable t]).
Proof. exact C21_lem. Qed.
Print Assumptions C21_null.
Definition s_null : st := in_map (jdict [("n", VNone)]) [] Raise.
Example C21_null_case : forall k nl, let f := MkField (opts "n" nl (DUnset None) [] []) k in
  (match k with KGroup _ => False | _ => True end) ->
  mapping world0 s_null 0 Raise [] 0 (at_root s_null) false false /\ hook_free f /\ untouched f VNone /\
  (exists q1 q2, p_exists env0 (entries s_null) (place f (at_root s_null)) = (q1, Ok true) /\
                 p_is_null env0 (entries s_null) q1 = (q2, Ok true)).
Proof.
  intros k nl f G. split; [in_map|]. split; [free|]. split; [repeat split; left; reflexivity|].
  unfold f, place, own_key. destruct k; try destruct G; (eexists; eexists; split; reflexivity).
Qed.
(** Neither the type's parser nor a parse hook runs on a null. *)
Theorem C21_parser_not_run : forall W rec f s pid q1 q2,
  lookup "src_path" (stk s) = Some (CPath pid) ->
  on_path W pid p_exists s = (Ok true, q1) -> on_path W pid p_is_null q1 = (Ok true, q2) ->
  field_compute W rec f s = (Ok VNone, q2).
Proof. exact C21_parser_lem. Qed.
Print Assumptions C21_parser_not_run.
Example C21_parser_case :
  exists a b, on_path world0 0 p_exists (snd (push world0 [("src", CKey (KStr "n"))] s_null)) = (Ok true, a) /\
              on_path world0 0 p_is_null a = (Ok true, b).
Proof. eexists; eexists; split; reflexivity. Qed.

(** C22: a value among the ignored ones, after translation, counts as absent. *)
Theorem C22_ignored_is_absent : forall W n f arg s eid m es pid p igd igm t v w,
  mapping W s eid m es pid p igd igm -> hook_free f ->
  obtains W s f p arg v -> ignored v = false -> lookable f v -> translated f v w -> ignored w = false ->
  py_in w (o_ignores (f_opts f)) = true -> p_str (w_env W) (spot f arg p) = Ok t ->
  (igd = true \/ required f ->
   yields W (S n) f arg s eid m es NOTSETv (if igm then [] else [missing_at f pid t])) /\
  (forall d, igd = false -> o_default (f_opts f) = DVal d -> d <> VConst NOTSET ->
   yields W (S n) f arg s eid m es d []).
Proof. exact C22_lem. Qed.
Print Assumptions C22_ignored_is_absent.
Example C22_case :
  let f := MkField (opts "n" true (DUnset None) [VInt 0] [(VInt 9, VInt 0)]) (KInteger None None) in
  let s := in_map (jdict [("n", VInt 9)]) [] Collect in
  hook_free f /\ obtains world0 s f (at_root s) NONEv (VInt 9) /\ translated f (VInt 9) (VInt 0) /\
  py_in (VInt 0) (o_ignores (f_opts f)) = true /\
  fst (field_map world0 3 f NONEv s) = Ok NOTSETv.
Proof.
  cbv zeta. split; [free|]. split; [eapply ob_read; reflexivity|]. split; [now apply tr_hit|]. split; vm_compute; reflexivity.
Qed.

(** C23: a value in the table and its translation have the same run, for a field with
    any hooks, ignores and constraints. *)
Theorem C23_translation_first : forall W n f v w s,
  dict_get (o_translations (f_opts f)) v = Some w -> dict_get (o_translations (f_opts f)) w = None ->
  ~ unhashable v -> ~ unhashable w -> is_NONE v = false -> is_NONE w = false ->
  field_map W (S n) f v s = field_map W (S n) f w s.
Proof. exact C23_given_lem. Qed.
Print Assumptions C23_translation_first.
Example C23_case : dict_get (o_translations (f_opts hooked)) (VInt 5) = Some (VInt 6) /\
  dict_get (o_translations (f_opts hooked)) (VInt 6) = None /\ fst (field_map world0 3 hooked (VInt 6) s_empty) = Ok (VInt 12).
Proof. repeat split; vm_compute; reflexivity. Qed.
(** With a table, a value that cannot be looked up is a [TypeError]. *)
Theorem C23_unhashable : forall W n f arg s eid m es pid p igd igm t v,
  mapping W s eid m es pid p igd igm -> hook_free f -> obtains W s f p arg v -> ignored v = false ->
  o_translations (f_opts f) <> [] -> unhashable v -> p_str (w_env W) (spot f arg p) = Ok t ->
  exists msg s', field_map W (S n) f arg s = (Exn (EType msg), s') /\ stk s' = stk s /\ forms s' = forms s /\ errs s' = errs s.
Proof. exact C23_unhashable_lem. Qed.
Print Assumptions C23_unhashable.
Example C23_unhashable_case :
  let f := MkField (opts "n" true (DUnset None) [] [(VInt 9, VInt 0)]) KAny in
  let v := VTuple [VInt 1; VTuple [VList []; VInt 2]] in
  let s := in_map (jdict []) [] Collect in
  hook_free f /\ obtains world0 s f (at_root s) v v /\ unhashable v /\ (exists m, fst (field_map world0 3 f v s) = Exn (EType m)) /\
  fst (field_map world0 3 f (VTuple [VInt 1; VTuple []]) s) = Ok (VTuple [VInt 1; VTuple []]).
Proof.
  cbv zeta. split; [free|]. split; [now apply ob_given|]. split.
  { apply uh_tuple with (x := VTuple [VList []; VInt 2]); [right; now left|]. apply uh_tuple with (x := VList []); [now left|constructor]. }
  split; [eexists|]; vm_compute; reflexivity.
Qed.
(** A value read or given is checked after translation; one not in the table is itself. *)
Theorem C23_checked_translated : forall W n f arg s eid m es pid p igd igm t v w o,
  mapping W s eid m es pid p igd igm -> hook_free f ->
  obtains W s f p arg v -> ignored v = false -> lookable f v -> translated f v w -> ignored w = false ->
  py_in w (o_ignores (f_opts f)) = false -> p_str (w_env W) (spot f arg p) = Ok t ->
  field_violation (w_env W) (entries s) f w = Ok o ->
  match o with
  | None => yields W (S n) f arg s eid m es w []
  | Some x => yields W (S n) f arg s eid m es ERRORv [invalid_at f pid x t]
  end.
Proof. exact C23_checked_lem. Qed.
Print Assumptions C23_checked_translated.
(** A String's choices admit every value of the table. *)
Theorem C23_choices_admit_translations : forall W n f c arg s eid m es pid p igd igm t v k x,
  mapping W s eid m es pid p igd igm -> hook_free f -> f_kind f = KString c ->
  obtains W s f p arg v -> ignored v = false -> lookable f v -> translated f v (VStr x) ->
  In (k, VStr x) (o_translations (f_opts f)) ->
  py_in (VStr x) (o_ignores (f_opts f)) = false -> p_str (w_env W) (spot f arg p) = Ok t ->
  alphabet_ok c x -> min_ok c x -> max_ok c x -> pattern_ok (w_env W) c x ->
  yields W (S n) f arg s eid m es (VStr x) [].
Proof. exact C23_choices_lem. Qed.
Print Assumptions C23_choices_admit_translations.
Example C23_choices_case :
  let c := MkStrc None None None [] [VStr "red"] in
  let f := MkField (opts "n" true (DUnset None) [] [(VStr "r", VStr "rouge")]) (KString c) in
  let s := in_map (jdict [("n", VStr "r")]) [] Collect in
  hook_free f /\ obtains world0 s f (at_root s) NONEv (VStr "r") /\ translated f (VStr "r") (VStr "rouge") /\
  fst (field_map world0 3 f NONEv s) = Ok (VStr "rouge").
Proof.
  cbv zeta. split; [free|]. split; [eapply ob_read; reflexivity|]. split; [now apply tr_hit|vm_compute; reflexivity].
Qed.

(** C24: bounds.  [number v q] says that the exact value of [v] is the rational [q]. *)
Theorem C24_within_bounds : forall W n f lo hi arg s eid m es pid p igd igm t v w q,
  mapping W s eid m es pid p igd igm -> hook_free f -> bounds (f_kind f) = Some (lo, hi) ->
  obtains W s f p arg v -> ignored v = false -> lookable f v -> translated f v w -> number w q ->
  py_in w (o_ignores (f_opts f)) = false -> p_str (w_env W) (spot f arg p) = Ok t ->
  (forall b, lo = Some b -> exists r, number b r /\ (r <= q)%Q) ->
  (forall b, hi = Some b -> exists r, number b r /\ (q <= r)%Q) ->
  yields W (S n) f arg s eid m es w [].
Proof. exact C24_within_lem. Qed.
Print Assumptions C24_within_bounds.
Theorem C24_below_min : forall W n f hi arg s eid m es pid p igd igm t v w q b r,
  mapping W s eid m es pid p igd igm -> hook_free f -> bounds (f_kind f) = Some (Some b, hi) ->
  obtains W s f p arg v -> ignored v = false -> lookable f v -> translated f v w -> number w q ->
  py_in w (o_ignores (f_opts f)) = false -> p_str (w_env W) (spot f arg p) = Ok t ->
  number b r -> (q < r)%Q ->
  yields W (S n) f arg s eid m es ERRORv [invalid_at f pid (VioMin w b) t].
Proof. exact C24_below_lem. Qed.
Print Assumptions C24_below_min.
Theorem C24_above_max : forall W n f lo arg s eid m es pid p igd igm t v w q b r,
  mapping W s eid m es pid p igd igm -> hook_free f -> bounds (f_kind f) = Some (lo, Some b) ->
  obtains W s f p arg v -> ignored v = false -> lookable f v -> translated f v w -> number w q ->
  py_in w (o_ignores (f_opts f)) = false -> p_str (w_env W) (spot f arg p) = Ok t ->
  (forall c, lo = Some c -> exists x, number c x /\ (x <= q)%Q) ->
  number b r -> (r < q)%Q ->
  yields W (S n) f arg s eid m es ERRORv [invalid_at f pid (VioMax w b) t].
Proof. exact C24_above_lem. Qed.
Print Assumptions C24_above_max.
(** An integer field with bounds 1.5 (float) and 4 (Decimal) over JSON integers. *)
Definition half3 : val := VFloat (SpecFloat.S754_finite false 3 (-1)).
Definition bounded : field := fld "n" (KInteger (Some half3) (Some (VDec (DFin 40 (-1))))).
Example C24_case :
  number half3 ((1 * 3) * Qpower 2 (-1)) /\ number (VDec (DFin 40 (-1))) (40 * Qpower 10 (-1)) /\
  hook_free bounded /\ bounds (f_kind bounded) = Some (Some half3, Some (VDec (DFin 40 (-1)))) /\
  (forall z, obtains world0 (in_map (jdict [("n", VInt z)]) [] Collect) bounded (at_root (in_map (jdict [("n", VInt z)]) [] Collect)) NONEv (VInt z)) /\
  map (fun z => fst (field_map world0 3 bounded NONEv (in_map (jdict [("n", VInt z)]) [] Collect))) [1; 2; 4; 5]
    = [Ok ERRORv; Ok (VInt 2); Ok (VInt 4); Ok ERRORv].
Proof.
  split; [apply n_float|]. split; [apply (n_dec 40 (-1))|]. split; [free|]. split; [reflexivity|].
  split; [intros z; eapply ob_read; reflexivity|vm_compute; reflexivity].
Qed.

(** C25: strings. *)
Theorem C25_accepted : forall W n f c arg s eid m es pid p igd igm t v x,
  mapping W s eid m es pid p igd igm -> hook_free f -> f_kind f = KString c ->
  obtains W s f p arg v -> ignored v = false -> lookable f v -> translated f v (VStr x) ->
  py_in (VStr x) (o_ignores (f_opts f)) = false -> p_str (w_env W) (spot f arg p) = Ok t ->
  string_ok (w_env W) f c x ->
  yields W (S n) f arg s eid m es (VStr x) [].
Proof. exact C25_ok_lem. Qed.
Print Assumptions C25_accepted.
Theorem C25_rejected : forall W n f c arg s eid m es pid p igd igm t v x,
  mapping W s eid m es pid p igd igm -> hook_free f -> f_kind f = KString c ->
  obtains W s f p arg v -> ignored v = false -> lookable f v -> translated f v (VStr x) ->
  py_in (VStr x) (o_ignores (f_opts f)) = false -> p_str (w_env W) (spot f arg p) = Ok t ->
  ~ string_ok (w_env W) f c x ->
  exists viol, first_violated (w_env W) f c x viol /\
    yields W (S n) f arg s eid m es ERRORv [invalid_at f pid viol t].
Proof. exact C25_bad_lem. Qed.
Print Assumptions C25_rejected.
(** The first violated constraint is one constraint (the characters of a bad alphabet
    may be listed in any order). *)
Theorem C25_first_is_unique : forall E f c x v w,
  first_violated E f c x v -> first_violated E f c x w ->
  v = w \/ exists a b, v = VioChars a /\ w = VioChars b /\ forall ch, In ch a <-> In ch b.
Proof. exact first_violated_unique. Qed.
Print Assumptions C25_first_is_unique.
(** A value that is not a text (a translation can be any value): the constraints on texts raise
    a [TypeError]; without them the choices, and the translations, decide. *)
Theorem C25_not_a_text : forall W n f c arg s eid m es pid p igd igm t v w,
  mapping W s eid m es pid p igd igm -> hook_free f -> f_kind f = KString c ->
  obtains W s f p arg v -> ignored v = false -> lookable f v -> translated f v w -> textless w ->
  py_in w (o_ignores (f_opts f)) = false -> p_str (w_env W) (spot f arg p) = Ok t ->
  (wants_text c -> exists msg s', field_map W (S n) f arg s = (Exn (EType msg), s') /\ stk s' = stk s /\ forms s' = forms s /\ errs s' = errs s) /\
  (~ wants_text c -> among f c w -> yields W (S n) f arg s eid m es w []) /\
  (~ wants_text c -> ~ among f c w -> yields W (S n) f arg s eid m es ERRORv [invalid_at f pid (VioChoice w (sc_choices c)) t]).
Proof. exact C25_textless_lem. Qed.
Print Assumptions C25_not_a_text.
Example C25_not_a_text_case :
  let f c := MkField (opts "n" true (DUnset None) [] [(VStr "one", VInt 1)]) (KString c) in
  let s := in_map (jdict [("n", VStr "one")]) [] Collect in
  let c1 := MkStrc (Some 2) None None [] [] in let c2 := MkStrc None None None [] [VStr "two"] in
  hook_free (f c1) /\ obtains world0 s (f c1) (at_root s) NONEv (VStr "one") /\ translated (f c1) (VStr "one") (VInt 1) /\ textless (VInt 1) /\
  wants_text c1 /\ ~ wants_text c2 /\ among (f c2) c2 (VInt 1) /\ ~ among (f c2) c2 (VInt 2) /\
  (exists m, fst (field_map world0 3 (f c1) NONEv s) = Exn (EType m)) /\ fst (field_map world0 3 (f c2) NONEv s) = Ok (VInt 1) /\
  fst (field_map world0 3 (f c2) (VInt 2) s) = Ok ERRORv.
Proof.
  cbv zeta. split; [free|]. split; [eapply ob_read; reflexivity|]. split; [now apply tr_hit|]. split; [constructor|].
  split; [right; left; discriminate|]. split; [unfold wants_text; cbn; intuition congruence|].
  split; [right; exists (VInt 1); split; [reflexivity|right; exists (VStr "one"); now left]|].
  split; [|split; [eexists|split]; vm_compute; reflexivity].
  intros [H|(w & Q & [[<-|[]]|(k & [[=]|[]])])]; [discriminate H|discriminate Q|subst; discriminate Q].
Qed.
Definition picky : strc := MkStrc (Some 2) (Some 4) (Some "ab") ["a"; "b"; "c"]%char [VStr "abc"; VStr "abab"; VStr "ab"].
Definition picky_field : field := fld "n" (KString picky).
Example C25_case :
  let go x := errs (snd (field_map world0 3 picky_field NONEv (in_map (jdict [("n", VStr x)]) [] Collect))) in
  let kinds x := match go x with [(_, l)] => map (fun e => match e with MkErr k _ _ _ => k end) l | _ => [] end in
  string_ok env0 picky_field picky "abc" /\
  map kinds ["abc"; "axz"; "a"; "ababa"; "cab"; "abb"]
  = [[]; [Invalid (VioChars ["x"; "z"]%char)]; [Invalid (VioMinLen (VStr "a") 2)]; [Invalid (VioMaxLen (VStr "ababa") 4)];
     [Invalid (VioPattern (VStr "cab") "ab")]; [Invalid (VioChoice (VStr "abb") [VStr "abc"; VStr "abab"; VStr "ab"])]].
Proof.
  cbv zeta. split; [|vm_compute; reflexivity]. repeat split.
  - right. cbn. intuition (subst; auto).
  - intros n0 [= <-]. cbn. discriminate.
  - intros n0 [= <-]. cbn. discriminate.
  - intros p0 [= <-]. eexists. reflexivity.
  - right. exists (VStr "abc"). split; [reflexivity|]. left. now left.
Qed.

(** C27: a Date given a string that no format accepts reports nothing and is [None]. *)
Theorem C27_unparsable_date_is_none : forall W n f fmts lo hi s eid m es pid p igd igm t x,
  mapping W s eid m es pid p igd igm -> hook_free f -> f_kind f = KDate fmts lo hi -> fmts <> [] ->
  reads_text W s f p x -> p_str (w_env W) (place f p) = Ok t ->
  (forall fmt, In fmt fmts -> stamp (w_env W) fmt x = None) -> untouched f VNone ->
  (o_nullable (f_opts f) = true -> yields W (S n) f NONEv s eid m es VNone []) /\
  (o_nullable (f_opts f) = false -> yields W (S n) f NONEv s eid m es ERRORv [invalid_at f pid VioNotNullable t]).
Proof. exact C27_none_lem. Qed.
Print Assumptions C27_unparsable_date_is_none.
(** The first format that accepts the text gives the date. *)
Theorem C27_first_matching_format : forall W n f pre fmt post s eid m es pid p igd igm t x z,
  mapping W s eid m es pid p igd igm -> hook_free f -> f_kind f = KDate (pre ++ fmt :: post) None None ->
  reads_text W s f p x -> p_str (w_env W) (place f p) = Ok t ->
  (forall g, In g pre -> stamp (w_env W) g x = None) -> stamp (w_env W) fmt x = Some z ->
  untouched f (VDate (z / 86400000000)) ->
  yields W (S n) f NONEv s eid m es (VDate (z / 86400000000)) [].
Proof. exact C27_first_lem. Qed.
Print Assumptions C27_first_matching_format.
Definition s_text (x : string) : st := in_map (jdict [("n", VStr x)]) [] Collect.
Definition date_field : field := fld "n" (KDate ["%Y-%m-%d"; "iso8601"] None None).
Example C27_case :
  hook_free date_field /\ reads_text world0 (s_text "soon") date_field (at_root (s_text "soon")) "soon" /\
  (forall fmt, In fmt ["%Y-%m-%d"; "iso8601"] -> stamp env0 fmt "soon" = None) /\ untouched date_field VNone.
Proof.
  split; [free|]. split; [do 5 eexists; repeat split; reflexivity|]. split; [|repeat split; left; reflexivity].
  intros fmt [<-|[<-|[]]]; reflexivity.
Qed.
(** The claim itself is false. *)
Theorem C27_unparsable_date_reported_refuted : exists W n f fmts s pid p t x v s',
  mapping W s 0 Collect [] pid p false false /\ hook_free f /\ f_kind f = KDate fmts None None /\ fmts <> [] /\
  reads_text W s f p x /\ p_str (w_env W) (place f p) = Ok t /\
  (forall fmt, In fmt fmts -> stamp (w_env W) fmt x = None) /\
  field_map W (S n) f NONEv s = (Ok v, s') /\ ignored v = false /\ errs s' = errs s.
Proof.
  exists world0, 2%nat, date_field, ["%Y-%m-%d"; "iso8601"], (s_text "soon"), 0%nat, (at_root (s_text "soon")), "n", "soon", VNone.
  eexists. split; [in_map|]. split; [free|]. split; [reflexivity|]. split; [discriminate|].
  split; [do 5 eexists; repeat split; reflexivity|]. split; [reflexivity|].
  split; [intros fmt [<-|[<-|[]]]; reflexivity|]. split; [vm_compute; reflexivity|]. split; reflexivity.
Qed.
Print Assumptions C27_unparsable_date_reported_refuted.

(** C28: a Decimal given a string that is not a number always lets
    [decimal.InvalidOperation] escape; nothing is reported. *)
Theorem C28_unparsable_decimal_escapes : forall W n f lo hi s eid m es pid p igd igm x,
  mapping W s eid m es pid p igd igm -> hook_free f -> f_kind f = KDecimal lo hi ->
  reads_text W s f p x -> e_dec (w_env W) x = None ->
  exists s', field_map W (S n) f NONEv s = (Exn EDecimal, s') /\
             stk s' = stk s /\ forms s' = forms s /\ errs s' = errs s.
Proof. exact C28_escapes_lem. Qed.
Print Assumptions C28_unparsable_decimal_escapes.
Theorem C28_parsable_decimal : forall W n f s eid m es pid p igd igm t x d,
  mapping W s eid m es pid p igd igm -> hook_free f -> f_kind f = KDecimal None None ->
  reads_text W s f p x -> e_dec (w_env W) x = Some d -> p_str (w_env W) (place f p) = Ok t ->
  untouched f (VDec d) -> yields W (S n) f NONEv s eid m es (VDec d) [].
Proof. exact C28_parsable_lem. Qed.
Print Assumptions C28_parsable_decimal.
Definition dec_field : field := fld "n" (KDecimal None None).
Example C28_case : hook_free dec_field /\ reads_text world0 (s_text "ten") dec_field (at_root (s_text "ten")) "ten" /\
  e_dec env0 "ten" = None /\ mapping world0 (s_text "ten") 0 Collect [] 0 (at_root (s_text "ten")) false false.
Proof. split; [free|]. split; [do 5 eexists; repeat split; reflexivity|]. split; [reflexivity|in_map]. Qed.
Theorem C28_unparsable_decimal_reported_refuted : exists W n f s pid p x,
  mapping W s 0 Collect [] pid p false false /\ hook_free f /\ f_kind f = KDecimal None None /\
  reads_text W s f p x /\ e_dec (w_env W) x = None /\
  fst (field_map W (S n) f NONEv s) = Exn EDecimal /\ errs (snd (field_map W (S n) f NONEv s)) = errs s.
Proof.
  exists world0, 2%nat, dec_field, (s_text "ten"), 0%nat, (at_root (s_text "ten")), "ten".
  split; [in_map|]. split; [free|]. split; [reflexivity|]. split; [do 5 eexists; repeat split; reflexivity|].
  split; [reflexivity|]. split; vm_compute; reflexivity.
Qed.
Print Assumptions C28_unparsable_decimal_reported_refuted.
