(** * Theorems C26, C31 (items without a value) and C69: what is reported, and where. *)
From Verif Require Import PyBase PyStr Source Field Context Fields SpecCtx SpecField SpecBox SpecLocal SpecDrop DropLemmas Demo PropsField PropsBox.
Open Scope Z_scope.

(** C26: a field without user functions that ends without a value has added at least one
    error to [ctx.errors], or [ignore_missing] is set, or its default is NONE (optional).
    Every kind of field, every source, every reachable state. *)
Theorem C26_no_silent_drop : forall W n f s eid m es pid p igd igm v s',
  mapping W s eid m es pid p igd igm -> plain_steps f -> fair_default f -> fair_translations f ->
  no_marker W s f p -> honest_env (w_env W) -> src_set s f -> no_fallback W s f p ->
  field_map W (S n) f NONEv s = (Ok v, s') -> ignored v = true ->
  (exists new, new <> [] /\ nth_error (errs s') eid = Some (m, es ++ new)) \/
  (v = NOTSETv /\ igm = true) \/ (v = NONEv /\ o_default (f_opts f) = DVal NONEv /\ igd = false).
Proof. exact C26_field. Qed.
Print Assumptions C26_no_silent_drop.
(** The same on JSON, native and configuration sources, for a field with a key: no
    condition on the source is left, unless the field is a bare [Field], a [Code] or a
    list with [allow_field]. *)
Theorem C26_no_silent_drop_plain : forall W n f s eid m es pid p igd igm v s',
  mapping W s eid m es pid p igd igm -> plain_steps f -> fair_default f -> fair_translations f ->
  converted (f_kind f) -> plain_path p -> honest_env (w_env W) -> own_key f <> None ->
  (forall k, own_key f = Some k -> k <> KRaw VNone) ->
  field_map W (S n) f NONEv s = (Ok v, s') -> ignored v = true ->
  (exists new, new <> [] /\ nth_error (errs s') eid = Some (m, es ++ new)) \/
  (v = NOTSETv /\ igm = true) \/ (v = NONEv /\ o_default (f_opts f) = DVal NONEv /\ igd = false).
Proof. exact C26_plain. Qed.
Print Assumptions C26_no_silent_drop_plain.
Lemma honest0 : honest_env env0.
Proof. repeat split; intros x v H; discriminate. Qed.
(** A sub-form with two faults, in the middle of a mapping. *)
Definition sub_field : field := fld "sub" (KSubForm Inner false UIgnore).
Definition s_sub : st := in_map (jdict [("sub", jdict [("x", VStr "r")])]) [] Collect.
Example C26_case :
  mapping world0 s_sub 0 Collect [] 0 (at_root s_sub) false false /\ plain_steps sub_field /\
  fair_default sub_field /\ fair_translations sub_field /\ converted (f_kind sub_field) /\
  plain_path (at_root s_sub) /\ honest_env (w_env world0) /\ own_key sub_field = Some (KStr "sub") /\
  fst (field_map world0 5 sub_field NONEv s_sub) = Ok ERRORv /\
  map (fun me => length (snd me)) (errs (snd (field_map world0 5 sub_field NONEv s_sub))) = [2; 2]%nat.
Proof.
  split; [in_map|]. split; [free|]. split; [exact I|]. split; [intros k v []|]. split; [exact I|].
  split; [eexists; reflexivity|]. split; [exact honest0|]. split; [reflexivity|]. split; vm_compute; reflexivity.
Qed.
Example C26_general_case :
  no_marker world0 s_sub sub_field (at_root s_sub) /\ src_set s_sub sub_field /\ no_fallback world0 s_sub sub_field (at_root s_sub).
Proof.
  split; [intros ty q q' v H; discriminate|]. split; [eexists; split; reflexivity|]. intros g lo hi H; discriminate.
Qed.

(** C26 with a validate hook, false: the hook says no, the value is gone and nothing is
    reported. *)
Theorem C26_validate_hook_refuted : exists W n f s v s',
  mapping W s 0 Collect [] 0 (at_root s) false false /\ o_default (f_opts f) = DUnset None /\
  field_map W n f NONEv s = (Ok v, s') /\ ignored v = true /\
  nth_error (errs s') 0 = Some (Collect, []).
Proof.
  exists world0, 3%nat,
    (MkField (MkOpts (Some "k") (Some (KStr "k")) false (DUnset None) [] [] [] false None None None None None
       (Some (MkHook true (fun _ _ => PRet (VBool false))))) (KInteger None None)), s_empty.
  eexists _, _. split; [in_map|]. split; [reflexivity|]. split; [vm_compute; reflexivity|]. split; reflexivity.
Qed.
Print Assumptions C26_validate_hook_refuted.

(** C31: the errors of a list are those of its items, in order of the index; each is
    located at or below its item, and an item that is left out has at least one, unless it
    is optional. *)
Theorem C31_items_accounted : forall W n f g lo hi s eid m es pid p igd igm len q vs s1,
  mapping W s eid m es pid p igd igm -> plain_path p -> plain_steps f -> f_kind f = KList g lo hi false ->
  local g -> plain_steps g -> fair_default g -> fair_translations g -> converted (f_kind g) ->
  honest_env (w_env W) -> own_key g <> Some (KRaw VNone) ->
  sequence_at W s f p len q -> items W (S n) (indexed len g) (within f s pid q) vs s1 ->
  exists news, nth_error (errs s1) eid = Some (m, es ++ concat news) /\
    accounted W g pid (place f p) igd igm (map (fun i => KInt (Z.of_nat i)) (seq 0 len)) vs news.
Proof. exact C31_items. Qed.
Print Assumptions C31_items_accounted.
Lemma local_int : local (anon (KInteger None None)).
Proof. constructor; try (intros ? H; discriminate); try (intros ? H ? H2; injection H as <-; discriminate). constructor. Qed.
Example C31_accounted_case : let g := anon (KInteger None None) in let s := s_list Collect in
  mapping world0 s 0 Collect [] 0 (at_root s) false false /\ plain_path (at_root s) /\ plain_steps (ints None None) /\
  local g /\ plain_steps g /\ fair_default g /\ fair_translations g /\ converted (f_kind g) /\ own_key g = None /\
  (exists q s1, sequence_at world0 s (ints None None) (at_root s) 3 q /\
     items world0 3 (indexed 3 g) (within (ints None None) s 0 q) demo_vs s1 /\
     map (fun e => match e with MkErr _ t _ l => (t, l) end) (snd (nth 0 (errs s1) (Collect, []))) = [("l[1]", Some 0%nat)]).
Proof.
  cbv zeta. split; [in_map|]. split; [eexists; reflexivity|]. split; [free|]. split; [exact local_int|]. split; [free|].
  split; [exact I|]. split; [intros k v []|]. split; [exact I|]. split; [reflexivity|].
  eexists _, _. split; [eexists; split; [eexists; split; reflexivity|reflexivity]|].
  split; [unfold demo_vs; steps|vm_compute; reflexivity].
Qed.

(** C69: whatever a field does (any kind but [PolymorphicSubForm], user functions that do
    not reset the context or read form attributes), every error it adds to [ctx.errors] is
    about the current path object, its text names a location at or below the place where
    the field was mapped, and no other error list changes. *)
Theorem C69_errors_below : forall W n f v s pid p,
  reach W s -> local f ->
  lookup "src_path" (stk s) = Some (CPath pid) -> nth_error (paths s) pid = Some p ->
  reports_below W pid p s (snd (field_map W n f v s)).
Proof. exact C69_field. Qed.
Print Assumptions C69_errors_below.
(** The errors of [form.map(src)] are about the path opened for [src]. *)
Theorem C69_form_errors_below : forall W n id t src tags rs u s es s',
  reach W s -> local_form t -> local_unm u -> (exists l, nth_error (forms s) id = Some (t, l)) ->
  Form_map W n id (ASrc src) tags rs u Collect s = (Ok es, s') ->
  exists h p, source_path (w_env W) h src = Ok p /\ Forall (located W (length (paths s)) p) es.
Proof. exact C69_form. Qed.
Print Assumptions C69_form_errors_below.
Ltac local_leaf := constructor; try (intros ? H; discriminate); try (intros ? H ? H2; injection H as <-; discriminate); try constructor.
Lemma local_inner : local_form Inner.
Proof. constructor. intros f [<-|[<-|[]]]; local_leaf. Qed.
Lemma local_outer : local_form Outer.
Proof.
  constructor. intros f [<-|[<-|[<-|[]]]]; local_leaf; [exact local_int|exact local_inner|constructor].
Qed.
Definition where_ (e : err) : string * option nat := match e with MkErr _ t _ l => (t, l) end.
Example C69_case :
  reach world0 s_sub /\ local sub_field /\ lookup "src_path" (stk s_sub) = Some (CPath 0) /\
  nth_error (paths s_sub) 0 = Some (at_root s_sub) /\
  map where_ (snd (nth 0 (errs (snd (field_map world0 5 sub_field NONEv s_sub))) (Collect, ([] : list err)))) =
    [("sub.x", Some 0%nat); ("sub.y", Some 0%nat)].
Proof.
  assert (M : mapping world0 s_sub 0 Collect [] 0 (at_root s_sub) false false) by in_map.
  split; [exact (mp_reach _ _ _ _ _ _ _ _ _ M)|].
  split; [local_leaf; [exact local_inner|constructor]|]. repeat split; vm_compute; reflexivity.
Qed.
Example C69_form_case : let s := snd (new_form Outer init) in
  reach world0 s /\ local_form Outer /\ local_unm UIgnore /\ nth_error (forms s) 0 = Some (Outer, []) /\
  exists es s', Form_map world0 6 0 (ASrc (json outer_bad)) [] false UIgnore Collect s = (Ok es, s') /\
    map where_ es = [("a", Some 0%nat); ("l[1]", Some 0%nat); ("sub.x", Some 0%nat); ("sub.y", Some 0%nat)].
Proof.
  cbv zeta. split; [apply reach_form, reach_init|]. split; [exact local_outer|]. split; [constructor|]. split; [reflexivity|].
  eexists _, _. split; vm_compute; reflexivity.
Qed.
