(** * Theorems C97: fields that read the context ([Field.from_context]). *)
From Verif Require Import PyBase PyStr Source Field Context Fields FromContext SpecCtx SpecField SpecMore SpecFrom FromProofs Demo.

(** C97: the value of the innermost block that gives the field's name is read as the field's
    type, translated, and then accepted, rejected at a path that is the name alone, or ignored in
    favour of the default.  A variable that is None is None.  Any reachable context, also without a source, both
    error modes. *)
Theorem C97_value : forall W n f s k eid m es igd igm,
  underway W s eid m es igd igm -> py3 (w_env W) = false -> o_src (f_opts f) = Some (KStr k) -> variable_name k -> hook_free f ->
  forall t c v w x, primitive_kind (f_kind f) = Some t -> lookup k (stk s) = Some c -> stands_for c v -> ignored v = false ->
  read_as (w_env W) t v w -> ignored w = false -> lookable f w -> translated f w x -> ignored x = false ->
  (py_in x (o_ignores (f_opts f)) = false -> field_violation (w_env W) (entries s) f x = Ok None ->
     from_yields W n f s eid m es x []) /\
  (forall y, py_in x (o_ignores (f_opts f)) = false -> field_violation (w_env W) (entries s) f x = Ok (Some y) ->
     from_yields W n f s eid m es ERRORv [invalid_at f (length (paths s)) y k]) /\
  (py_in x (o_ignores (f_opts f)) = true ->
     (igd = true \/ required f -> from_yields W n f s eid m es NOTSETv (if igm then [] else [missing_at f (length (paths s)) k])) /\
     (forall d, igd = false -> o_default (f_opts f) = DVal d -> d <> VConst NOTSET -> from_yields W n f s eid m es d [])).
Proof.
  intros W n f s k eid m es igd igm U P K V H t c v w x A B C. rewrite (stands c v C).
  exact (C97_value_lem W n f s k eid m es igd igm U P K V H t c w x A B).
Qed.
Print Assumptions C97_value.
(** A value that is not of the field's type is one error there. *)
Theorem C97_unreadable : forall W n f s k eid m es igd igm,
  underway W s eid m es igd igm -> py3 (w_env W) = false -> o_src (f_opts f) = Some (KStr k) -> variable_name k -> hook_free f ->
  forall t c v, primitive_kind (f_kind f) = Some t -> lookup k (stk s) = Some c -> stands_for c v -> ignored v = false -> v <> VNone ->
  forall e, (forall d, psource_parse (w_env W) (SDefault d [] [] None) t v = Exn e) -> caught_by_compute e = true ->
  from_yields W n f s eid m es ERRORv [invalid_at f (length (paths s)) (VioExn (spoken e)) k].
Proof.
  intros W n f s k eid m es igd igm U P K V H t c v A B C. rewrite (stands c v C).
  exact (fun D N e => C97_unreadable_lem W n f s k eid m es igd igm U P K V H t c A B D e N).
Qed.
Print Assumptions C97_unreadable.
(** A name no block gives is missing: one error, or the default.  Any kind of field. *)
Theorem C97_absent : forall W n f s k eid m es igd igm,
  underway W s eid m es igd igm -> py3 (w_env W) = false -> o_src (f_opts f) = Some (KStr k) -> variable_name k -> direct_read f ->
  lookup k (stk s) = None ->
  (igd = true \/ required f -> from_yields W n f s eid m es NOTSETv (if igm then [] else [missing_at f (length (paths s)) k])) /\
  (forall d, igd = false -> o_default (f_opts f) = DVal d -> d <> VConst NOTSET -> from_yields W n f s eid m es d []).
Proof. intros W n f s k eid m es igd igm U P K. exact (C97_absent_lem W n f s k eid m es igd igm U P K). Qed.
Print Assumptions C97_absent.
(** The names of the context's own attributes ([push], [stack], ...) are taken: the field reads
    the attribute whatever the blocks give, and no type but Any accepts it. *)
Theorem C97_taken : forall W n f s k eid m es igd igm,
  underway W s eid m es igd igm -> py3 (w_env W) = false -> o_src (f_opts f) = Some (KStr k) -> context_method k -> hook_free f ->
  (forall t e, primitive_kind (f_kind f) = Some t -> refused t (VObj k 0) e ->
     from_yields W n f s eid m es ERRORv [invalid_at f (length (paths s)) (VioExn (spoken e)) k]) /\
  (f_kind f = KAny -> forall x, lookable f (VObj k 0) -> translated f (VObj k 0) x -> ignored x = false ->
     py_in x (o_ignores (f_opts f)) = false -> field_violation (w_env W) (entries s) f x = Ok None -> from_yields W n f s eid m es x []).
Proof.
  intros W n f s k eid m es igd igm U P K V H.
  exact (conj (C97_taken_lem W n f s k eid m es igd igm U P K V H)
              (fun A x B C D => proj1 (C97_taken_any_lem W n f s k eid m es igd igm U P K V H A x B C D))).
Qed.
Print Assumptions C97_taken.
(** So is [src], which the field's own block gives: a String reads the word itself. *)
Theorem C97_src : forall W n f s eid m es igd igm,
  underway W s eid m es igd igm -> py3 (w_env W) = false -> o_src (f_opts f) = Some (KStr "src") -> hook_free f ->
  forall c x, f_kind f = KString c -> lookable f (VStr "src") -> translated f (VStr "src") x -> ignored x = false ->
  py_in x (o_ignores (f_opts f)) = false ->
  (field_violation (w_env W) (entries s) f x = Ok None -> from_yields W n f s eid m es x []) /\
  (forall y, field_violation (w_env W) (entries s) f x = Ok (Some y) ->
     from_yields W n f s eid m es ERRORv [invalid_at f (length (paths s)) y "src"]).
Proof.
  intros W n f s eid m es igd igm U P K H c x A B C D I.
  pose proof (C97_src_lem W n f s "src" eid m es igd igm U P K eq_refl H c x A B C D) as Q.
  exact (conj (proj1 Q I) (fun y => proj1 (proj2 Q) y I)).
Qed.
Print Assumptions C97_src.
(** A field that is given its value reads no context: it maps as any field. *)
Theorem C97_given : forall W n f v s, v <> NONEv -> from_context_map W n f v s = field_map W (S n) f v s.
Proof. exact C97_given_lem. Qed.
Print Assumptions C97_given.
(** Whatever the field, its hooks and the outcome, the context is as before. *)
Theorem C97_restores : forall W n f v s, reach W s -> same_context s (snd (from_context_map W n f v s)).
Proof. exact C97_restores_lem. Qed.
Print Assumptions C97_restores.
(** Python 3 has no [contextlib.nested]: such a field never maps. *)
Theorem C97_python3 : forall W n f s, py3 (w_env W) = true ->
  from_context_map W n f NONEv s = (Exn no_nested, s).
Proof. exact C97_python3_lem. Qed.
Print Assumptions C97_python3.

(** Two blocks give [tenant]; no source at all. *)
Definition in_tenant : st :=
  snd (push world2 [("tenant", CVal (VStr "12"))]
    (snd (push world2 [("tenant", CVal (VInt 7)); ("errors", CErrs 0)] (St (stk init) [] [] [(Collect, [])])))).
Definition tenant (k : kind) : field := fld "tenant" k.
Lemma tenant_name : variable_name "tenant".
Proof.
  split.
  - cbn. intros H. repeat (destruct H as [H|H]; [discriminate H|]). exact H.
  - intros x E. apply (call_strips x). now rewrite <- E.
  - unfold free_in_context, context_method. cbn. intuition discriminate.
  - cbn. intuition discriminate.
Qed.
Lemma in_tenant_underway : underway world2 in_tenant 0 Collect [] false false.
Proof.
  split; try reflexivity; [|eexists; split; reflexivity|eexists; split; reflexivity].
  apply (reach_open world2 [("tenant", CVal (VStr "12"))] (snd (push world2 [("tenant", CVal (VInt 7)); ("errors", CErrs 0)] (St (stk init) [] [] [(Collect, [])])))); [|reflexivity|reflexivity].
  apply (reach_open world2 [("tenant", CVal (VInt 7)); ("errors", CErrs 0)] (St (stk init) [] [] [(Collect, [])])); [|reflexivity|reflexivity].
  exact (reach_heap world2 [] [(Collect, [])] init (reach_init world2)).
Qed.
Example C97_value_case :
  let f := tenant (KInteger None (Some (VInt 20))) in
  hook_free f /\ lookup "tenant" (stk in_tenant) = Some (CVal (VStr "12")) /\ stands_for (CVal (VStr "12")) (VStr "12") /\ read_as (w_env world2) TyInt (VStr "12") (VInt 12) /\
  field_violation (w_env world2) (entries in_tenant) f (VInt 12) = Ok None /\
  fst (from_context_map world2 3 f NONEv in_tenant) = Ok (VInt 12) /\
  fst (from_context_map world2 3 (tenant (KInteger None (Some (VInt 9)))) NONEv in_tenant) = Ok ERRORv.
Proof.
  cbv zeta. split; [repeat split; cbn; eauto|]. split; [reflexivity|]. split; [constructor|]. split; [apply ra_value; [discriminate|reflexivity]|].
  split; [reflexivity|]. split; vm_compute; reflexivity.
Qed.
(** A block gives [push]; the field reads the method. *)
Definition in_push : st := snd (push world2 [("push", CVal (VInt 7))] in_tenant).
Lemma in_push_underway : underway world2 in_push 0 Collect [] false false.
Proof.
  split; try reflexivity; [|eexists; split; reflexivity|eexists; split; reflexivity].
  apply (reach_open world2 [("push", CVal (VInt 7))] in_tenant); [exact (uw_reach _ _ _ _ _ _ _ in_tenant_underway)|reflexivity|reflexivity].
Qed.
Example C97_taken_case :
  underway world2 in_push 0 Collect [] false false /\ context_method "push" /\ lookup "push" (stk in_push) = Some (CVal (VInt 7)) /\
  refused TyInt (VObj "push" 0) (ESource (NotInteger (VObj "push" 0))) /\
  fst (from_context_map world2 3 (fld "push" (KInteger None None)) NONEv in_push) = Ok ERRORv /\
  fst (from_context_map world2 3 (fld "push" KAny) NONEv in_push) = Ok (VObj "push" 0).
Proof.
  split; [exact in_push_underway|]. split; [cbn; auto|]. split; [reflexivity|]. split; [constructor|]. split; vm_compute; reflexivity.
Qed.
Example C97_src_case :
  let f := fld "src" (KString no_strc) in
  hook_free f /\ field_violation (w_env world2) (entries in_tenant) f (VStr "src") = Ok None /\
  fst (from_context_map world2 3 f NONEv in_tenant) = Ok (VStr "src").
Proof. cbv zeta. split; [repeat split; cbn; eauto|]. split; [reflexivity|vm_compute; reflexivity]. Qed.
Example C97_unreadable_case :
  (forall d, psource_parse (w_env world2) (SDefault d [] [] None) TyBool (VStr "12") = Exn (ESource (NotBoolean (VStr "12")))) /\
  fst (from_context_map world2 3 (tenant KBool) NONEv in_tenant) = Ok ERRORv.
Proof. split; [reflexivity|vm_compute; reflexivity]. Qed.
Example C97_absent_case :
  let f := fld "owner" (KString no_strc) in
  lookup "owner" (stk in_tenant) = None /\ direct_read f /\ required f /\
  (exists s', from_context_map world2 3 f NONEv in_tenant = (Ok NOTSETv, s') /\ errs s' = [(Collect, [missing_at f 0 "owner"])] /\ stk s' = stk in_tenant).
Proof.
  cbv zeta. split; [reflexivity|]. split; [repeat split; cbn; eauto|]. split; [now left|]. eexists. split; [vm_compute; reflexivity|]. split; reflexivity.
Qed.
(** A value given and a form that is the variable. *)
Example C97_given_case :
  fst (from_context_map world2 3 (tenant (KInteger None None)) (VInt 5) in_tenant) = Ok (VInt 5) /\
  stands_for (CForm 4) (VForm 4).
Proof. split; [vm_compute; reflexivity|constructor]. Qed.
Example C97_restores_case : reach world2 in_tenant /\ py3 (w_env world0) = true.
Proof. split; [exact (uw_reach _ _ _ _ _ _ _ in_tenant_underway)|reflexivity]. Qed.
