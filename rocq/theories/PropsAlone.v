(** * PropsAlone: a field that is called outside every mapping (C101). *)
From Verif Require Import PyBase PyStr Source Field Context Fields SpecCtx SpecField SpecBuild SpecAlone Demo PropsField PropsBuild AloneProofs.
Open Scope Z_scope.

(** A value that the field takes is what comes out of [field(value)] in whatever state, outside or
    inside a mapping, and nothing else happens. *)
Theorem C101_value : forall W n f s, hook_free f -> forall v w, settles (w_env W) f v w ->
  field_map W (S n) f v s = (Ok w, s).
Proof. exact C101_value_lem. Qed.
Print Assumptions C101_value.
(** One that it does not take has nowhere to be reported to. *)
Theorem C101_invalid : forall W n f s, alone s -> hook_free f -> forall v w x,
  ignored v = false -> lookable f v -> translated f v w -> ignored w = false ->
  py_in w (o_ignores (f_opts f)) = false -> field_violation (w_env W) (entries s) f w = Ok (Some x) ->
  exists a, field_map W (S n) f v s = (Exn (EAttr a), s).
Proof. exact C101_invalid_lem. Qed.
Print Assumptions C101_invalid.
(** In a block that gives a list of errors but no source it is reported there, at no place. *)
Theorem C101_reported : forall W n f s eid m es, listening s eid m es -> hook_free f -> forall v w x,
  ignored v = false -> lookable f v -> translated f v w -> ignored w = false ->
  py_in w (o_ignores (f_opts f)) = false -> field_violation (w_env W) (entries s) f w = Ok (Some x) ->
  let all := es ++ [placeless (Invalid x) f] in
  field_map W (S n) f v s =
    (match m with Collect => Ok ERRORv | Raise => Exn (EForm all) end, St (stk s) (forms s) (paths s) (replace_nth eid (m, all) (errs s))).
Proof. exact C101_reported_lem. Qed.
Print Assumptions C101_reported.
(** One that it ignores is replaced by the default, if there is one. *)
Theorem C101_ignored : forall W n f s, alone s -> hook_free f -> forall v w,
  ignored v = false -> lookable f v -> translated f v w -> ignored w = false -> py_in w (o_ignores (f_opts f)) = true ->
  (forall d, o_default (f_opts f) = DVal d -> d <> VConst NOTSET -> field_map W (S n) f v s = (Ok d, s)) /\
  (required f -> exists a, field_map W (S n) f v s = (Exn (EAttr a), s)).
Proof. exact C101_ignored_lem. Qed.
Print Assumptions C101_ignored.
(** Without a value there is no source to read, whatever the field's default. *)
Theorem C101_nothing : forall W n f s, alone s -> direct_read f -> exists a, field_map W (S n) f NONEv s = (Exn (EAttr a), s).
Proof. exact C101_nothing_lem. Qed.
Print Assumptions C101_nothing.
(** The default is expected there, and it is not what comes out. *)
Theorem C101_default_refuted : exists W n f s, alone s /\ direct_read f /\ o_default (f_opts f) = DVal (VInt 4) /\
  fst (field_map W (S n) f NONEv s) <> Ok (VInt 4).
Proof.
  exists world0, 2%nat, (with_default (VInt 4) (fld "y" (KInteger None None))), init. split.
  { split; [reflexivity|discriminate|..]; eexists; split; reflexivity. }
  split; [free|]. split; [reflexivity|]. vm_compute. discriminate.
Qed.
Print Assumptions C101_default_refuted.

Definition age : field := fld "age" (KInteger (Some (VInt 0)) (Some (VInt 150))).
Definition drop_no (f : field) : field :=
  let o := f_opts f in MkField (MkOpts (o_name o) (o_src o) (o_nullable o) (o_default o) [VInt 7] (o_translations o) (o_tags o) (o_attach_parent o) (o_compute o) (o_resolve o) (o_parse o) (o_munge o) (o_filter o) (o_validate o)) (f_kind f).
Example C101_listening_case : exists x, listening (St [[("errors", CErrs 0)]; base_frame] [] [] [(Raise, [])]) 0 Raise [] /\
  field_violation env0 (fun _ => []) age (VInt 200) = Ok (Some x) /\ translated age (VInt 200) (VInt 200).
Proof. eexists. split; [split; reflexivity|]. split; [vm_compute; reflexivity|apply tr_miss; reflexivity]. Qed.
Example C101_case : alone init /\ hook_free age /\ settles env0 age (VInt 30) (VInt 30) /\
  field_violation env0 (entries init) age (VInt 200) <> Ok None /\ hook_free (drop_no age) /\ required age /\
  py_in (VInt 7) (o_ignores (f_opts (drop_no age))) = true /\
  map (fun x => field_map world0 3 (fst x) (snd x) init) [(age, VInt 30); (with_default (VInt 1) (drop_no age), VInt 7)] = [(Ok (VInt 30), init); (Ok (VInt 1), init)].
Proof.
  split; [split; [reflexivity|discriminate|..]; eexists; split; reflexivity|]. split; [free|]. split.
  { split; [reflexivity|]. split; [left; reflexivity|]. split; [apply tr_miss; reflexivity|]. split; [reflexivity|]. split; [reflexivity|].
    eapply fits_number; [reflexivity|constructor| |]; intros z Q; injection Q as <-; eexists; (split; [constructor|]); unfold QArith_base.Qle; cbn; discriminate. }
  split; [vm_compute; discriminate|]. split; [free|]. split; [now left|]. split; vm_compute; reflexivity.
Qed.
