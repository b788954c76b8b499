(** * Theorems C98: replacing the classes of the errors. *)
From Verif Require Import PyBase PyStr Source Field Context Fields Reports SpecCtx SpecReport ReportProofs Demo.

(** C98: with a class in force as [Missing] (or [Invalid]), that class makes the error, of the
    current field and the violation.  A collecting list keeps it.  A raising list keeps it too, and
    raises one [FormError] of the field errors reported so far; if there is none, it raises the
    first thing reported.  If the class itself raises, nothing is reported. *)
Theorem C98_replaced : forall W calls kd s f x l,
  in_force "field" (CField f) (stk s) -> in_force (match kd with Missing => "Missing" | Invalid _ => "Invalid" end) x (stk s) ->
  let made := calls x s f (match kd with Missing => None | Invalid v => Some v end) in
  (forall i, made = Ok i ->
     errors_report W calls Collect l kd s = (Ok Quiet, l ++ [i], s) /\
     exists o, errors_report W calls Raise l kd s = (Ok o, l ++ [i], s) /\ raises (l ++ [i]) o) /\
  (forall e m, made = Exn e -> errors_report W calls m l kd s = (Exn e, l, s)).
Proof. exact C98_replaced_lem. Qed.
Print Assumptions C98_replaced.
(** With none in force, the report is that of the mapping, [Context.report]: the other theorems
    apply. *)
Theorem C98_stock : forall W calls kd s f eid m es,
  in_force "field" (CField f) (stk s) -> (forall x, ~ in_force (match kd with Missing => "Missing" | Invalid _ => "Invalid" end) x (stk s)) ->
  in_force "errors" (CErrs eid) (stk s) -> nth_error (errs s) eid = Some (m, es) ->
  (exists e s1, errors_report W calls m (map Stock es) kd s =
       (Ok (match m with Collect => Quiet | Raise => RaisedForm (map Stock (es ++ [e])) end), map Stock (es ++ [e]), s1) /\
     (exists text live, e = MkErr kd text (f_name f) live) /\
     report W kd s = (match m with Collect => Ok tt | Raise => Exn (EForm (es ++ [e])) end,
                      St (stk s1) (forms s1) (paths s1) (replace_nth eid (m, es ++ [e]) (errs s1)))) \/
  (exists x s1, errors_report W calls m (map Stock es) kd s = (Exn x, map Stock es, s1) /\ report W kd s = (Exn x, s1)).
Proof. exact C98_stock_lem. Qed.
Print Assumptions C98_stock.
(** Any sequence of calls of one list, the exceptions caught: the list has everything in order,
    and each call raises according to all that was reported up to it. *)
Theorem C98_calls : forall m l news os l', call_all m l news = (os, l') ->
  l' = l ++ concat news /\ length os = length news /\
  forall k o, nth_error os k = Some o ->
    match m with Collect => o = Quiet | Raise => raises (l ++ concat (firstn (S k) news)) o end.
Proof. exact C98_calls_lem. Qed.
Print Assumptions C98_calls.
(** What a raising list raises is determined by what was reported. *)
Theorem C98_determined : forall all o o', raises all o -> raises all o' -> o = o'.
Proof. exact raises_det. Qed.
Print Assumptions C98_determined.
(** Once there is a field error on a raising list, it raises a [FormError] of the field errors,
    whatever is reported; other exceptions are not in it. *)
Theorem C98_form_error : forall l new o l', call_list Raise l new = (o, l') -> (exists i, In i (l ++ new) /\ field_error i) ->
  exists fs, o = RaisedForm fs /\ forall i, In i fs <-> In i (l ++ new) /\ field_error i.
Proof. exact C98_masked_lem. Qed.
Print Assumptions C98_form_error.
(** So the exception raised need not be, or contain, the one just reported. *)
Theorem C98_just_reported_refuted : exists l i, is_field_error i = false /\
  (exists j, j <> i /\ fst (call_list Raise l [i]) = RaisedItem j) /\
  (exists l2 fs, fst (call_list Raise l2 [i]) = RaisedForm fs /\ ~ In i fs).
Proof.
  exists [Other (EValue "first")], (Other (EValue "second")). split; [reflexivity|]. split.
  - eexists. split; [|reflexivity]. discriminate.
  - exists [Stock (MkErr Missing "a" None None)], [Stock (MkErr Missing "a" None None)]. split; [reflexivity|]. cbn. intuition discriminate.
Qed.
Print Assumptions C98_just_reported_refuted.
(** A block puts its classes in force, inside it; mapping any field, with any hooks, leaves those
    in force as they were. *)
Theorem C98_block : forall W kw s s', push W kw s = (Ok tt, s') -> forall k x, k <> "src_path" ->
  (gives k x kw -> in_force k x (stk s')) /\
  ((forall y, ~ gives k y kw) -> in_force k x (stk s) -> in_force k x (stk s')).
Proof. exact C98_block_lem. Qed.
Print Assumptions C98_block.
Theorem C98_mapping_keeps : forall W n f v s k x, reach W s ->
  in_force k x (stk s) <-> in_force k x (stk (snd (field_map W n f v s))).
Proof. exact C98_mapping_keeps_lem. Qed.
Print Assumptions C98_mapping_keeps.

(** An application's class of missing errors, given by the outer of two blocks, and a class of
    invalid ones that is no [FieldError]. *)
Definition app_classes : maker := fun c _ f o =>
  match c, o with
  | CVal (VConst _), _ => Exn (EType "not callable")
  | _, None => Ok (Derived "Absent" (MkErr Missing "?" (f_name f) None))
  | _, Some v => Ok (Other (EValue "bad"))
  end.
Definition in_app : st := St
  [[("Invalid", CVal (VInt 1)); ("errors", CErrs 0)]; [("Missing", CVal (VInt 2)); ("Invalid", CVal (VConst NOTSET))]; [("field", CField (fld "age" KAny))]; base_frame]%string
  [] [] [(Raise, [])].
Example C98_replaced_case :
  in_force "field" (CField (fld "age" KAny)) (stk in_app) /\ in_force "Missing" (CVal (VInt 2)) (stk in_app) /\ in_force "Invalid" (CVal (VInt 1)) (stk in_app) /\
  (forall x, ~ in_force "Missing" x [base_frame]) /\
  fst (errors_report world0 app_classes Raise [] (Invalid VioNotNullable) in_app) = (Ok (RaisedItem (Other (EValue "bad"))), [Other (EValue "bad")]) /\
  fst (errors_report world0 app_classes Raise [Other (EValue "bad")] Missing in_app) =
    (Ok (RaisedForm [Derived "Absent" (MkErr Missing "?" (Some "age") None)]),
     [Other (EValue "bad"); Derived "Absent" (MkErr Missing "?" (Some "age") None)]).
Proof.
  rewrite !in_force_lookup. split; [reflexivity|]. split; [reflexivity|]. split; [reflexivity|].
  split; [intros x; rewrite in_force_lookup; discriminate|]. split; reflexivity.
Qed.
Example C98_calls_case :
  call_all Raise [] [[Other (EValue "a")]; [Other (EValue "b")]; [Derived "Absent" (MkErr Missing "?" None None)]; [Other (EValue "c")]] =
  ([RaisedItem (Other (EValue "a")); RaisedItem (Other (EValue "a")); RaisedForm [Derived "Absent" (MkErr Missing "?" None None)];
    RaisedForm [Derived "Absent" (MkErr Missing "?" None None)]],
   [Other (EValue "a"); Other (EValue "b"); Derived "Absent" (MkErr Missing "?" None None); Other (EValue "c")]).
Proof. reflexivity. Qed.
Example C98_block_case :
  exists s', push world0 [("Missing", CVal (VInt 3))] init = (Ok tt, s') /\ gives "Missing" (CVal (VInt 3)) [("Missing", CVal (VInt 3))] /\
  reach world0 s' /\ in_force "Missing" (CVal (VInt 3)) (stk s').
Proof.
  eexists. split; [reflexivity|]. split; [constructor|]. split; [|now apply in_force_lookup].
  apply (reach_open world0 [("Missing", CVal (VInt 3))] init); [apply reach_init|reflexivity|reflexivity].
Qed.
(** No class given: the report of the mapping. *)
Definition in_plain : st := St [[("errors", CErrs 0)]; [("field", CField (fld "age" KAny))]; base_frame]%string [] [] [(Raise, [])].
Example C98_stock_case :
  in_force "field" (CField (fld "age" KAny)) (stk in_plain) /\ (forall x, ~ in_force "Missing" x (stk in_plain)) /\ in_force "errors" (CErrs 0) (stk in_plain) /\
  fst (errors_report world0 app_classes Raise [] Missing in_plain) =
    (Ok (RaisedForm [Stock (MkErr Missing "None" (Some "age") None)]), [Stock (MkErr Missing "None" (Some "age") None)]) /\
  fst (report world0 Missing in_plain) = Exn (EForm [MkErr Missing "None" (Some "age") None]).
Proof.
  split; [now apply in_force_lookup|]. split; [intros x; rewrite in_force_lookup; discriminate|]. split; [now apply in_force_lookup|]. split; reflexivity.
Qed.
Example C98_form_error_case :
  fst (call_list Raise [Stock (MkErr Missing "a" None None); Object VNone] [Other (EValue "b")]) = RaisedForm [Stock (MkErr Missing "a" None None)] /\
  field_error (Stock (MkErr Missing "a" None None)) /\ fst (call_list Raise [] [Object VNone]) = RaisedType.
Proof. split; [reflexivity|]. split; [left; eauto|reflexivity]. Qed.
