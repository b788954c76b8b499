(** * Theorems C29, C40, C41: mapping documents, in collect and in raise mode. *)
From Verif Require Import PyBase PyStr Source Field Context Fields SpecSrc SpecForm SpecJson Eval CrashProofs ModeProofs Demo PropsEval.
Open Scope Z_scope.

(** C29: mapping any JSON object into a form without user code returns in collect mode, and
    in raise mode it returns or raises a [FormError] that has errors.  Forms are nested to
    any depth, so there is a depth of calls, given by the form, that is enough. *)
Theorem C29_json_never_crashes : forall W t, tame_form t ->
  exists N, forall fuel items strict loc id l tags rs u m s, (N <= fuel)%nat ->
    json_val (VDict items) = true -> nth_error (forms s) id = Some (t, l) -> ignoring u -> mapping_context s ->
    no_crash m (fst (Form_map W fuel id (ASrc (SBase (BPlain (SJson (VDict items) strict loc)))) tags rs u m s)).
Proof. exact C29_lem. Qed.
Print Assumptions C29_json_never_crashes.
Lemma tame_fld n k : tame_kind k -> tame (fld n k).
Proof. intros K. constructor; [|exact K]. split; cbn; auto; try discriminate. intros k0 [= <-]. exact I. Qed.
Lemma tame_anon k : tame_kind k -> tame (anon k).
Proof. intros K. constructor; [|exact K]. split; cbn; auto; discriminate. Qed.
Lemma tame_Outer : tame_form Outer.
Proof.
  constructor. intros f [<-|[<-|[<-|[]]]]; apply tame_fld; constructor; try discriminate.
  - apply tame_anon. constructor; discriminate.
  - constructor. intros f [<-|[<-|[]]]; apply tame_fld; constructor; discriminate.
  - now left.
Qed.
Example C29_case :
  let s := snd (new_form Outer init) in
  tame_form Outer /\ json_val outer_bad = true /\ nth_error (forms s) 0 = Some (Outer, []) /\ ignoring UIgnore /\ mapping_context s /\
  (exists es, fst (Form_map world0 9 0 (ASrc (json outer_bad)) [] true UIgnore Collect s) = Ok es /\ length es = 4%nat) /\
  (exists e es, fst (Form_map world0 9 0 (ASrc (json outer_bad)) [] true UIgnore Raise s) = Exn (EForm (e :: es))).
Proof.
  split; [exact tame_Outer|]. split; [reflexivity|]. split; [reflexivity|]. split; [now left|].
  split; [repeat split; eexists; reflexivity|]. split; [eexists; split; vm_compute; reflexivity|]. eexists _, _. vm_compute. reflexivity.
Qed.
(** Why floats are not among the fields above: an integer too large for a float escapes
    from [form.map] as an [OverflowError]. *)
Definition huge : Z := 10 ^ 400.
Theorem C29_float_refuted : exists W n t d s,
  json_val d = true /\ nth_error (forms s) 0 = Some (t, []) /\ mapping_context s /\
  fst (Form_map W n 0 (ASrc (json d)) [] true UIgnore Collect s) = Exn EOverflow.
Proof.
  exists world0, 9%nat, (FormTy "F" [fld "f" (KFloat None None)]), (jdict [("f", VInt huge)]),
    (snd (new_form (FormTy "F" [fld "f" (KFloat None None)]) init)).
  split; [vm_compute; reflexivity|]. split; [reflexivity|]. split; [repeat split; eexists; reflexivity|]. vm_compute. reflexivity.
Qed.
Print Assumptions C29_float_refuted.

(** C40: for forms without user code, given plain data: if collect mode returns no error,
    raise mode returns and leaves the same forms; if collect mode returns errors, raise mode
    raises a [FormError] that begins with the first of them; if collect mode raises, so does
    raise mode; and raise mode returns only if collect mode returns no error. *)
Theorem C40_raise_iff_collect_reports : forall W fuel a id t l tags rs u s,
  plain_data W a -> nth_error (forms s) id = Some (t, l) -> bare_form t -> bare_unm u -> mapping_context s ->
  let x := Form_map W fuel id a tags rs u Collect s in
  let y := Form_map W fuel id a tags rs u Raise s in
  (fst x = Ok [] -> fst y = Ok [] /\ forms (snd y) = forms (snd x)) /\
  (forall e es, fst x = Ok (e :: es) -> exists es', fst y = Exn (EForm (e :: es'))) /\
  (forall e, fst x = Exn e -> fst y = Exn e \/ exists e' es', fst y = Exn (EForm (e' :: es'))) /\
  (forall es, fst y = Ok es -> fst x = Ok [] /\ es = []).
Proof. exact C40_lem. Qed.
Print Assumptions C40_raise_iff_collect_reports.
Lemma bare_fld n k : bare_kind k -> bare (fld n k).
Proof. intros K. constructor; [|exact K]. split; cbn; auto; try discriminate. intros k0 [= <-]. exact I. Qed.
Lemma bare_anon k : bare_kind k -> bare (anon k).
Proof. intros K. constructor; [|exact K]. split; cbn; auto; discriminate. Qed.
Lemma bare_Outer : bare_form Outer.
Proof.
  constructor. intros f [<-|[<-|[<-|[]]]]; apply bare_fld; constructor; try constructor.
  - split; cbn; auto; discriminate.
  - constructor.
  - intros f [<-|[<-|[]]]; apply bare_fld; constructor.
Qed.
Example C40_case :
  let s := snd (new_form Outer init) in
  plain_data world0 (ASrc (json outer_bad)) /\ plain_data world0 (AVal outer_ok) /\ bare_form Outer /\ bare_unm UCapture /\ mapping_context s /\
  (exists e es, fst (Form_map world0 9 0 (ASrc (json outer_bad)) [] true UCapture Collect s) = Ok (e :: es)) /\
  (exists e es, fst (Form_map world0 9 0 (ASrc (json outer_bad)) [] true UCapture Raise s) = Exn (EForm (e :: es))) /\
  fst (Form_map world0 9 0 (AVal outer_ok) [] true UCapture Collect s) = Ok [].
Proof.
  split; [now constructor|]. split; [apply (pd_dict world0 (fun v => tidy v = true)); [exact tidy_native|reflexivity]|].
  split; [exact bare_Outer|]. split; [constructor|]. split; [repeat split; eexists; reflexivity|].
  split; [eexists _, _; vm_compute; reflexivity|]. split; [eexists _, _; vm_compute; reflexivity|]. vm_compute. reflexivity.
Qed.

Example C40_config_case :
  let s := snd (new_form Outer init) in
  let src := ASrc (SBase (BPlain (SConfig app_cfg (Some "app") (VDict []) None))) in
  plain_data world2 src /\ fst (Form_map world2 9 0 src [] true UIgnore Raise s) = Ok [].
Proof. split; [constructor; split; [reflexivity|split; discriminate]|]. vm_compute. reflexivity. Qed.

(** C41: if every field holds one value and reports nothing while converting it, raise mode
    raises a [FormError] with exactly the first error of collect mode. *)
Theorem C41_first_error_of_leaves : forall W fuel a id t l tags rs u s e es,
  plain_data W a -> nth_error (forms s) id = Some (t, l) -> bare_form t ->
  (forall f, In f (ft_fields t) -> single f = true) -> ignoring u -> mapping_context s ->
  fst (Form_map W fuel id a tags rs u Collect s) = Ok (e :: es) ->
  fst (Form_map W fuel id a tags rs u Raise s) = Exn (EForm [e]).
Proof. exact C41_lem. Qed.
Print Assumptions C41_first_error_of_leaves.
Example C41_case :
  let s := snd (new_form Inner init) in
  plain_data world0 (ASrc (json (jdict [("x", VStr "q")]))) /\ nth_error (forms s) 0 = Some (Inner, []) /\ bare_form Inner /\
  (forall f, In f (ft_fields Inner) -> single f = true) /\ ignoring UIgnore /\ mapping_context s /\
  (exists e e', fst (Form_map world0 9 0 (ASrc (json (jdict [("x", VStr "q")]))) [] true UIgnore Collect s) = Ok [e; e']).
Proof.
  split; [now constructor|]. split; [reflexivity|]. split; [constructor; intros f [<-|[<-|[]]]; apply bare_fld; constructor|].
  split; [intros f [<-|[<-|[]]]; reflexivity|]. split; [now left|]. split; [repeat split; eexists; reflexivity|].
  eexists _, _. vm_compute. reflexivity.
Qed.
(** Not so in a list: the list's own field catches the [FormError] and adds an error. *)
Theorem C41_in_list_refuted : exists W n t d s e e',
  json_val d = true /\ nth_error (forms s) 0 = Some (t, []) /\ bare_form t /\ mapping_context s /\
  fst (Form_map W n 0 (ASrc (json d)) [] true UIgnore Collect s) = Ok [e] /\
  fst (Form_map W n 0 (ASrc (json d)) [] true UIgnore Raise s) = Exn (EForm [e; e']).
Proof.
  exists world0, 9%nat, (FormTy "F" [fld "l" (KList (anon (KInteger None None)) None None false)]), (jdict [("l", VList [VStr "q"])]),
    (snd (new_form (FormTy "F" [fld "l" (KList (anon (KInteger None None)) None None false)]) init)).
  eexists _, _. split; [reflexivity|]. split; [reflexivity|]. split; [constructor; intros f [<-|[]]; apply bare_fld; constructor; apply bare_anon; constructor|].
  split; [repeat split; eexists; reflexivity|]. split; vm_compute; reflexivity.
Qed.
Print Assumptions C41_in_list_refuted.
