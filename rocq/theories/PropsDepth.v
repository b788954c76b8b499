(** * Theorem C108: a mapping with the stack it needs does not depend on how much more there is. *)
From Coq Require Import List.
From Verif Require Import PyBase PyStr Source Field Context Fields SpecSrc SpecDepth Eval Regime CfgRegime DepthProofs Demo PropsEval.

(** Every form is nested some way deep. *)
Theorem C108_depth : forall t u, direct_form t -> direct_unm u -> exists n, (forall f, In f (ft_fields t) -> within n f) /\ within_unmapped n u.
Proof. exact C108_depth_lem. Qed.
Print Assumptions C108_depth.
(** Whatever the document, a stack as deep as the fields are nested gives what every deeper one gives. *)
Theorem C108_json : forall W n fuel fuel' d strict loc id t l tags reset u m s,
  json_val d = true -> nth_error (forms s) id = Some (t, l) -> direct_form t -> direct_unm u -> mapping_context s ->
  (forall f, In f (ft_fields t) -> within n f) -> within_unmapped n u -> (n <= fuel)%nat -> (n <= fuel')%nat ->
  let x := Form_map W fuel id (ASrc (SBase (BPlain (SJson d strict loc)))) tags reset u m s in
  let y := Form_map W fuel' id (ASrc (SBase (BPlain (SJson d strict loc)))) tags reset u m s in
  fst x = fst y /\ forms (snd x) = forms (snd y) /\ stk (snd x) = stk (snd y).
Proof. exact C108_json_lem. Qed.
Print Assumptions C108_json.
Theorem C108_native : forall W n fuel fuel' P d loc id t l tags reset u m s,
  plain_native (w_env W) P -> P d -> nth_error (forms s) id = Some (t, l) -> direct_form t -> direct_unm u -> mapping_context s ->
  (forall f, In f (ft_fields t) -> within n f) -> within_unmapped n u -> (n <= fuel)%nat -> (n <= fuel')%nat ->
  let x := Form_map W fuel id (ASrc (SBase (BPlain (SDefault d [] [] loc)))) tags reset u m s in
  let y := Form_map W fuel' id (ASrc (SBase (BPlain (SDefault d [] [] loc)))) tags reset u m s in
  fst x = fst y /\ forms (snd x) = forms (snd y) /\ stk (snd x) = stk (snd y).
Proof. exact C108_native_lem. Qed.
Print Assumptions C108_native.
Theorem C108_config : forall W n fuel fuel' cfg sec d loc id t l tags reset u m s,
  config_given cfg sec d -> nth_error (forms s) id = Some (t, l) -> direct_form t -> direct_unm u -> mapping_context s ->
  (forall f, In f (ft_fields t) -> within n f) -> within_unmapped n u -> (n <= fuel)%nat -> (n <= fuel')%nat ->
  let x := Form_map W fuel id (ASrc (SBase (BPlain (SConfig cfg sec d loc)))) tags reset u m s in
  let y := Form_map W fuel' id (ASrc (SBase (BPlain (SConfig cfg sec d loc)))) tags reset u m s in
  fst x = fst y /\ forms (snd x) = forms (snd y) /\ stk (snd x) = stk (snd y).
Proof. exact C108_config_lem. Qed.
Print Assumptions C108_config.

(** The demo forms are nested two deep; with two they map, with one they do not. *)
Lemma within_Outer : forall f, In f (ft_fields Outer) -> within 2 f.
Proof.
  intros f [<-|[<-|[<-|[]]]]; constructor; [apply wk_single; exact I| |].
  - apply wk_list. constructor. apply wk_single. exact I.
  - apply wk_form; [|constructor]. intros f [<-|[<-|[]]]; constructor; apply wk_single; exact I.
Qed.
Example C108_case :
  let s := snd (new_form Outer init) in
  json_val outer_ok = true /\ nth_error (forms s) 0 = Some (Outer, []) /\ direct_form Outer /\ direct_unm UCapture /\ mapping_context s /\
  (forall f, In f (ft_fields Outer) -> within 2 f) /\ within_unmapped 2 UCapture /\
  fst (Form_map world0 2 0 (ASrc (json outer_ok)) [] true UCapture Collect s) = Ok [] /\
  fst (Form_map world0 1 0 (ASrc (json outer_ok)) [] true UCapture Collect s) <> Ok [].
Proof.
  split; [reflexivity|]. split; [reflexivity|]. split; [exact direct_Outer|]. split; [constructor|]. split; [repeat split; eexists; reflexivity|].
  split; [exact within_Outer|]. split; [constructor|]. split; [vm_compute; reflexivity|vm_compute; discriminate].
Qed.
Example C108_native_case :
  let s := snd (new_form Outer init) in
  plain_native (w_env world0) (fun v => tidy v = true) /\ tidy outer_ok = true /\ direct_form Outer /\ mapping_context s /\ (forall f, In f (ft_fields Outer) -> within 2 f) /\
  fst (Form_map world0 2 0 (ASrc (SBase (BPlain (SDefault outer_ok [] [] None)))) [] true UIgnore Collect s) = Ok [].
Proof.
  split; [exact tidy_native|]. split; [reflexivity|]. split; [exact direct_Outer|]. split; [repeat split; eexists; reflexivity|]. split; [exact within_Outer|]. vm_compute. reflexivity.
Qed.
Example C108_config_case :
  let s := snd (new_form Outer init) in
  config_given app_cfg (Some "app") (VDict []) /\ direct_form Outer /\ mapping_context s /\ (forall f, In f (ft_fields Outer) -> within 2 f) /\
  length (forms (snd (Form_map world2 2 0 (ASrc (SBase (BPlain (SConfig app_cfg (Some "app") (VDict []) None)))) [] true UIgnore Collect s))) = 2%nat.
Proof.
  split; [split; [reflexivity|split; discriminate]|]. split; [exact direct_Outer|]. split; [repeat split; eexists; reflexivity|]. split; [exact within_Outer|]. vm_compute. reflexivity.
Qed.

(** Less is not enough. *)
Theorem C108_less_refuted : exists t d s, nth_error (forms s) 0 = Some (t, []) /\ json_val d = true /\ direct_form t /\ mapping_context s /\
  fst (Form_map world0 2 0 (ASrc (json d)) [] true UIgnore Collect s) <> fst (Form_map world0 1 0 (ASrc (json d)) [] true UIgnore Collect s).
Proof.
  exists Outer, outer_ok, (snd (new_form Outer init)). split; [reflexivity|]. split; [reflexivity|]. split; [exact direct_Outer|].
  split; [repeat split; eexists; reflexivity|]. vm_compute. discriminate.
Qed.
Print Assumptions C108_less_refuted.
