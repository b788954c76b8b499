(** * Theorem C109: a mapping sees five variables of the context it is called in. *)
From Coq Require Import List.
From Verif Require Import PyBase PyStr Source Field Context Fields SpecSrc SpecCtx SpecView Eval Regime CfgRegime ViewProofs Demo PropsEval.

(** In two contexts that bind them alike, whatever else is bound there and however the blocks are nested, a
    form maps alike: from JSON, ... *)
Theorem C109_json : forall W fuel d strict loc id t l tags reset u m s s',
  json_val d = true -> nth_error (forms s) id = Some (t, l) -> direct_form t -> direct_unm u -> mapping_context s -> mapping_context s' -> looks_alike s s' ->
  let x := Form_map W fuel id (ASrc (SBase (BPlain (SJson d strict loc)))) tags reset u m s in
  let y := Form_map W fuel id (ASrc (SBase (BPlain (SJson d strict loc)))) tags reset u m s' in
  fst x = fst y /\ forms (snd x) = forms (snd y).
Proof. exact C109_json_lem. Qed.
Print Assumptions C109_json.
(** ... a native value ... *)
Theorem C109_native : forall W fuel P d loc id t l tags reset u m s s',
  plain_native (w_env W) P -> P d -> nth_error (forms s) id = Some (t, l) -> direct_form t -> direct_unm u -> mapping_context s -> mapping_context s' -> looks_alike s s' ->
  let x := Form_map W fuel id (ASrc (SBase (BPlain (SDefault d [] [] loc)))) tags reset u m s in
  let y := Form_map W fuel id (ASrc (SBase (BPlain (SDefault d [] [] loc)))) tags reset u m s' in
  fst x = fst y /\ forms (snd x) = forms (snd y).
Proof. exact C109_native_lem. Qed.
Print Assumptions C109_native.
(** ... or a configuration. *)
Theorem C109_config : forall W fuel cfg sec d loc id t l tags reset u m s s',
  config_given cfg sec d -> nth_error (forms s) id = Some (t, l) -> direct_form t -> direct_unm u -> mapping_context s -> mapping_context s' -> looks_alike s s' ->
  let x := Form_map W fuel id (ASrc (SBase (BPlain (SConfig cfg sec d loc)))) tags reset u m s in
  let y := Form_map W fuel id (ASrc (SBase (BPlain (SConfig cfg sec d loc)))) tags reset u m s' in
  fst x = fst y /\ forms (snd x) = forms (snd y).
Proof. exact C109_config_lem. Qed.
Print Assumptions C109_config.
(** Blocks that bind none of the five, and no new source, make no difference. *)
Theorem C109_blocks : forall W blocks s s1, open_all W blocks s = (Ok tt, s1) -> (forall kw, In kw blocks -> unseen kw) -> mapping_context s ->
  looks_alike s s1 /\ mapping_context s1.
Proof. exact C109_blocks_lem. Qed.
Print Assumptions C109_blocks.

(** While a document is read, below its key [sub] and with a variable of the application. *)
Definition s_reading : st := snd (push world0 [("src", CSrc (json outer_ok))] (snd (new_form Outer init))).
Definition own_blocks : list frame := [[("user", CVal (VStr "me"))]; [("src", CKey (KStr "sub")); ("x", CVal (VInt 1))]].
Example C109_case :
  let s1 := snd (open_all world0 own_blocks s_reading) in
  fst (open_all world0 own_blocks s_reading) = Ok tt /\ (forall kw, In kw own_blocks -> unseen kw) /\ mapping_context s_reading /\ stk s1 <> stk s_reading /\
  nth_error (forms s_reading) 0 = Some (Outer, []) /\ direct_form Outer /\ json_val outer_bad = true /\
  match fst (Form_map world0 9 0 (ASrc (json outer_bad)) [] true UIgnore Collect s1) with Ok es => length es | Exn _ => O end = 4%nat.
Proof.
  split; [vm_compute; reflexivity|]. split.
  { intros kw [<-|[<-|[]]]; split; try (intros src; discriminate); intros k I; cbn in I; repeat (destruct I as [<-|I]; [reflexivity|]); destruct I. }
  split; [repeat split; eexists; vm_compute; reflexivity|]. split; [vm_compute; discriminate|]. split; [reflexivity|]. split; [exact direct_Outer|].
  split; [reflexivity|vm_compute; reflexivity].
Qed.
Example C109_native_case :
  plain_native (w_env world0) (fun v => tidy v = true) /\ tidy outer_ok = true /\ direct_form Outer /\ mapping_context s_reading /\
  fst (Form_map world0 9 0 (ASrc (SBase (BPlain (SDefault outer_ok [] [] None)))) [] true UIgnore Collect s_reading) = Ok [].
Proof.
  split; [exact tidy_native|]. split; [reflexivity|]. split; [exact direct_Outer|]. split; [repeat split; eexists; vm_compute; reflexivity|]. vm_compute. reflexivity.
Qed.
Example C109_config_case :
  config_given app_cfg (Some "app") (VDict []) /\ direct_form Outer /\ mapping_context s_reading /\
  length (forms (snd (Form_map world2 9 0 (ASrc (SBase (BPlain (SConfig app_cfg (Some "app") (VDict []) None)))) [] true UIgnore Collect s_reading))) = 2%nat.
Proof.
  split; [split; [reflexivity|split; discriminate]|]. split; [exact direct_Outer|]. split; [repeat split; eexists; vm_compute; reflexivity|]. vm_compute. reflexivity.
Qed.

(** The five do make a difference, [ignore_missing] for one. *)
Theorem C109_seen_refuted : exists t d kw s, nth_error (forms s) 0 = Some (t, []) /\ json_val d = true /\ direct_form t /\ mapping_context s /\
  fst (Form_map world0 9 0 (ASrc (json d)) [] true UIgnore Collect s) <> fst (Form_map world0 9 0 (ASrc (json d)) [] true UIgnore Collect (snd (push world0 kw s))).
Proof.
  exists Outer, (jdict []), [("ignore_missing", CVal (VBool true))], (snd (new_form Outer init)). split; [reflexivity|]. split; [reflexivity|]. split; [exact direct_Outer|].
  split; [repeat split; eexists; reflexivity|]. vm_compute. discriminate.
Qed.
Print Assumptions C109_seen_refuted.
