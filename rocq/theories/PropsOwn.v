(** * Theorem C111: forms that ignore unmapped keys hold entries of their fields only. *)
From Coq Require Import List.
From Verif Require Import PyBase PyStr Source Field Context Fields SpecSrc SpecOwn Eval Regime CfgRegime OwnProofs Demo PropsEval.

(** If the keys of every form are names of its fields, they still are after a mapping, also those of the
    forms made, whatever the mapping returns or raises. *)
Theorem C111_json : forall W fuel d strict loc id t l tags reset u m s,
  json_val d = true -> nth_error (forms s) id = Some (t, l) -> direct_form t -> (forall f, In f (ft_fields t) -> uncaptured f) -> direct_unm u -> ignores u -> mapping_context s ->
  own_entries s -> own_entries (snd (Form_map W fuel id (ASrc (SBase (BPlain (SJson d strict loc)))) tags reset u m s)).
Proof. exact C111_json_lem. Qed.
Print Assumptions C111_json.
Theorem C111_native : forall W fuel P d loc id t l tags reset u m s,
  plain_native (w_env W) P -> P d -> nth_error (forms s) id = Some (t, l) -> direct_form t -> (forall f, In f (ft_fields t) -> uncaptured f) -> direct_unm u -> ignores u -> mapping_context s ->
  own_entries s -> own_entries (snd (Form_map W fuel id (ASrc (SBase (BPlain (SDefault d [] [] loc)))) tags reset u m s)).
Proof. exact C111_native_lem. Qed.
Print Assumptions C111_native.
Theorem C111_config : forall W fuel cfg sec d loc id t l tags reset u m s,
  config_given cfg sec d -> nth_error (forms s) id = Some (t, l) -> direct_form t -> (forall f, In f (ft_fields t) -> uncaptured f) -> direct_unm u -> ignores u -> mapping_context s ->
  own_entries s -> own_entries (snd (Form_map W fuel id (ASrc (SBase (BPlain (SConfig cfg sec d loc)))) tags reset u m s)).
Proof. exact C111_config_lem. Qed.
Print Assumptions C111_config.

(** The demo forms, from a document with a key that no field reads *)
Lemma uncaptured_Outer : forall f, In f (ft_fields Outer) -> uncaptured f.
Proof.
  intros f [<-|[<-|[<-|[]]]]; constructor; [apply uk_single; exact I| |].
  - apply uk_list. constructor. apply uk_single. exact I.
  - apply uk_form; [|exact I]. intros f [<-|[<-|[]]]; constructor; apply uk_single; exact I.
Qed.
Definition outer_extra : val := jdict [("more", VBool true); ("a", VInt 1); ("l", VList [VInt 1; VInt 2]); ("sub", jdict [("x", VInt 3); ("y", VStr "z")])].
Lemma own_new : own_entries (snd (new_form Outer init)).
Proof. intros [|[|j]] t l k v; cbn; try discriminate. intros [= <- <-] []. Qed.
Definition keys_at (s : st) (i : nat) : list val := match nth_error (forms s) i with Some (_, l) => map fst l | None => [] end.
Example C111_case :
  let s := snd (new_form Outer init) in let s1 := snd (Form_map world0 9 0 (ASrc (json outer_extra)) [] true UIgnore Collect s) in
  json_val outer_extra = true /\ nth_error (forms s) 0 = Some (Outer, []) /\ direct_form Outer /\ (forall f, In f (ft_fields Outer) -> uncaptured f) /\ mapping_context s /\
  own_entries s /\ keys_at s1 0 = [VStr "a"; VStr "l"; VStr "sub"] /\ keys_at s1 1 = [VStr "x"; VStr "y"].
Proof.
  split; [reflexivity|]. split; [reflexivity|]. split; [exact direct_Outer|]. split; [exact uncaptured_Outer|]. split; [repeat split; eexists; reflexivity|].
  split; [exact own_new|]. split; vm_compute; reflexivity.
Qed.
Example C111_native_case : plain_native (w_env world0) (fun v => tidy v = true) /\ tidy outer_extra = true /\ direct_form Outer /\ (forall f, In f (ft_fields Outer) -> uncaptured f) /\ own_entries (snd (new_form Outer init)).
Proof. split; [exact tidy_native|]. split; [reflexivity|]. split; [exact direct_Outer|]. split; [exact uncaptured_Outer|exact own_new]. Qed.
Example C111_config_case : config_given app_cfg (Some "app") (VDict []) /\ direct_form Outer /\ (forall f, In f (ft_fields Outer) -> uncaptured f) /\ own_entries (snd (new_form Outer init)).
Proof. split; [split; [reflexivity|split; discriminate]|]. split; [exact direct_Outer|]. split; [exact uncaptured_Outer|exact own_new]. Qed.

(** With capture the other keys are entries as well. *)
Theorem C111_capture_refuted : exists t d s, nth_error (forms s) 0 = Some (t, []) /\ json_val d = true /\ direct_form t /\ mapping_context s /\ own_entries s /\
  ~ own_entries (snd (Form_map world0 9 0 (ASrc (json d)) [] true UCapture Collect s)).
Proof.
  exists Outer, outer_extra, (snd (new_form Outer init)). split; [reflexivity|]. split; [reflexivity|]. split; [exact direct_Outer|].
  split; [repeat split; eexists; reflexivity|]. split; [exact own_new|]. intros E.
  assert (Q : exists l, nth_error (forms (snd (Form_map world0 9 0 (ASrc (json outer_extra)) [] true UCapture Collect (snd (new_form Outer init))))) 0 = Some (Outer, l) /\
    In (VStr "more", VBool true) l).
  { eexists. split; [vm_compute; reflexivity|]. cbn. tauto. }
  destruct Q as (l & Q & I). destruct (E 0%nat Outer l _ _ Q I) as (f & [<-|[<-|[<-|[]]]] & X); discriminate X.
Qed.
Print Assumptions C111_capture_refuted.
