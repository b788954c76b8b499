(** * Theorem C110: mapping a form changes that form and the forms it makes, and no others. *)
From Coq Require Import List.
From Verif Require Import PyBase PyStr Source Field Context Fields SpecSrc SpecOthers Eval Regime CfgRegime OthersProofs Demo PropsEval.

(** Every other form that was there keeps its entries, whatever the mapping returns or raises. *)
Theorem C110_json : forall W fuel d strict loc id t l tags reset u m s j t' l',
  json_val d = true -> nth_error (forms s) id = Some (t, l) -> (forall f, In f (ft_fields t) -> hooked reading_prog f) -> hooked_unmapped reading_prog u -> mapping_context s ->
  j <> id -> nth_error (forms s) j = Some (t', l') -> no_parent t' ->
  nth_error (forms (snd (Form_map W fuel id (ASrc (SBase (BPlain (SJson d strict loc)))) tags reset u m s))) j = Some (t', l').
Proof. exact C110_json_lem. Qed.
Print Assumptions C110_json.
Theorem C110_native : forall W fuel P d loc id t l tags reset u m s j t' l',
  plain_native (w_env W) P -> P d -> nth_error (forms s) id = Some (t, l) -> (forall f, In f (ft_fields t) -> hooked reading_prog f) -> hooked_unmapped reading_prog u -> mapping_context s ->
  j <> id -> nth_error (forms s) j = Some (t', l') -> no_parent t' ->
  nth_error (forms (snd (Form_map W fuel id (ASrc (SBase (BPlain (SDefault d [] [] loc)))) tags reset u m s))) j = Some (t', l').
Proof. exact C110_native_lem. Qed.
Print Assumptions C110_native.
Theorem C110_config : forall W fuel cfg sec d loc id t l tags reset u m s j t' l',
  config_given cfg sec d -> nth_error (forms s) id = Some (t, l) -> (forall f, In f (ft_fields t) -> hooked reading_prog f) -> hooked_unmapped reading_prog u -> mapping_context s ->
  j <> id -> nth_error (forms s) j = Some (t', l') -> no_parent t' ->
  nth_error (forms (snd (Form_map W fuel id (ASrc (SBase (BPlain (SConfig cfg sec d loc)))) tags reset u m s))) j = Some (t', l').
Proof. exact C110_config_lem. Qed.
Print Assumptions C110_config.

(** A form mapped before, and a second one of the same class *)
Lemma reading_fld n k : hooked_kind reading_prog k -> hooked reading_prog (fld n k).
Proof. intros K. constructor; [|exact K]. split; cbn; try discriminate; try reflexivity; try (now intros h Q). intros k0 [= <-]. exact I. Qed.
Lemma reading_anon k : hooked_kind reading_prog k -> hooked reading_prog (anon k).
Proof. intros K. constructor; [|exact K]. split; cbn; try discriminate; try reflexivity; now intros h Q. Qed.
Lemma reading_Outer : forall f, In f (ft_fields Outer) -> hooked reading_prog f.
Proof.
  intros f [<-|[<-|[<-|[]]]]; apply reading_fld; constructor.
  - apply reading_anon. constructor.
  - intros f [<-|[<-|[]]]; apply reading_fld; constructor.
  - constructor.
Qed.
Lemma no_parent_Outer : no_parent Outer.
Proof. intros f [<-|[<-|[<-|[]]]]; discriminate. Qed.
Definition s_two : st := snd (new_form Outer (snd (Form_map world0 9 0 (ASrc (json outer_ok)) [] true UIgnore Collect (snd (new_form Outer init))))).
Example C110_case :
  (forall f, In f (ft_fields Outer) -> hooked reading_prog f) /\ mapping_context s_two /\ no_parent Outer /\ json_val outer_ok = true /\
  nth_error (forms s_two) 2 = Some (Outer, []) /\
  (exists l, nth_error (forms s_two) 0 = Some (Outer, l) /\ length l = 3%nat) /\
  match nth_error (forms (snd (Form_map world0 9 2 (ASrc (json outer_ok)) [] true UIgnore Collect s_two))) 2 with Some (_, l) => length l | None => O end = 3%nat.
Proof.
  split; [exact reading_Outer|]. split; [repeat split; eexists; vm_compute; reflexivity|]. split; [exact no_parent_Outer|]. split; [reflexivity|].
  split; [vm_compute; reflexivity|]. split; [eexists; split; vm_compute; reflexivity|vm_compute; reflexivity].
Qed.
Example C110_native_case :
  plain_native (w_env world0) (fun v => tidy v = true) /\ tidy outer_ok = true /\ (forall f, In f (ft_fields Outer) -> hooked reading_prog f) /\ mapping_context s_two /\ no_parent Outer.
Proof.
  split; [exact tidy_native|]. split; [reflexivity|]. split; [exact reading_Outer|]. split; [repeat split; eexists; vm_compute; reflexivity|exact no_parent_Outer].
Qed.
Example C110_config_case : config_given app_cfg (Some "app") (VDict []) /\ (forall f, In f (ft_fields Outer) -> hooked reading_prog f) /\ mapping_context s_two /\ no_parent Outer.
Proof.
  split; [split; [reflexivity|split; discriminate]|]. split; [exact reading_Outer|]. split; [repeat split; eexists; vm_compute; reflexivity|exact no_parent_Outer].
Qed.

(** Not so with a default that is a form, attach_parent, and a field named [parent]: the form that is
    the default is changed. *)
Definition Child : formty := FormTy "Child" [fld "parent" KAny].
Definition adopting (n : string) : field :=
  let o := named n (no_opts : fopts prog) in
  MkField (MkOpts (o_name o) (o_src o) (o_nullable o) (DVal (VForm 1)) (o_ignores o) (o_translations o) (o_tags o) true
                  (o_compute o) (o_resolve o) (o_parse o) (o_munge o) (o_filter o) (o_validate o)) (KSubForm Child false UIgnore).
Theorem C110_parent_refuted : exists t t' s, nth_error (forms s) 0 = Some (t, []) /\ nth_error (forms s) 1 = Some (t', []) /\ mapping_context s /\
  (forall f, In f (ft_fields t) -> hooked reading_prog f) /\
  nth_error (forms (snd (Form_map world0 9 0 (ASrc (json (jdict []))) [] true UIgnore Collect s))) 1 <> Some (t', []).
Proof.
  exists (FormTy "T" [adopting "x"]), Child, (snd (new_form Child (snd (new_form (FormTy "T" [adopting "x"]) init)))).
  split; [reflexivity|]. split; [reflexivity|]. split; [repeat split; eexists; reflexivity|]. split; [|vm_compute; discriminate].
  intros f [<-|[]]. constructor.
  - split; cbn; try discriminate; try reflexivity; try (now intros h Q). intros k0 [= <-]. exact I.
  - constructor; [|constructor]. intros f [<-|[]]. apply reading_fld. constructor.
Qed.
Print Assumptions C110_parent_refuted.
