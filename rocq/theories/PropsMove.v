(** * Theorem C107: the location of a source shows in the paths of errors only. *)
From Coq Require Import List.
From Verif Require Import PyBase PyStr Source Field Context Fields SpecSrc SpecMove Eval Regime CfgRegime MoveProofs Demo PropsEval.

(** The same JSON document at two locations: the same errors but for the location in front of their
    paths, the same form objects and the same context. *)
Theorem C107_json : forall W fuel d strict l l' id t x0 tags reset u m s,
  json_val d = true -> nth_error (forms s) id = Some (t, x0) -> (forall f, In f (ft_fields t) -> hooked passing_prog f) -> hooked_unmapped passing_prog u -> mapping_context s ->
  let x := Form_map W fuel id (ASrc (SBase (BPlain (SJson d strict l)))) tags reset u m s in
  let y := Form_map W fuel id (ASrc (SBase (BPlain (SJson d strict l')))) tags reset u m s in
  moved_outcome l l' (fst x) (fst y) /\ forms (snd x) = forms (snd y) /\ stk (snd x) = stk (snd y).
Proof. exact C107_json_lem. Qed.
Print Assumptions C107_json.
(** A native value *)
Theorem C107_native : forall W fuel P d l l' id t x0 tags reset u m s,
  plain_native (w_env W) P -> P d -> nth_error (forms s) id = Some (t, x0) -> (forall f, In f (ft_fields t) -> hooked passing_prog f) -> hooked_unmapped passing_prog u -> mapping_context s ->
  let x := Form_map W fuel id (ASrc (SBase (BPlain (SDefault d [] [] l)))) tags reset u m s in
  let y := Form_map W fuel id (ASrc (SBase (BPlain (SDefault d [] [] l')))) tags reset u m s in
  moved_outcome l l' (fst x) (fst y) /\ forms (snd x) = forms (snd y) /\ stk (snd x) = stk (snd y).
Proof. exact C107_native_lem. Qed.
Print Assumptions C107_native.
(** A configuration file *)
Theorem C107_config : forall W fuel cfg sec d l l' id t x0 tags reset u m s,
  config_given cfg sec d -> nth_error (forms s) id = Some (t, x0) -> (forall f, In f (ft_fields t) -> hooked passing_prog f) -> hooked_unmapped passing_prog u -> mapping_context s ->
  let x := Form_map W fuel id (ASrc (SBase (BPlain (SConfig cfg sec d l)))) tags reset u m s in
  let y := Form_map W fuel id (ASrc (SBase (BPlain (SConfig cfg sec d l')))) tags reset u m s in
  moved_outcome l l' (fst x) (fst y) /\ forms (snd x) = forms (snd y) /\ stk (snd x) = stk (snd y).
Proof. exact C107_config_lem. Qed.
Print Assumptions C107_config.

(** The demo forms on bad data, at [a.json] and at no location. *)
Lemma passing_fld n k : hooked_kind passing_prog k -> hooked passing_prog (fld n k).
Proof. intros K. constructor; [|exact K]. split; cbn; try discriminate; try reflexivity; try (now intros h Q). intros k0 [= <-]. exact I. Qed.
Lemma passing_anon k : hooked_kind passing_prog k -> hooked passing_prog (anon k).
Proof. intros K. constructor; [|exact K]. split; cbn; try discriminate; try reflexivity; now intros h Q. Qed.
Lemma passing_Outer : forall f, In f (ft_fields Outer) -> hooked passing_prog f.
Proof.
  intros f [<-|[<-|[<-|[]]]]; apply passing_fld; constructor.
  - apply passing_anon. constructor.
  - intros f [<-|[<-|[]]]; apply passing_fld; constructor.
  - constructor.
Qed.
Definition paths_of (x : res (list err)) : list string := match x with Ok es => map (fun e => match e with MkErr _ p _ _ => p end) es | Exn _ => [] end.
Example C107_json_case :
  let s := snd (new_form Outer init) in
  json_val outer_bad = true /\ nth_error (forms s) 0 = Some (Outer, []) /\ (forall f, In f (ft_fields Outer) -> hooked passing_prog f) /\ mapping_context s /\
  paths_of (fst (Form_map world0 9 0 (ASrc (SBase (BPlain (SJson outer_bad false (Some "a.json"))))) [] true UIgnore Collect s)) = ["a.json:a"; "a.json:l[1]"; "a.json:sub.x"; "a.json:sub.y"] /\
  paths_of (fst (Form_map world0 9 0 (ASrc (SBase (BPlain (SJson outer_bad false None)))) [] true UIgnore Collect s)) = ["a"; "l[1]"; "sub.x"; "sub.y"].
Proof.
  split; [reflexivity|]. split; [reflexivity|]. split; [exact passing_Outer|]. split; [repeat split; eexists; reflexivity|]. split; vm_compute; reflexivity.
Qed.
Example C107_native_case :
  let s := snd (new_form Outer init) in
  plain_native (w_env world0) (fun v => tidy v = true) /\ tidy outer_bad = true /\ (forall f, In f (ft_fields Outer) -> hooked passing_prog f) /\ mapping_context s /\
  paths_of (fst (Form_map world0 9 0 (ASrc (SBase (BPlain (SDefault outer_bad [] [] (Some "here"))))) [] true UIgnore Collect s)) = ["here:a"; "here:l[1]"; "here:sub.x"; "here:sub.y"].
Proof.
  split; [exact tidy_native|]. split; [reflexivity|]. split; [exact passing_Outer|]. split; [repeat split; eexists; reflexivity|]. vm_compute; reflexivity.
Qed.
Definition bad_cfg : config := [("app", [("a", "five"); ("sub[y]", "z")])].
Example C107_config_case :
  let s := snd (new_form Outer init) in
  config_given bad_cfg (Some "app") (VDict []) /\ (forall f, In f (ft_fields Outer) -> hooked passing_prog f) /\ mapping_context s /\
  paths_of (fst (Form_map world2 9 0 (ASrc (SBase (BPlain (SConfig bad_cfg (Some "app") (VDict []) (Some "a.cfg"))))) [] true UIgnore Collect s)) = ["a.cfg:[app]:a"; "a.cfg:[app]:l"; "a.cfg:[app]:sub.x"].
Proof.
  split; [split; [reflexivity|split; discriminate]|]. split; [exact passing_Outer|]. split; [repeat split; eexists; reflexivity|]. vm_compute; reflexivity.
Qed.

(** Not with a hook that handles the FormError of raise mode: it may keep the path. *)
Definition keeps_path : hook prog :=
  MkHook true (fun _ _ => PInvalid (VioText "bad") (fun x => match x with Exn (EForm [MkErr _ p _ _]) => PRet (VStr p) | _ => PRet VNone end)).
Definition nosy (n : string) : field :=
  let o := named n (no_opts : fopts prog) in
  MkField (MkOpts (o_name o) (o_src o) (o_nullable o) (o_default o) (o_ignores o) (o_translations o) (o_tags o) (o_attach_parent o)
                  (o_compute o) (o_resolve o) (o_parse o) (Some keeps_path) (o_filter o) (o_validate o)) (KInteger None None).
Theorem C107_handled_refuted : exists t d s, nth_error (forms s) 0 = Some (t, []) /\ json_val d = true /\ mapping_context s /\
  let x := Form_map world0 9 0 (ASrc (SBase (BPlain (SJson d false (Some "a"))))) [] true UIgnore Raise s in
  let y := Form_map world0 9 0 (ASrc (SBase (BPlain (SJson d false (Some "b"))))) [] true UIgnore Raise s in
  forms (snd x) <> forms (snd y).
Proof.
  exists (FormTy "T" [nosy "x"]), (jdict [("x", VInt 5)]), (snd (new_form (FormTy "T" [nosy "x"]) init)).
  split; [reflexivity|]. split; [reflexivity|]. split; [repeat split; eexists; reflexivity|]. vm_compute. discriminate.
Qed.
Print Assumptions C107_handled_refuted.
