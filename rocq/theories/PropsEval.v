(** * Theorem C30: mapping equals a direct recursive evaluation. *)
From Verif Require Import PyBase PyStr Source Field Context Fields SpecSrc Eval Refine Regime CfgRegime Demo.

(** Over a JSON document: what [form.map] returns or raises, and every form object
    afterwards, are those of the evaluator, which has no context, path or cache. *)
Theorem C30_json_map_is_evaluation : forall W fuel d strict loc id t l tags reset u m s,
  json_val d = true -> nth_error (forms s) id = Some (t, l) -> direct_form t -> direct_unm u ->
  mapping_context s ->
  let x := Form_map W fuel id (ASrc (SBase (BPlain (SJson d strict loc)))) tags reset u m s in
  (fst x, forms (snd x)) =
  ev_map W fuel (outer_of s) (SJson d strict loc) d id tags reset u m (forms s) /\
  stk (snd x) = stk s.
Proof. exact C30_json_lem. Qed.
Print Assumptions C30_json_map_is_evaluation.

(** Over native data (no aliases, no ignores). *)
Theorem C30_native_map_is_evaluation : forall W fuel P d loc id t l tags reset u m s,
  plain_native (w_env W) P -> P d ->
  nth_error (forms s) id = Some (t, l) -> direct_form t -> direct_unm u -> mapping_context s ->
  let x := Form_map W fuel id (ASrc (SBase (BPlain (SDefault d [] [] loc)))) tags reset u m s in
  (fst x, forms (snd x)) =
  ev_map W fuel (outer_of s) (SDefault d [] [] loc) d id tags reset u m (forms s) /\
  stk (snd x) = stk s.
Proof. exact C30_native_lem. Qed.
Print Assumptions C30_native_map_is_evaluation.

(** [form.map({...})] *)
Theorem C30_dict_map_is_evaluation : forall W fuel P items id t l tags reset u m s,
  plain_native (w_env W) P -> P (VDict items) ->
  nth_error (forms s) id = Some (t, l) -> direct_form t -> direct_unm u -> mapping_context s ->
  let x := Form_map W fuel id (AVal (VDict items)) tags reset u m s in
  (fst x, forms (snd x)) =
  ev_map W fuel (outer_of s) (SDefault (VDict items) [] [] None) (VDict items) id tags reset u m (forms s) /\
  stk (snd x) = stk s.
Proof. exact C30_dict_lem. Qed.
Print Assumptions C30_dict_map_is_evaluation.

(** A configuration file *)
Theorem C30_config_map_is_evaluation : forall W fuel cfg sec d loc id t l tags reset u m s,
  config_given cfg sec d ->
  nth_error (forms s) id = Some (t, l) -> direct_form t -> direct_unm u -> mapping_context s ->
  let x := Form_map W fuel id (ASrc (SBase (BPlain (SConfig cfg sec d loc)))) tags reset u m s in
  (fst x, forms (snd x)) =
  ev_map W fuel (outer_of s) (SConfig cfg sec d loc) (config_start cfg sec d) id tags reset u m (forms s) /\
  stk (snd x) = stk s.
Proof. exact C30_config_lem. Qed.
Print Assumptions C30_config_map_is_evaluation.

(** The hypotheses hold of the demo forms, on good and on bad data. *)
Lemma direct_fld n k : direct_kind k -> direct (fld n k).
Proof. intros K. constructor; [|exact K]. split; cbn; try discriminate; auto. intros k0 [= <-]. exact I. Qed.
Lemma direct_anon k : direct_kind k -> direct (anon k).
Proof. intros K. constructor; [apply direct_no_opts|exact K]. Qed.
Lemma direct_Outer : direct_form Outer.
Proof.
  constructor. intros f [<-|[<-|[<-|[]]]]; apply direct_fld; constructor.
  - apply direct_anon. constructor.
  - constructor. intros f [<-|[<-|[]]]; apply direct_fld; constructor.
  - constructor.
Qed.
Example C30_json_case :
  let s := snd (new_form Outer init) in
  json_val outer_bad = true /\ nth_error (forms s) 0 = Some (Outer, []) /\ direct_form Outer /\ mapping_context s /\
  map (fun e => match e with MkErr _ p _ _ => p end) (match fst (Form_map world0 9 0 (ASrc (json outer_bad)) [] true UIgnore Collect s) with Ok es => es | Exn _ => [] end)
    = ["a"; "l[1]"; "sub.x"; "sub.y"].
Proof.
  split; [reflexivity|]. split; [reflexivity|]. split; [exact direct_Outer|].
  split; [repeat split; eexists; reflexivity|vm_compute; reflexivity].
Qed.
(** Trees of plain Python values *)
Fixpoint tidy (v : val) : bool :=
  match v with
  | VNone | VBool _ | VInt _ | VFloat _ | VStr _ => true
  | VList l | VTuple l => forallb tidy l
  | VDict l => forallb (fun kv => match fst kv with
                                  | VStr s => match strip_call s with None => tidy (snd kv) | Some _ => false end
                                  | VInt _ => tidy (snd kv)
                                  | _ => false
                                  end) l
  | _ => false
  end.
Lemma tidy_native : plain_native env0 (fun v => tidy v = true).
Proof.
  split; [split| | |].
  - intros c H. destruct c; try discriminate; exact I.
  - intros c k v H I0. destruct I0 as [l x w G|i x w G|l i w G|l i w G|l i w G|l i w G|s i a G|s i a G|cls i x w G]; try discriminate; try reflexivity.
    + cbn in H. rewrite forallb_forall in H. unfold dict_get in G.
      destruct (find _ l) as [[a b]|] eqn:F; [|discriminate]. cbn in G. injection G as ->. apply find_some in F.
      specialize (H _ (proj1 F)). cbn in H. destruct a; try discriminate; [exact H|]. destruct (strip_call s); [discriminate|exact H].
    + cbn in H. rewrite forallb_forall in H. apply nth_error_In in G. auto.
    + cbn in H. rewrite forallb_forall in H. apply nth_error_In in G. apply in_rev in G. auto.
    + cbn in H. rewrite forallb_forall in H. apply nth_error_In in G. auto.
    + cbn in H. rewrite forallb_forall in H. apply nth_error_In in G. apply in_rev in G. auto.
  - discriminate.
  - discriminate.
  - discriminate.
  - discriminate.
  - intros l k H I0. cbn in H. rewrite forallb_forall in H. apply in_map_iff in I0. destruct I0 as ([a b] & <- & I0).
    specialize (H _ I0). cbn in *. destruct a; try discriminate; [left; eauto|]. right. exists s. destruct (strip_call s); [discriminate|auto].
Qed.
Example C30_native_case :
  let s := snd (new_form Outer init) in
  plain_native (w_env world0) (fun v => tidy v = true) /\ tidy outer_ok = true /\ direct_form Outer /\ mapping_context s /\
  fst (Form_map world0 9 0 (AVal outer_ok) [] true UIgnore Collect s) = Ok [] /\
  length (forms (snd (Form_map world0 9 0 (AVal outer_ok) [] true UIgnore Collect s))) = 2%nat.
Proof.
  split; [exact tidy_native|]. split; [reflexivity|]. split; [exact direct_Outer|].
  split; [repeat split; eexists; reflexivity|]. split; vm_compute; reflexivity.
Qed.
(** A section [app] with [a = 5], [l = 1], [sub[x] = 3] and [sub[y] = z] *)
Definition app_cfg : config := [("app", [("a", "5"); ("l", "1"); ("sub[x]", "3"); ("sub[y]", "z")])].
Example C30_config_case :
  let s := snd (new_form Outer init) in
  let src := ASrc (SBase (BPlain (SConfig app_cfg (Some "app") (VDict []) None))) in
  config_given app_cfg (Some "app") (VDict []) /\ nth_error (forms s) 0 = Some (Outer, []) /\ direct_form Outer /\ mapping_context s /\
  length (forms (snd (Form_map world2 9 0 src [] true UIgnore Collect s))) = 2%nat.
Proof.
  split; [split; [reflexivity|split; discriminate]|]. split; [reflexivity|]. split; [exact direct_Outer|].
  split; [repeat split; eexists; reflexivity|]. vm_compute. reflexivity.
Qed.

(** ** Polymorphic sub-forms *)

(** With PolymorphicSubForm fields anywhere: the classes they choose among are of the same sort.
    The type is found by mapping the probe on the value as a native mapping.  The evaluator
    answers [unevaluated] when the value probed is a list, tuple or form, and when a probe
    without errors does not store its type. *)
Theorem C30_polymorphic_native : forall W fuel P d loc id t l tags reset u m s,
  plain_native (w_env W) P -> P d -> (forall c ty, w_class W c = Some ty -> pdirect_form True ty) ->
  nth_error (forms s) id = Some (t, l) -> pdirect_form True t -> pdirect_unm True u -> mapping_context s ->
  let x := Form_map W fuel id (ASrc (SBase (BPlain (SDefault d [] [] loc)))) tags reset u m s in
  let y := ev_map W fuel (outer_of s) (SDefault d [] [] loc) d id tags reset u m (forms s) in
  fst y <> Exn unevaluated -> (fst x, forms (snd x)) = y /\ stk (snd x) = stk s.
Proof. exact C30_poly_native_lem. Qed.
Print Assumptions C30_polymorphic_native.
Theorem C30_polymorphic_json : forall W fuel P d strict loc id t l tags reset u m s,
  plain_native (w_env W) P -> P d -> json_val d = true -> (forall c ty, w_class W c = Some ty -> pdirect_form True ty) ->
  nth_error (forms s) id = Some (t, l) -> pdirect_form True t -> pdirect_unm True u -> mapping_context s ->
  let x := Form_map W fuel id (ASrc (SBase (BPlain (SJson d strict loc)))) tags reset u m s in
  let y := ev_map W fuel (outer_of s) (SJson d strict loc) d id tags reset u m (forms s) in
  fst y <> Exn unevaluated -> (fst x, forms (snd x)) = y /\ stk (snd x) = stk s.
Proof. exact C30_poly_json_lem. Qed.
Print Assumptions C30_polymorphic_json.

(** Animals: a cat has an age, a dog a list of animals it chases. *)
Definition a_kind : field := fld "kind" (KString no_strc).
Definition animal : kind :=
  KPoly (FormTy "Animal" [a_kind]) a_kind [(VStr "cat", "Cat"); (VStr "dog", "Dog")] true UIgnore.
Definition Cat := FormTy "Cat" [fld "age" (KInteger None None)].
Definition Dog := FormTy "Dog" [fld "chases" (KList (anon animal) None None false)].
Definition zoo : world := MkWorld (w_env world0) (fun c => if String.eqb c "Cat" then Some Cat else if String.eqb c "Dog" then Some Dog else None).
Definition House := FormTy "House" [fld "pets" (KList (anon animal) None None false)].
Definition a_cat (n : val) : val := VDict [(VStr "kind", VStr "cat"); (VStr "age", n)].
Definition pets : val :=
  VDict [(VStr "pets", VList [a_cat (VInt 3); VDict [(VStr "kind", VStr "dog"); (VStr "chases", VList [a_cat (VStr "old"); VStr "tail"])];
                              VDict [(VStr "kind", VStr "cow")]])].
Lemma pdirect_fld n k : pdirect_kind True k -> pdirect True (fld n k).
Proof. intros K. constructor; [|exact K]. split; cbn; try discriminate; auto. intros k0 [= <-]. exact I. Qed.
Lemma pdirect_animal : pdirect_kind True animal.
Proof. constructor; [exact I| |constructor]. constructor. intros f [<-|[]]. apply pdirect_fld. constructor. Qed.
Lemma pdirect_animals n : pdirect True (fld n (KList (anon animal) None None false)).
Proof. apply pdirect_fld. constructor. constructor; [apply direct_no_opts|exact pdirect_animal]. Qed.
Example C30_polymorphic_case :
  let s := snd (new_form House init) in
  let src := SJson pets true None in
  let x := Form_map zoo 19 0 (ASrc (SBase (BPlain src))) [] true UIgnore Collect s in
  plain_native (w_env zoo) (fun v => tidy v = true) /\ tidy pets = true /\ json_val pets = true /\
  (forall c ty, w_class zoo c = Some ty -> pdirect_form True ty) /\
  pdirect_form True House /\ mapping_context s /\
  fst (ev_map zoo 19 (outer_of s) src pets 0 [] true UIgnore Collect (forms s)) <> Exn unevaluated /\
  map (fun e => match e with MkErr _ p _ _ => p end) (match fst x with Ok es => es | Exn _ => [] end)
    = ["pets[1].chases[0].age"; "pets[1].chases[1]"; "pets[2]"].
Proof.
  cbv zeta. split; [exact tidy_native|]. split; [reflexivity|]. split; [reflexivity|]. split.
  - intros c ty. cbn [w_class zoo]. destruct (String.eqb c "Cat"); [intros [= <-]|destruct (String.eqb c "Dog"); [intros [= <-]|discriminate]].
    + constructor. intros f [<-|[]]. apply pdirect_fld. constructor.
    + constructor. intros f [<-|[]]. apply pdirect_animals.
  - split; [constructor; intros f [<-|[]]; apply pdirect_animals|]. split; [repeat split; eexists; reflexivity|].
    split; [vm_compute; discriminate|vm_compute; reflexivity].
Qed.
