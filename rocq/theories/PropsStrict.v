(** * Theorem C106: strict reading refuses more and changes nothing else. *)
From Verif Require Import PyBase PyStr Source Field Context Fields SpecSrc SpecStrict Eval StrictProofs Demo.

(** What a form maps from a strict JSON source without errors, it maps from the same document read
    without strict: no errors either, the same form objects and the same context. *)
Theorem C106_strict : forall W fuel d loc id t l tags reset u m s,
  json_val d = true -> nth_error (forms s) id = Some (t, l) -> (forall f, In f (ft_fields t) -> honest_field f) -> honest_unmapped u -> mapping_context s ->
  let x := Form_map W fuel id (ASrc (SBase (BPlain (SJson d true loc)))) tags reset u m s in
  let y := Form_map W fuel id (ASrc (SBase (BPlain (SJson d false loc)))) tags reset u m s in
  fst x = Ok [] -> fst y = Ok [] /\ forms (snd y) = forms (snd x) /\ stk (snd y) = stk (snd x).
Proof. exact C106_lem. Qed.
Print Assumptions C106_strict.

(** The demo forms on good data; one more key is captured. *)
Lemma honest_fld n k : honest_kind k -> honest_field (fld n k).
Proof. intros K. constructor; [|exact K]. split; cbn; try discriminate; try reflexivity; try (now intros h Q). intros k0 [= <-]. exact I. Qed.
Lemma honest_anon k : honest_kind k -> honest_field (anon k).
Proof. intros K. constructor; [|exact K]. split; cbn; try discriminate; try reflexivity; now intros h Q. Qed.
Definition outer_more : val := jdict [("a", VInt 1); ("l", VList [VInt 1; VInt 2]); ("sub", jdict [("x", VInt 3); ("y", VStr "z")]); ("more", VBool true)].
Example C106_strict_case :
  let s := snd (new_form Outer init) in
  let x := Form_map world0 9 0 (ASrc (SBase (BPlain (SJson outer_more true None)))) [] true UCapture Collect s in
  (forall f, In f (ft_fields Outer) -> honest_field f) /\ honest_unmapped UCapture /\ mapping_context s /\ json_val outer_more = true /\
  fst x = Ok [] /\ match nth_error (forms (snd x)) 0 with Some (_, l) => map fst l | None => [] end = [VStr "a"; VStr "l"; VStr "sub"; VStr "more"].
Proof.
  split; [|split; [constructor|split; [repeat split; eexists; reflexivity|split; [reflexivity|split; vm_compute; reflexivity]]]].
  intros f [<-|[<-|[<-|[]]]]; apply honest_fld; constructor.
  - apply honest_anon. constructor.
  - intros f [<-|[<-|[]]]; apply honest_fld; constructor.
  - constructor.
Qed.

(** Not the other way round: the text of a number is an Integer, but not strictly. *)
Theorem C106_back_refuted : exists t d s, nth_error (forms s) 0 = Some (t, []) /\ (forall f, In f (ft_fields t) -> honest_field f) /\ json_val d = true /\ mapping_context s /\
  fst (Form_map world0 9 0 (ASrc (SBase (BPlain (SJson d false None)))) [] true UIgnore Collect s) = Ok [] /\
  fst (Form_map world0 9 0 (ASrc (SBase (BPlain (SJson d true None)))) [] true UIgnore Collect s) <> Ok [].
Proof.
  exists (FormTy "T" [fld "x" (KInteger None None)]), (jdict [("x", VStr "5")]), (snd (new_form (FormTy "T" [fld "x" (KInteger None None)]) init)).
  split; [reflexivity|]. split; [intros f [<-|[]]; apply honest_fld; constructor|]. split; [reflexivity|]. split; [repeat split; eexists; reflexivity|].
  split; [vm_compute; reflexivity|vm_compute; discriminate].
Qed.
Print Assumptions C106_back_refuted.

(** And not with a hook that reads the value as a type and handles the failure. *)
Definition or_none : hook prog := MkHook true (fun _ _ => PPath (OpPrimitive TyInt) (fun x => match x with Ok v => PRet v | Exn _ => PRet (VInt 0) end)).
Definition tolerant (n : string) : field :=
  let o := named n (no_opts : fopts prog) in
  MkField (MkOpts (o_name o) (o_src o) (o_nullable o) (o_default o) (o_ignores o) (o_translations o) (o_tags o) (o_attach_parent o)
                  (o_compute o) (o_resolve o) (Some or_none) (o_munge o) (o_filter o) (o_validate o)) (KInteger None None).
Theorem C106_tolerant_refuted : exists t d s, nth_error (forms s) 0 = Some (t, []) /\ json_val d = true /\ mapping_context s /\
  let x := Form_map world0 9 0 (ASrc (SBase (BPlain (SJson d true None)))) [] true UIgnore Collect s in
  let y := Form_map world0 9 0 (ASrc (SBase (BPlain (SJson d false None)))) [] true UIgnore Collect s in
  fst x = Ok [] /\ fst y = Ok [] /\ forms (snd y) <> forms (snd x).
Proof.
  exists (FormTy "T" [tolerant "x"]), (jdict [("x", VStr "5")]), (snd (new_form (FormTy "T" [tolerant "x"]) init)).
  split; [reflexivity|]. split; [reflexivity|]. split; [repeat split; eexists; reflexivity|].
  split; [vm_compute; reflexivity|]. split; [vm_compute; reflexivity|vm_compute; discriminate].
Qed.
Print Assumptions C106_tolerant_refuted.
