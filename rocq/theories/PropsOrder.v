(** * Theorem C105: the order of the keys of a document. *)
From Verif Require Import PyBase PyStr Source Field Context Fields SpecSrc SpecField SpecForm SpecOrder Eval OrderProofs Demo.

(** Two JSON documents that differ in the order of keys only map alike: the same outcome,
    up to the text of the errors that show a refused mapping, and the same form objects,
    entry by entry and in the same order. *)
Theorem C105_order : forall W fuel items items' strict loc id t l tags reset u m s,
  json_val (VDict items) = true -> json_val (VDict items') = true -> reordered (VDict items) (VDict items') ->
  nth_error (forms s) id = Some (t, l) -> (forall f, In f (ft_fields t) -> orderless strict f) -> ignoring u -> mapping_context s ->
  let x := Form_map W fuel id (ASrc (SBase (BPlain (SJson (VDict items) strict loc)))) tags reset u m s in
  let y := Form_map W fuel id (ASrc (SBase (BPlain (SJson (VDict items') strict loc)))) tags reset u m s in
  same_outcome (fst x) (fst y) /\ forms (snd x) = forms (snd y).
Proof. exact C105_lem. Qed.
Print Assumptions C105_order.

(** The demo forms, read strictly, from a document and the same backwards. *)
Lemma orderless_fld n k : orderless_kind true k -> orderless true (fld n k).
Proof. intros K. constructor; [|exact K]. split; cbn; try discriminate; try reflexivity; try (now intros h Q). intros k0 [= <-]. exact I. Qed.
Lemma orderless_anon k : orderless_kind true k -> orderless true (anon k).
Proof. intros K. constructor; [|exact K]. split; cbn; try discriminate; try reflexivity; now intros h Q. Qed.
(** [ctx.errors.invalid('no')] if there is a list *)
Definition no_lists : prog :=
  PPath OpSequence (fun x => match x with Exn e => PRet (VBool true) | Ok _ => PInvalid (VioText "no") (fun x => match x with Ok _ => PRet (VBool false) | Exn e => PRaise e end) end).
Example C105_hook_case : orderless_hook (Some (MkHook true (fun _ _ => no_lists))).
Proof. intros h [= <-] t args. cbn. split; [exact I|]. intros [v|e]; cbn; [|exact I]. split; [now intros es|]. intros [w|e]; exact I. Qed.
Definition forwards : list (string * val) := [("a", VInt 1); ("l", VList [VInt 1; jdict [("p", VInt 0); ("q", VInt 0)]]); ("sub", jdict [("x", VStr "r"); ("y", VStr "z")])].
Definition backwards : list (string * val) := [("sub", jdict [("y", VStr "z"); ("x", VStr "r")]); ("l", VList [VInt 1; jdict [("q", VInt 0); ("p", VInt 0)]]); ("a", VInt 1)].
Lemma two_keys (a b : string) v w v' w' : String.eqb a b = false -> reordered v v' -> reordered w w' ->
  reordered (jdict [(a, v); (b, w)]) (jdict [(b, w'); (a, v')]).
Proof.
  intros N R S. assert (N' : String.eqb b a = false) by now rewrite String.eqb_sym.
  constructor; intros k x; unfold dict_get; cbn; destruct k; cbn; try discriminate.
  all: destruct (String.eqb_spec a s) as [A|A], (String.eqb_spec b s) as [B|B]; cbn; try discriminate; try (subst; rewrite String.eqb_refl in N; discriminate); intros [= <-]; eauto.
Qed.
Lemma backwards_reordered : reordered (jdict forwards) (jdict backwards).
Proof.
  assert (L : reordered (VList [VInt 1; jdict [("p", VInt 0); ("q", VInt 0)]]) (VList [VInt 1; jdict [("q", VInt 0); ("p", VInt 0)]]))
    by (apply ro_list; constructor; [constructor|]; constructor; [|constructor]; apply two_keys; (reflexivity || constructor)).
  assert (S : reordered (jdict [("x", VStr "r"); ("y", VStr "z")]) (jdict [("y", VStr "z"); ("x", VStr "r")]))
    by (apply two_keys; (reflexivity || constructor)).
  constructor; intros k x; unfold dict_get; destruct k; try (cbn; discriminate); cbn [map find fst snd py_eq option_map forwards backwards jdict].
  all: destruct (String.eqb_spec "a" s) as [<-|A]; [cbn; intros [= <-]; eexists; split; [reflexivity|constructor]|].
  all: destruct (String.eqb_spec "l" s) as [<-|B]; [cbn; intros [= <-]; eexists; split; [reflexivity|exact L]|].
  all: destruct (String.eqb_spec "sub" s) as [<-|C]; [cbn; intros [= <-]; eexists; split; [reflexivity|exact S]|].
  all: discriminate.
Qed.
Example C105_order_case :
  let s := snd (new_form Outer init) in
  (forall f, In f (ft_fields Outer) -> orderless true f) /\ mapping_context s /\ reordered (jdict forwards) (jdict backwards) /\
  json_val (jdict forwards) = true /\ json_val (jdict backwards) = true /\
  map (fun e => match e with MkErr _ p _ _ => p end) (match fst (Form_map world0 9 0 (ASrc (SBase (BPlain (SJson (jdict backwards) true None)))) [] true UIgnore Collect s) with Ok es => es | Exn _ => [] end)
    = ["l[1]"; "sub.x"].
Proof.
  split; [|split; [repeat split; eexists; reflexivity|split; [exact backwards_reordered|repeat split]]].
  intros f [<-|[<-|[<-|[]]]]; apply orderless_fld; constructor.
  - apply orderless_anon. constructor.
  - now left.
  - intros f [<-|[<-|[]]]; apply orderless_fld; now constructor.
Qed.

(** Where a mapping is shown as it is, the order shows: in a form that captures, the entries
    are in the order of the document. *)
Definition pair_of (x y : string) : val := jdict [(x, VInt 1); (y, VInt 2)].
Definition pair_of' (x y : string) : val := jdict [(y, VInt 2); (x, VInt 1)].
Theorem C105_capture_refuted : exists d d' s, reordered d d' /\ json_val d = true /\ json_val d' = true /\
  let x := Form_map world0 9 0 (ASrc (json d)) [] true UCapture Collect s in
  let y := Form_map world0 9 0 (ASrc (json d')) [] true UCapture Collect s in
  fst x = Ok [] /\ fst y = Ok [] /\ forms (snd x) <> forms (snd y).
Proof.
  exists (pair_of "b" "c"), (pair_of' "b" "c"), (snd (new_form (FormTy "T" []) init)).
  split; [apply two_keys; (reflexivity || constructor)|]. repeat split. vm_compute. discriminate.
Qed.
Print Assumptions C105_capture_refuted.

(** So it is with a Dict and with a field of no type, and with a String of a source that is not
    strict, which reads the mapping as the text Python writes it as. *)
Definition written : env := let E := env0 in {|
  py3 := true; e_attr := e_attr E; e_item := e_item E; e_call := e_call E; e_float := e_float E; e_dec := e_dec E;
  e_str := fun v => match v with VDict ((VStr k, _) :: _) => k | _ => "?" end;
  e_iso := e_iso E; e_strp := e_strp E; e_strptime_time := e_strptime_time E; e_uuid := e_uuid E; e_re := e_re E;
  e_compile := e_compile E; e_import := e_import E; e_shlex := e_shlex E; e_format := e_format E |}.
Theorem C105_shown_refuted : forall k, In k [KAny; KString no_strc; KDict (anon (KString no_strc)) (anon (KInteger None None)) None [] None] ->
  exists W d d' s, reordered d d' /\ json_val d = true /\ json_val d' = true /\ nth_error (forms s) 0 = Some (FormTy "T" [fld "x" k], []) /\
  let x := Form_map W 9 0 (ASrc (json d)) [] true UIgnore Collect s in
  let y := Form_map W 9 0 (ASrc (json d')) [] true UIgnore Collect s in
  fst x = Ok [] /\ fst y = Ok [] /\ forms (snd x) <> forms (snd y).
Proof.
  intros k K. exists (MkWorld written (fun _ => None)), (jdict [("w", VInt 0); ("x", pair_of "b" "c")]), (jdict [("x", pair_of' "b" "c"); ("w", VInt 0)]), (snd (new_form (FormTy "T" [fld "x" k]) init)).
  split; [apply two_keys; [reflexivity|constructor|apply two_keys; (reflexivity || constructor)]|].
  destruct K as [<-|[<-|[<-|[]]]]; repeat split; vm_compute; discriminate.
Qed.
Print Assumptions C105_shown_refuted.
