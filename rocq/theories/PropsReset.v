(** * Theorems C47, continued: mapping the same source twice where unmapped keys are captured
    and fields are reset, and where capturing raises. *)
From Coq Require Import Lia Permutation.
From Verif Require Import PyBase PyStr Source Field Context Fields SpecSrc SpecJson Eval Refine Regime SpecTame SpecReset ResetProofs Demo PropsEval PropsTwice.

(** With [unmapped='capture', reset=True]: the same report, and the same entries again; those
    of the fields have moved behind the captured ones. *)
Theorem C47_reset_capture_partial : forall W fuel d a id t l tags s,
  plain_data W a -> nth_error (forms s) id = Some (t, l) -> tame_form d t -> mapping_context s ->
  let again := Form_map W fuel id a tags true UCapture Collect in
  let x := again s in
  let y := again (snd x) in
  same_report (fst x) (fst y) /\ reordered id (forms (snd x)) (forms (snd y)).
Proof. exact C47_reset_capture_lem. Qed.
Print Assumptions C47_reset_capture_partial.

(** With [unmapped='capture'] where errors are raised: the
    same exception again, or none; the same entries, in the same order too unless the mapping
    succeeded and fields were reset. *)
Theorem C47_raise_capture_partial : forall W fuel d a id t l tags reset s,
  plain_data W a -> nth_error (forms s) id = Some (t, l) -> tame_form d t -> mapping_context s ->
  let again := Form_map W fuel id a tags reset UCapture Raise in
  let x := again s in
  let y := again (snd x) in
  same_raised (fst x) (fst y) /\ reordered id (forms (snd x)) (forms (snd y)) /\
  (reset = false \/ (exists e, fst x = Exn e) -> forms (snd y) = forms (snd x)).
Proof. exact C47_raise_capture_lem. Qed.
Print Assumptions C47_raise_capture_partial.

(** The order of the entries is not kept then. *)
Theorem C47_reset_order_refuted : exists d doc t s,
  json_val doc = true /\ tame_form d t /\ nth_error (forms s) 0 = Some (t, []) /\ mapping_context s /\
  let again := Form_map world0 9 0 (ASrc (json doc)) [] true UCapture Collect in
  let x := again s in
  let y := again (snd x) in
  fst x = Ok [] /\ fst y = Ok [] /\
  nth_error (forms (snd x)) 0 = Some (t, [(VStr "a", VInt 1); (VStr "l", VList [VInt 1]); (VStr "n", VInt 7); (VStr "z", VInt 9)]) /\
  nth_error (forms (snd y)) 0 = Some (t, [(VStr "z", VInt 9); (VStr "a", VInt 1); (VStr "l", VList [VInt 1]); (VStr "n", VInt 7)]).
Proof.
  exists 2%nat, (jdict [("a", VInt 1); ("l", VList [VInt 1]); ("z", VInt 9)]), Tame1, (snd (new_form Tame1 init)).
  split; [reflexivity|]. split; [exact tame_Tame1|]. split; [reflexivity|]. split; [repeat split; eexists; reflexivity|].
  vm_compute. auto.
Qed.
Print Assumptions C47_reset_order_refuted.

(** A field that fails is captured as it came, both times: [a] is dropped and captured again. *)
Example C47_reset_case :
  let s := snd (new_form Tame1 init) in
  let doc := jdict [("a", VStr "q"); ("l", VList [VInt 1]); ("z", VInt 9)] in
  plain_data world0 (ASrc (json doc)) /\ tame_form 2 Tame1 /\ mapping_context s /\
  let again := Form_map world0 9 0 (ASrc (json doc)) [] true UCapture Collect in
  let x := again s in
  let y := again (snd x) in
  (exists e, fst x = Ok [e]) /\
  nth_error (forms (snd x)) 0 = Some (Tame1, [(VStr "l", VList [VInt 1]); (VStr "n", VInt 7); (VStr "a", VStr "q"); (VStr "z", VInt 9)]) /\
  nth_error (forms (snd y)) 0 = Some (Tame1, [(VStr "z", VInt 9); (VStr "l", VList [VInt 1]); (VStr "n", VInt 7); (VStr "a", VStr "q")]).
Proof.
  split; [constructor; reflexivity|]. split; [exact tame_Tame1|]. split; [repeat split; eexists; reflexivity|].
  split; [eexists; vm_compute; reflexivity|]. vm_compute. auto.
Qed.
(** A field raises before anything is captured: the entries so far stay, twice. *)
Example C47_raise_capture_case :
  let s := snd (new_form Tame1 init) in
  let doc := jdict [("a", VInt 1); ("l", VList [VStr "q"]); ("z", VInt 9)] in
  plain_data world0 (ASrc (json doc)) /\ tame_form 2 Tame1 /\ mapping_context s /\
  let again := Form_map world0 9 0 (ASrc (json doc)) [] true UCapture Raise in
  let x := again s in
  (exists es, fst x = Exn (EForm es)) /\
  nth_error (forms (snd x)) 0 = Some (Tame1, [(VStr "a", VInt 1)]).
Proof.
  split; [constructor; reflexivity|]. split; [exact tame_Tame1|]. split; [repeat split; eexists; reflexivity|].
  split; [eexists; vm_compute; reflexivity|]. vm_compute. auto.
Qed.
