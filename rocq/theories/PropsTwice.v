(** * Theorems C38 and C47: flat sub-forms; mapping the same source twice. *)
From Coq Require Import Lia.
From Verif Require Import PyBase PyStr Source Field Context Fields SpecSrc SpecJson Eval Refine Regime SpecTame AgainProofs TwiceProofs FlatProofs StopProofs Demo PropsEval.

(** C47. Mapping a JSON document into a form again: the same report, and every form object
    is as the first mapping left it. *)
Theorem C47_json_remap_partial : forall W fuel d doc strict loc id t l tags reset u s,
  json_val doc = true -> nth_error (forms s) id = Some (t, l) -> tame_form d t ->
  (u = UIgnore \/ u = UCapture /\ reset = false) -> mapping_context s ->
  let again := Form_map W fuel id (ASrc (SBase (BPlain (SJson doc strict loc)))) tags reset u Collect in
  let x := again s in
  let y := again (snd x) in
  same_report (fst x) (fst y) /\ forms (snd y) = forms (snd x).
Proof. exact C47_json_lem. Qed.
Print Assumptions C47_json_remap_partial.

(** Native data *)
Theorem C47_native_remap_partial : forall W fuel P d doc loc id t l tags reset u s,
  plain_native (w_env W) P -> P doc -> nth_error (forms s) id = Some (t, l) -> tame_form d t ->
  (u = UIgnore \/ u = UCapture /\ reset = false) -> mapping_context s ->
  let again := Form_map W fuel id (ASrc (SBase (BPlain (SDefault doc [] [] loc)))) tags reset u Collect in
  let x := again s in
  let y := again (snd x) in
  same_report (fst x) (fst y) /\ forms (snd y) = forms (snd x).
Proof. exact C47_native_lem. Qed.
Print Assumptions C47_native_remap_partial.

(** A configuration *)
Theorem C47_config_remap_partial : forall W fuel cfg sec dd d loc id t l tags reset u s,
  config_given cfg sec dd -> nth_error (forms s) id = Some (t, l) -> tame_form d t ->
  (u = UIgnore \/ u = UCapture /\ reset = false) -> mapping_context s ->
  let again := Form_map W fuel id (ASrc (SBase (BPlain (SConfig cfg sec dd loc)))) tags reset u Collect in
  let x := again s in
  let y := again (snd x) in
  same_report (fst x) (fst y) /\ forms (snd y) = forms (snd x).
Proof. exact C47_config_lem. Qed.
Print Assumptions C47_config_remap_partial.

(** Where errors are raised: the same exception again, or none; and the forms are as they were
    left by the first mapping, also when that was stopped by an error. *)
Theorem C47_json_raise_partial : forall W fuel d doc strict loc id t l tags reset s,
  json_val doc = true -> nth_error (forms s) id = Some (t, l) -> tame_form d t -> mapping_context s ->
  let again := Form_map W fuel id (ASrc (SBase (BPlain (SJson doc strict loc)))) tags reset UIgnore Raise in
  let x := again s in
  let y := again (snd x) in
  same_raised (fst x) (fst y) /\ forms (snd y) = forms (snd x).
Proof. exact C47_json_raise_lem. Qed.
Print Assumptions C47_json_raise_partial.
Theorem C47_native_raise_partial : forall W fuel P d doc loc id t l tags reset s,
  plain_native (w_env W) P -> P doc -> nth_error (forms s) id = Some (t, l) -> tame_form d t -> mapping_context s ->
  let again := Form_map W fuel id (ASrc (SBase (BPlain (SDefault doc [] [] loc)))) tags reset UIgnore Raise in
  let x := again s in
  let y := again (snd x) in
  same_raised (fst x) (fst y) /\ forms (snd y) = forms (snd x).
Proof. exact C47_native_raise_lem. Qed.
Print Assumptions C47_native_raise_partial.
Theorem C47_config_raise_partial : forall W fuel cfg sec dd d loc id t l tags reset s,
  config_given cfg sec dd -> nth_error (forms s) id = Some (t, l) -> tame_form d t -> mapping_context s ->
  let again := Form_map W fuel id (ASrc (SBase (BPlain (SConfig cfg sec dd loc)))) tags reset UIgnore Raise in
  let x := again s in
  let y := again (snd x) in
  same_raised (fst x) (fst y) /\ forms (snd y) = forms (snd x).
Proof. exact C47_config_raise_lem. Qed.
Print Assumptions C47_config_raise_partial.

(** Where errors are raised and unmapped keys may be captured: a mapping that raised nothing
    raises nothing again, and changes nothing. *)
Theorem C47_succeeds_partial : forall W fuel d a id t l tags reset u s es,
  plain_data W a -> nth_error (forms s) id = Some (t, l) -> tame_form d t ->
  (u = UIgnore \/ u = UCapture /\ reset = false) -> mapping_context s ->
  let again := Form_map W fuel id a tags reset u Raise in
  fst (again s) = Ok es -> fst (again (snd (again s))) = Ok [] /\ forms (snd (again (snd (again s)))) = forms (snd (again s)).
Proof. exact C47_succeeds_lem. Qed.
Print Assumptions C47_succeeds_partial.

(** A form with a list, a default and a required field, on a document that has errors and
    unmapped keys. *)
Definition Tame1 : formty :=
  FormTy "Tame1" [fld "a" (KInteger None None);
                  fld "l" (KList (anon (KInteger None None)) None None false);
                  with_default (VInt 7) (fld "n" (KInteger None None))].
Lemma tame_fld n k d : tame (S d) (anon k) -> tame (S d) (fld n k).
Proof. intros [_ K]. split; [|exact K]. split; cbn; try reflexivity; try easy. now intros k0 [= <-]. Qed.
Lemma tame_Tame1 : tame_form 2 Tame1.
Proof.
  assert (N : tame_opts no_opts) by (split; cbn; try reflexivity; easy).
  intros f [<-|[<-|[<-|[]]]].
  - apply tame_fld. now split.
  - apply tame_fld. split; [exact N|]. now split.
  - split; [|exact I]. split; cbn; try reflexivity; try easy. now intros k0 [= <-].
Qed.
Definition tame_doc : val := jdict [("l", VList [VInt 1; VStr "q"; VInt 3]); ("z", VInt 9)].
Example C47_case :
  let s := snd (new_form Tame1 init) in
  json_val tame_doc = true /\ nth_error (forms s) 0 = Some (Tame1, []) /\ tame_form 2 Tame1 /\ mapping_context s /\
  let x := Form_map world0 9 0 (ASrc (json tame_doc)) [] false UCapture Collect s in
  (exists e1 e2, fst x = Ok [e1; e2]) /\
  nth_error (forms (snd x)) 0 = Some (Tame1, [(VStr "l", VList [VInt 1; VInt 3]); (VStr "n", VInt 7); (VStr "z", VInt 9)]).
Proof.
  split; [reflexivity|]. split; [reflexivity|]. split; [exact tame_Tame1|]. split; [repeat split; eexists; reflexivity|].
  split; [do 2 eexists; vm_compute; reflexivity|vm_compute; reflexivity].
Qed.
(** In raise mode the list stops it with two errors: that of the element and that of the list. *)
Example C47_raise_case :
  let s := snd (new_form Tame1 init) in
  let doc := jdict [("a", VInt 1); ("l", VList [VInt 1; VStr "q"; VInt 3])] in
  json_val doc = true /\ nth_error (forms s) 0 = Some (Tame1, []) /\ tame_form 2 Tame1 /\ mapping_context s /\
  let x := Form_map world0 9 0 (ASrc (json doc)) [] false UIgnore Raise s in
  (exists e1 e2, fst x = Exn (EForm [e1; e2])) /\ nth_error (forms (snd x)) 0 = Some (Tame1, [(VStr "a", VInt 1)]).
Proof.
  split; [reflexivity|]. split; [reflexivity|]. split; [exact tame_Tame1|]. split; [repeat split; eexists; reflexivity|].
  split; [do 2 eexists; vm_compute; reflexivity|vm_compute; reflexivity].
Qed.
Example C47_succeeds_case :
  let s := snd (new_form Tame1 init) in
  let doc := jdict [("a", VInt 1); ("l", VList [VInt 1]); ("z", VInt 9)] in
  plain_data world0 (ASrc (json doc)) /\ nth_error (forms s) 0 = Some (Tame1, []) /\ tame_form 2 Tame1 /\ mapping_context s /\
  let x := Form_map world0 9 0 (ASrc (json doc)) [] false UCapture Raise s in
  fst x = Ok [] /\ nth_error (forms (snd x)) 0 = Some (Tame1, [(VStr "a", VInt 1); (VStr "l", VList [VInt 1]); (VStr "n", VInt 7); (VStr "z", VInt 9)]).
Proof.
  split; [constructor; reflexivity|]. split; [reflexivity|]. split; [exact tame_Tame1|]. split; [repeat split; eexists; reflexivity|].
  split; [vm_compute; reflexivity|vm_compute; reflexivity].
Qed.
Example C47_native_case :
  let s := snd (new_form Tame1 init) in
  plain_native (w_env world0) (fun v => tidy v = true) /\ tidy tame_doc = true /\ tame_form 2 Tame1 /\
  let x := Form_map world0 9 0 (ASrc (SBase (BPlain (SDefault tame_doc [] [] None)))) [] true UIgnore Collect s in
  (exists e1 e2, fst x = Ok [e1; e2]).
Proof.
  split; [exact tidy_native|]. split; [reflexivity|]. split; [exact tame_Tame1|].
  do 2 eexists; vm_compute; reflexivity.
Qed.

Example C47_config_case :
  let s := snd (new_form Tame1 init) in
  config_given app_cfg (Some "app") (VDict []) /\ tame_form 2 Tame1 /\ mapping_context s /\
  let src := ASrc (SBase (BPlain (SConfig app_cfg (Some "app") (VDict []) None))) in
  let x := Form_map world2 9 0 src [] false UCapture Collect s in
  fst x = Ok [] /\
  nth_error (forms (snd x)) 0 = Some (Tame1, [(VStr "a", VInt 5); (VStr "l", VList [VInt 1]); (VStr "n", VInt 7); (VStr "sub", VDict [(VStr "x", VStr "3"); (VStr "y", VStr "z")]); (VStr "sub[x]", VStr "3"); (VStr "sub[y]", VStr "z")]).
Proof.
  split; [split; [reflexivity|split; discriminate]|]. split; [exact tame_Tame1|]. split; [repeat split; eexists; reflexivity|].
  split; vm_compute; reflexivity.
Qed.

(** Not so when unmapped keys are mapped by a pair of fields whose key field translates one
    key into another: the second mapping finds the keys of the first in the form. *)
Definition Empty : formty := FormTy "Empty" [].
Definition renames : field := MkField (MkOpts None None true (DUnset None) [] [(VStr "a", VStr "b")] [] false None None None None None None) (KString no_strc).
Theorem C47_pair_refuted : exists doc kf vf s,
  json_val doc = true /\ tame 1 kf /\ tame 1 vf /\ nth_error (forms s) 0 = Some (Empty, []) /\ mapping_context s /\
  let again := Form_map world0 9 0 (ASrc (json doc)) [] false (UPair kf vf) Collect in
  let x := again s in
  let y := again (snd x) in
  fst x = Ok [] /\ fst y = Ok [] /\ forms (snd x) = [(Empty, [(VStr "b", VInt 2)])] /\ forms (snd y) = [(Empty, [(VStr "b", VInt 1)])].
Proof.
  exists (jdict [("a", VInt 1); ("b", VInt 2)]), renames, (anon KAny), (snd (new_form Empty init)).
  split; [reflexivity|]. split.
  { split; [|exact I]. split; cbn; try reflexivity; try easy. intros k i [[=]|[]]. }
  split. { split; [|exact I]. split; cbn; try reflexivity; easy. }
  split; [reflexivity|]. split; [repeat split; eexists; reflexivity|].
  vm_compute. auto.
Qed.
Print Assumptions C47_pair_refuted.

(** C38. A form [pre, f, post] whose field [f] is [SubForm(t, flat=True)], and the form
    [pre, *t.fields, post]: if the second maps the document with the errors [es], the first
    does too; the sub-form object holds what the second form holds for the fields of [t], and
    the form holds the rest. *)
Theorem C38_json_flat_partial : forall W fuel d doc strict loc f t pre post n1 n2 id1 id2 s es,
  json_val doc = true -> (S d <= fuel)%nat -> id1 <> id2 ->
  flat_sub f t -> tame_form d t -> (forall g, In g pre \/ In g post -> tame d g) ->
  nth_error (forms s) id1 = Some (FormTy n1 (pre ++ f :: post), []) ->
  nth_error (forms s) id2 = Some (FormTy n2 (pre ++ ft_fields t ++ post), []) ->
  selected (tags_seen (lookup "tags" (stk s))) f = true -> mapping_context s ->
  let src := ASrc (SBase (BPlain (SJson doc strict loc))) in
  let x := Form_map W fuel id1 src [] false UIgnore Collect s in
  let y := Form_map W fuel id2 src [] false UIgnore Collect s in
  fst y = Ok es ->
  fst x = Ok es /\
  exists l l1 l2, nth_error (forms (snd x)) (length (forms s)) = Some (t, l) /\
    nth_error (forms (snd x)) id1 = Some (FormTy n1 (pre ++ f :: post), l1) /\
    nth_error (forms (snd y)) id2 = Some (FormTy n2 (pre ++ ft_fields t ++ post), l2) /\
    (forall a, ~ has_name pre a -> ~ has_name post a -> dict_get l2 (VStr a) = dict_get l (VStr a)) /\
    (forall a, ~ has_name (ft_fields t) a -> a <> fname f -> dict_get l2 (VStr a) = dict_get l1 (VStr a)) /\
    (es = [] -> ~ has_name post (fname f) -> dict_get l1 (VStr (fname f)) = Some (VForm (length (forms s)))).
Proof. exact C38_json_lem. Qed.
Print Assumptions C38_json_flat_partial.

Theorem C38_native_flat_partial : forall W fuel P d doc loc f t pre post n1 n2 id1 id2 s es,
  plain_native (w_env W) P -> P doc -> (S d <= fuel)%nat -> id1 <> id2 ->
  flat_sub f t -> tame_form d t -> (forall g, In g pre \/ In g post -> tame d g) ->
  nth_error (forms s) id1 = Some (FormTy n1 (pre ++ f :: post), []) ->
  nth_error (forms s) id2 = Some (FormTy n2 (pre ++ ft_fields t ++ post), []) ->
  selected (tags_seen (lookup "tags" (stk s))) f = true -> mapping_context s ->
  let src := ASrc (SBase (BPlain (SDefault doc [] [] loc))) in
  let x := Form_map W fuel id1 src [] false UIgnore Collect s in
  let y := Form_map W fuel id2 src [] false UIgnore Collect s in
  fst y = Ok es ->
  fst x = Ok es /\
  exists l l1 l2, nth_error (forms (snd x)) (length (forms s)) = Some (t, l) /\
    nth_error (forms (snd x)) id1 = Some (FormTy n1 (pre ++ f :: post), l1) /\
    nth_error (forms (snd y)) id2 = Some (FormTy n2 (pre ++ ft_fields t ++ post), l2) /\
    (forall a, ~ has_name pre a -> ~ has_name post a -> dict_get l2 (VStr a) = dict_get l (VStr a)) /\
    (forall a, ~ has_name (ft_fields t) a -> a <> fname f -> dict_get l2 (VStr a) = dict_get l1 (VStr a)) /\
    (es = [] -> ~ has_name post (fname f) -> dict_get l1 (VStr (fname f)) = Some (VForm (length (forms s)))).
Proof. exact C38_native_lem. Qed.
Print Assumptions C38_native_flat_partial.

Theorem C38_config_flat_partial : forall W fuel d cfg sec dd loc f t pre post n1 n2 id1 id2 s es,
  config_given cfg sec dd -> (S d <= fuel)%nat -> id1 <> id2 ->
  flat_sub f t -> tame_form d t -> (forall g, In g pre \/ In g post -> tame d g) ->
  nth_error (forms s) id1 = Some (FormTy n1 (pre ++ f :: post), []) ->
  nth_error (forms s) id2 = Some (FormTy n2 (pre ++ ft_fields t ++ post), []) ->
  selected (tags_seen (lookup "tags" (stk s))) f = true -> mapping_context s ->
  let src := ASrc (SBase (BPlain (SConfig cfg sec dd loc))) in
  let x := Form_map W fuel id1 src [] false UIgnore Collect s in
  let y := Form_map W fuel id2 src [] false UIgnore Collect s in
  fst y = Ok es ->
  fst x = Ok es /\
  exists l l1 l2, nth_error (forms (snd x)) (length (forms s)) = Some (t, l) /\
    nth_error (forms (snd x)) id1 = Some (FormTy n1 (pre ++ f :: post), l1) /\
    nth_error (forms (snd y)) id2 = Some (FormTy n2 (pre ++ ft_fields t ++ post), l2) /\
    (forall a, ~ has_name pre a -> ~ has_name post a -> dict_get l2 (VStr a) = dict_get l (VStr a)) /\
    (forall a, ~ has_name (ft_fields t) a -> a <> fname f -> dict_get l2 (VStr a) = dict_get l1 (VStr a)) /\
    (es = [] -> ~ has_name post (fname f) -> dict_get l1 (VStr (fname f)) = Some (VForm (length (forms s)))).
Proof. exact C38_config_lem. Qed.
Print Assumptions C38_config_flat_partial.

(** Where errors are raised: if the inlined form maps the data without one, so does the form
    with the flat sub-form, to the same values. *)
Theorem C38_raise_partial : forall W fuel d a f t pre post n1 n2 id1 id2 s es,
  plain_data W a -> (S d <= fuel)%nat -> id1 <> id2 ->
  flat_sub f t -> tame_form d t -> (forall g, In g pre \/ In g post -> tame d g) ->
  nth_error (forms s) id1 = Some (FormTy n1 (pre ++ f :: post), []) ->
  nth_error (forms s) id2 = Some (FormTy n2 (pre ++ ft_fields t ++ post), []) ->
  selected (tags_seen (lookup "tags" (stk s))) f = true -> mapping_context s ->
  let x := Form_map W fuel id1 a [] false UIgnore Raise s in
  let y := Form_map W fuel id2 a [] false UIgnore Raise s in
  fst y = Ok es ->
  fst x = Ok [] /\
  exists l l1 l2, nth_error (forms (snd x)) (length (forms s)) = Some (t, l) /\
    nth_error (forms (snd x)) id1 = Some (FormTy n1 (pre ++ f :: post), l1) /\
    nth_error (forms (snd y)) id2 = Some (FormTy n2 (pre ++ ft_fields t ++ post), l2) /\
    (forall a, ~ has_name pre a -> ~ has_name post a -> dict_get l2 (VStr a) = dict_get l (VStr a)) /\
    (forall a, ~ has_name (ft_fields t) a -> a <> fname f -> dict_get l2 (VStr a) = dict_get l1 (VStr a)) /\
    (~ has_name post (fname f) -> dict_get l1 (VStr (fname f)) = Some (VForm (length (forms s)))).
Proof. exact C38_raise_lem. Qed.
Print Assumptions C38_raise_partial.

(** If there are errors, both raise a [FormError] that begins with the same error. *)
Theorem C38_raise_fails_partial : forall W fuel d a f t pre post n1 n2 id1 id2 s e es,
  plain_data W a -> (S d <= fuel)%nat -> id1 <> id2 ->
  flat_sub f t -> tame_form d t -> (forall g, In g pre \/ In g post -> tame d g) ->
  nth_error (forms s) id1 = Some (FormTy n1 (pre ++ f :: post), []) ->
  nth_error (forms s) id2 = Some (FormTy n2 (pre ++ ft_fields t ++ post), []) ->
  selected (tags_seen (lookup "tags" (stk s))) f = true -> mapping_context s ->
  fst (Form_map W fuel id2 a [] false UIgnore Collect s) = Ok (e :: es) ->
  exists es1 es2,
    fst (Form_map W fuel id1 a [] false UIgnore Raise s) = Exn (EForm (e :: es1)) /\
    fst (Form_map W fuel id2 a [] false UIgnore Raise s) = Exn (EForm (e :: es2)).
Proof. exact C38_fails_lem. Qed.
Print Assumptions C38_raise_fails_partial.

(** [class Flat(Form): p = Integer(); sub = SubForm(Tame1, flat=True); q = String()] *)
Definition flat_field : field :=
  MkField (MkOpts (Some "sub") None true (DUnset None) [] [] [] false None None None None None None) (KSubForm Tame1 false UIgnore).
Definition Flat1 : formty := FormTy "Flat" [fld "p" (KInteger None None); flat_field; fld "q" (KString no_strc)].
Definition Inline1 : formty := FormTy "Inline" ([fld "p" (KInteger None None)] ++ ft_fields Tame1 ++ [fld "q" (KString no_strc)]).
Definition flat_doc : val := jdict [("p", VInt 1); ("a", VInt 4); ("l", VList [VInt 1]); ("q", VStr "x")].
Example C38_case :
  let s := snd ((_ <- new_form Flat1; new_form Inline1) init) in
  flat_sub flat_field Tame1 /\ tame_form 2 Tame1 /\ tame 2 (fld "p" (KInteger None None)) /\ tame 2 (fld "q" (KString no_strc)) /\
  selected (tags_seen (lookup "tags" (stk s))) flat_field = true /\ mapping_context s /\
  (exists e1 e2 e3 e4, fst (Form_map world0 9 1 (ASrc (json tame_doc)) [] false UIgnore Collect s) = Ok [e1; e2; e3; e4]) /\
  fst (Form_map world0 9 1 (ASrc (json flat_doc)) [] false UIgnore Collect s) = Ok [] /\
  forms (snd (Form_map world0 9 0 (ASrc (json flat_doc)) [] false UIgnore Collect s)) =
    [(Flat1, [(VStr "p", VInt 1); (VStr "sub", VForm 2); (VStr "q", VStr "x")]); (Inline1, []);
     (Tame1, [(VStr "a", VInt 4); (VStr "l", VList [VInt 1]); (VStr "n", VInt 7)])].
Proof.
  assert (N : tame_opts no_opts) by (split; cbn; try reflexivity; easy).
  split. { unfold flat_sub. do 4 eexists. reflexivity. }
  split; [exact tame_Tame1|].
  split; [apply tame_fld; now split|]. split; [apply tame_fld; now split|].
  split; [reflexivity|]. split; [repeat split; eexists; reflexivity|].
  split; [do 4 eexists; vm_compute; reflexivity|]. split; vm_compute; reflexivity.
Qed.

(** Not so with hooks: a [ValueError] that a validate hook raises leaves the mapping of the
    inlined form, but the flat sub-form's field reports it. *)
Definition raising : field :=
  MkField (MkOpts (Some "a") (Some (KStr "a")) true (DUnset None) [] [] [] false None None None None None
                  (Some (MkHook false (fun _ _ => PRaise (EValue "no"))))) (KInteger None None).
Definition Raising : formty := FormTy "Raising" [raising].
Definition flat_of (t : formty) : field :=
  MkField (MkOpts (Some "sub") None true (DUnset None) [] [] [] false None None None None None None) (KSubForm t false UIgnore).
Theorem C38_hooks_refuted : exists doc s n1 n2,
  json_val doc = true /\ flat_sub (flat_of Raising) Raising /\ mapping_context s /\
  forms s = [(FormTy n1 [flat_of Raising], []); (FormTy n2 (ft_fields Raising), [])] /\
  fst (Form_map world0 9 1 (ASrc (json doc)) [] false UIgnore Collect s) = Exn (EValue "no") /\
  match fst (Form_map world0 9 0 (ASrc (json doc)) [] false UIgnore Collect s) with
  | Ok es => map said es = [(Invalid (VioExn (EValue "no")), "", Some "sub")]
  | Exn _ => False
  end.
Proof.
  exists (jdict [("a", VInt 1)]), (snd ((_ <- new_form (FormTy "Flat" [flat_of Raising]); new_form (FormTy "Inline" (ft_fields Raising))) init)), "Flat", "Inline".
  split; [reflexivity|]. split; [unfold flat_sub; do 4 eexists; reflexivity|]. split; [repeat split; eexists; reflexivity|].
  vm_compute. auto.
Qed.
Print Assumptions C38_hooks_refuted.

Example C38_raise_case :
  let s := snd ((_ <- new_form Flat1; new_form Inline1) init) in
  plain_data world0 (ASrc (json flat_doc)) /\ mapping_context s /\
  fst (Form_map world0 9 1 (ASrc (json flat_doc)) [] false UIgnore Raise s) = Ok [].
Proof.
  split; [constructor; reflexivity|]. split; [repeat split; eexists; reflexivity|]. vm_compute. reflexivity.
Qed.
(** But not the same ones: the field of the flat sub-form maps its form in collect mode
    (fields.py:1345), so all the errors in it are raised together at the end. *)
Theorem C38_raise_refuted : exists doc s n1 n2 t e1 e2,
  json_val doc = true /\ flat_sub (flat_of t) t /\ tame_form 1 t /\ mapping_context s /\
  forms s = [(FormTy n1 [flat_of t], []); (FormTy n2 (ft_fields t), [])] /\
  fst (Form_map world0 9 1 (ASrc (json doc)) [] false UIgnore Raise s) = Exn (EForm [e1]) /\
  fst (Form_map world0 9 0 (ASrc (json doc)) [] false UIgnore Raise s) = Exn (EForm [e1; e2]).
Proof.
  set (t := FormTy "Two" [fld "a" (KInteger None None); fld "b" (KInteger None None)]).
  exists (jdict []), (snd ((_ <- new_form (FormTy "Flat" [flat_of t]); new_form (FormTy "Inline" (ft_fields t))) init)), "Flat", "Inline", t.
  eexists _, _.
  split; [reflexivity|]. split; [unfold flat_sub; do 4 eexists; reflexivity|].
  split. { intros g [<-|[<-|[]]]; (split; [|exact I]); split; cbn; try reflexivity; try easy; now intros k0 [= <-]. }
  split; [repeat split; eexists; reflexivity|]. split; [reflexivity|].
  split; [vm_compute; reflexivity|vm_compute; reflexivity].
Qed.
Print Assumptions C38_raise_refuted.

(** Nor with a [tags] argument: [form.map(src, tags=...)] selects among the form's own fields
    only, the fields of a sub-form see [ctx.tags]. *)
Definition Labelled : formty := FormTy "Labelled" [with_tags ["t"] (fld "a" (KInteger None None)); with_tags ["u"] (fld "b" (KInteger None None))].
Theorem C38_tags_refuted : exists doc s n1 n2 f,
  json_val doc = true /\ flat_sub f Labelled /\ mapping_context s /\ selected ["t"] f = true /\ tame_form 1 Labelled /\
  forms s = [(FormTy n1 [f], []); (FormTy n2 (ft_fields Labelled), [])] /\
  forms (snd (Form_map world0 9 1 (ASrc (json doc)) ["t"] false UIgnore Collect s)) =
    [(FormTy n1 [f], []); (FormTy n2 (ft_fields Labelled), [(VStr "a", VInt 1)])] /\
  forms (snd (Form_map world0 9 0 (ASrc (json doc)) ["t"] false UIgnore Collect s)) =
    [(FormTy n1 [f], [(VStr "sub", VForm 2)]); (FormTy n2 (ft_fields Labelled), []);
     (Labelled, [(VStr "a", VInt 1); (VStr "b", VInt 2)])].
Proof.
  set (f := with_tags ["t"] (flat_of Labelled)).
  exists (jdict [("a", VInt 1); ("b", VInt 2)]), (snd ((_ <- new_form (FormTy "Flat" [f]); new_form (FormTy "Inline" (ft_fields Labelled))) init)), "Flat", "Inline", f.
  split; [reflexivity|]. split; [unfold flat_sub; do 4 eexists; reflexivity|]. split; [repeat split; eexists; reflexivity|].
  split; [reflexivity|]. split.
  { intros g [<-|[<-|[]]]; (split; [|exact I]); split; cbn; try reflexivity; try easy; now intros k0 [= <-]. }
  vm_compute. auto.
Qed.
Print Assumptions C38_tags_refuted.
