(** * Theorems C54, C55, C56, C66, C67: form classes, type tables, hooks and clones. *)
From Coq Require Import Sorted Lia.
From Verif Require Import PyBase PyStr Source Field Context Fields Demo Meta SpecMeta SpecCtx SpecPoly Eval PropsEval SpecField PropsField MetaProofs LineProofs MetaLemmas BuiltProofs PolyProofs.
From Verif Require SpecChain CloneProofs.

(** C54: the fields of a new class are the fields visible as its attributes, each once,
    sorted by creation count — any bases, any method resolution order. *)
Theorem C54_fields : forall s bases mro dict, built s -> (forall b, In b mro -> (b < length (m_classes s))%nat) ->
  let c := length (m_classes s) in let s' := define_class bases mro dict s in
  NoDup (fields_of s' c) /\
  (forall f, In f (fields_of s' c) <-> exists n, class_attr s' c n = Some (MField f)) /\
  StronglySorted (fun a b => (count_of s' a <= count_of s' b)%nat) (fields_of s' c).
Proof. exact B54_fields. Qed.
Print Assumptions C54_fields.
(** A field written in the class takes the place of the nearest base's field of that name. *)
Theorem C54_override : forall s bases mro dict n f o, built s -> (forall b, In b mro -> (b < length (m_classes s))%nat) ->
  let s' := define_class bases mro dict s in
  nth_error (m_fields s) f = Some o -> fo_parent o = None -> alookup dict n = Some (MField f) ->
  (forall m, alookup dict m = Some (MField f) -> m = n) ->
  name_of s' f = Some n /\
  (forall g, nearest s mro n g -> count_of s' f = count_of s g) /\
  ((forall b g, In b mro -> class_attr s b n <> Some (MField g)) -> count_of s' f = count_of s f).
Proof. exact B54_override. Qed.
Print Assumptions C54_override.
(** A field of a new name, created after the bases' fields, comes after every inherited one. *)
Theorem C54_new_after : forall s bases mro dict n f o b m g, built s -> (forall b, In b mro -> (b < length (m_classes s))%nat) ->
  let s' := define_class bases mro dict s in
  nth_error (m_fields s) f = Some o -> fo_parent o = None -> alookup dict n = Some (MField f) ->
  (forall m, alookup dict m = Some (MField f) -> m = n) ->
  (forall b h, In b mro -> class_attr s b n <> Some (MField h)) ->
  (forall b m h, In b mro -> class_attr s b m = Some (MField h) -> (count_of s h < fo_count o)%nat) ->
  In b mro -> class_attr s b m = Some (MField g) -> In g (fields_of s' (length (m_classes s))) ->
  before g f (fields_of s' (length (m_classes s))).
Proof. exact B54_new. Qed.
Print Assumptions C54_new_after.
(** Along a line of classes, each the base of the next, the names of the last one's fields
    are exactly the names in order of first declaration, without those last said not to be fields. *)
Theorem C54_line : forall bodies : list body, bodies <> [] -> Forall (fun b : body => NoDup (map fst b)) bodies ->
  map (name_of (line bodies)) (fields_of (line bodies) (length bodies - 1)) = map Some (expected_names bodies).
Proof. exact C54_line_lem. Qed.
Print Assumptions C54_line.
Example C54_line_case :
  let bodies := [[("b", DField); ("a", DField)]; [("c", DField); ("b", DField)]; [("a", DOther); ("z", DField)]; [("a", DField)]] in
  Forall (fun b : body => NoDup (map fst b)) bodies /\ expected_names bodies = ["b"; "a"; "c"; "z"] /\
  expected_names (firstn 3 bodies) = ["b"; "c"; "z"] /\ built (line bodies).
Proof.
  cbv zeta. split; [repeat (apply Forall_cons || apply Forall_nil || apply NoDup_cons || apply NoDup_nil); cbn; intuition discriminate|].
  split; [reflexivity|]. split; [reflexivity|]. unfold line. cbn [fold_left].
  assert (D : forall b s, built s -> built (snd (declare b s)) /\ m_classes (snd (declare b s)) = m_classes s /\
    (length (m_fields s) <= length (m_fields (snd (declare b s))))%nat /\
    (forall n f, In (n, MField f) (fst (declare b s)) -> (f < length (m_fields (snd (declare b s))))%nat)).
  { induction b as [|nd b IH]; intros s B; [cbn; repeat split; easy|]. destruct nd as [n []]; cbn [declare].
    - cbn [new_field]. destruct (IH (snd (new_field None None s)) (built_field s None None B)) as (A1 & A2 & A3 & A4). cbn [new_field snd] in *.
      destruct (declare b _) as [d s2]. cbn [fst snd m_fields m_classes] in *. rewrite app_length in A3. cbn in A3.
      split; [exact A1|]. split; [exact A2|]. split; [lia|]. intros m f [[= <- <-]|H]; [lia|now apply A4 with m].
    - destruct (IH s B) as (A1 & A2 & A3 & A4). destruct (declare b s) as [d s2]. cbn [fst snd] in *. split; [exact A1|]. split; [exact A2|]. split; [exact A3|].
      intros m f [[=]|H]. now apply A4 with m. }
  assert (X : forall b s, built s -> built (derive b s)).
  { intros b s B. unfold derive. destruct (D b s B) as (A1 & A2 & A3 & A4). destruct (declare b s) as [d s1]. cbn [fst snd] in *. apply built_class; auto.
    - intros x I. destruct (length (m_classes s1)); [easy|]. destruct I as [<-|[]]. lia.
    - intros x I. apply in_rev, in_seq in I. lia. }
  do 4 apply X. constructor.
Qed.

(** Two bases, both with fields, one name in both: *)
Definition two_bases : mst :=
  let s := define_class [] [] [("x", MField 0); ("y", MField 1)] (snd (new_field None None (snd (new_field None None (MkS [] [] 0))))) in
  let s := define_class [] [] [("z", MField 2); ("x", MField 3)] (snd (new_field None None (snd (new_field None None s)))) in
  snd (new_field None None (snd (new_field None None s))).
Lemma two_bases_built : built two_bases.
Proof.
  unfold two_bases. cbv zeta. do 2 apply built_field.
  apply built_class; [do 2 apply built_field|..].
  - apply built_class; [do 2 apply built_field; constructor|..]; try easy. intros n f H. cbn in *. intuition; (match goal with H : _ = _ |- _ => injection H as <- <- end); lia.
  - easy.
  - easy.
  - intros n f H. cbn in *. intuition; (match goal with H : _ = _ |- _ => injection H as <- <- end); lia.
Qed.
(** class C(B, A): x = ...; w = ... — x takes the place of B's x, w comes last. *)
Example C54_case :
  let dict := [("x", MField 5); ("w", MField 4)] in
  built two_bases /\ nearest two_bases [1%nat; 0%nat] "x" 3 /\
  map (name_of (define_class [1; 0]%nat [1; 0]%nat dict two_bases)) (fields_of (define_class [1; 0]%nat [1; 0]%nat dict two_bases) 2) =
    [Some "y"; Some "z"; Some "x"; Some "w"].
Proof.
  split; [exact two_bases_built|]. split; [|vm_compute; reflexivity]. exists [], 1%nat, [0%nat]. split; [reflexivity|]. split; [vm_compute; reflexivity|easy].
Qed.

(** C55: the table built for a type field holds exactly the identities some class below
    lists; an identity only one class lists leads to that class. *)
Theorem C55_table : forall s f o c name, built s ->
  nth_error (m_fields s) f = Some o -> fo_parent o = Some (InClass c) -> fo_name o = Some name ->
  exists table, types_map s f = Some table /\
    (forall v d, alookup table v = Some d -> descends s c d /\ lists s name d v) /\
    (forall v d, descends s c d -> lists s name d v -> exists d', alookup table v = Some d') /\
    (forall v d, descends s c d -> lists s name d v -> (forall d', descends s c d' -> lists s name d' v -> d' = d) ->
       alookup table v = Some d).
Proof. exact B55_table. Qed.
Print Assumptions C55_table.
(** The identity found in the data is in the table: the polymorphic field parses exactly as a
    sub-form field of that class, from a state where only the probe form was added. *)
Theorem C55_known : forall W fuel P n i items s pid table rs u c t,
  plain_native (w_env W) P -> P (VDict items) -> dict_get items (VStr n) = Some (VStr i) ->
  reach W s -> mapping_context s -> untagged s -> dict_here W s pid items ->
  alookup table i = Some c -> w_class W c = Some t ->
  exists s1, parse_kind W (field_map W (S fuel)) (poly_kind n table rs u) pid s =
             parse_kind W (field_map W (S fuel)) (KSubForm t rs u) pid s1 /\
    context_kept s s1 /\ forms s1 = forms s ++ [(type_probe n, [(VStr n, VStr i)])].
Proof. intros W fuel P n i items s pid table rs u c t H1 H2 H3 H4 H5 H6 H7. exact (C55_known_lem W fuel P n i items H1 H2 H3 s pid H4 H5 H6 H7 table rs u c t). Qed.
Print Assumptions C55_known.
(** It is not in the table: exactly one error, about that identity, and no value; where errors
    are raised, that one. *)
Theorem C55_unknown : forall W fuel P n i items s pid table rs u eid m es f p tx,
  plain_native (w_env W) P -> P (VDict items) -> dict_get items (VStr n) = Some (VStr i) ->
  reach W s -> mapping_context s -> untagged s -> dict_here W s pid items ->
  alookup table i = None ->
  lookup "errors" (stk s) = Some (CErrs eid) -> nth_error (errs s) eid = Some (m, es) ->
  lookup "field" (stk s) = Some (CField f) -> nth_error (paths s) pid = Some p -> p_str (w_env W) p = Ok tx ->
  let e := MkErr (Invalid (VioIdentity (VStr i))) tx (f_name f) (Some pid) in
  exists s1, parse_kind W (field_map W (S fuel)) (poly_kind n table rs u) pid s =
      (match m with Collect => Ok ERRORv | Raise => Exn (EForm (es ++ [e])) end, s1) /\
    stk s1 = stk s /\ nth_error (errs s1) eid = Some (m, es ++ [e]) /\
    (forall j, (j < length (errs s))%nat -> j <> eid -> nth_error (errs s1) j = nth_error (errs s) j).
Proof.
  intros W fuel P n i items s pid table rs u eid m es f p tx H1 H2 H3 H4 H5 H6 H7.
  exact (C55_unknown_lem W fuel P n i items H1 H2 H3 s pid H4 H5 H6 H7 table rs u eid m es f p tx).
Qed.
Print Assumptions C55_unknown.
(** The data has nothing at the type key, or something that is neither a text nor null: exactly
    one error, holding what the type field said about it, and no value. *)
Theorem C55_untyped : forall W fuel P n items k s pid table rs u eid m es f p tx,
  plain_native (w_env W) P -> P (VDict items) -> strip_call n = None -> has_char dot n = false ->
  untyped (dict_get items (VStr n)) k ->
  (dict_get items (VStr n) = None -> e_attr (w_env W) (VDict items) n = None) ->
  reach W s -> mapping_context s -> untagged s -> dict_here W s pid items -> complains s ->
  lookup "errors" (stk s) = Some (CErrs eid) -> nth_error (errs s) eid = Some (m, es) ->
  lookup "field" (stk s) = Some (CField f) -> nth_error (paths s) pid = Some p -> p_str (w_env W) p = Ok tx ->
  let e := MkErr (Invalid (VioExn (EField (MkErr k n (Some n) None)))) tx (f_name f) (Some pid) in
  exists s1, parse_kind W (field_map W (S fuel)) (poly_kind n table rs u) pid s =
      (match m with Collect => Ok ERRORv | Raise => Exn (EForm (es ++ [e])) end, s1) /\
    stk s1 = stk s /\ nth_error (errs s1) eid = Some (m, es ++ [e]) /\
    (forall j, (j < length (errs s))%nat -> j <> eid -> nth_error (errs s1) j = nth_error (errs s) j).
Proof.
  intros W fuel P n items k s pid table rs u eid m es f p tx H1 H2 H3 H4 U H5 H6 H7 H8 H9 H10.
  exact (wrong_lem W fuel P n items H1 H2 H3 H4 H5 s pid H6 H7 H8 H9 H10 table rs u k eid m es f p tx (untyped_is _ _ U)).
Qed.
Print Assumptions C55_untyped.
(** The data has null at the type key: no form and no error. *)
Theorem C55_null : forall W fuel P n items s pid table rs u,
  plain_native (w_env W) P -> P (VDict items) -> strip_call n = None -> has_char dot n = false ->
  dict_get items (VStr n) = Some VNone ->
  reach W s -> mapping_context s -> untagged s -> dict_here W s pid items -> complains s ->
  exists s1, parse_kind W (field_map W (S fuel)) (poly_kind n table rs u) pid s = (Ok NONEv, s1) /\ context_kept s s1.
Proof.
  intros W fuel P n items s pid table rs u H1 H2 H3 H4 U H6 H7 H8 H9 H10.
  exact (null_lem W fuel P n items H1 H2 H3 H4 (fun Q => ltac:(congruence)) s pid H6 H7 H8 H9 H10 table rs u U).
Qed.
Print Assumptions C55_null.
(** Any type field and any data: when the probe raises, a ValueError becomes one error of the
    field, and anything else is raised. *)
Theorem C55_failed_probe : forall W fuel probe tf table rs u s pid v s0 e s1,
  path_value W pid s = (Ok v, s0) -> types_probe W (field_map W fuel) probe tf v s0 = (Exn e, s1) ->
  (~ value_error e -> parse_kind W (field_map W fuel) (KPoly probe tf table rs u) pid s = (Exn e, s1)) /\
  (value_error e -> forall eid m es f here p tx,
     lookup "errors" (stk s1) = Some (CErrs eid) -> nth_error (errs s1) eid = Some (m, es) ->
     lookup "field" (stk s1) = Some (CField f) -> lookup "src_path" (stk s1) = Some (CPath here) ->
     nth_error (paths s1) here = Some p -> p_str (w_env W) p = Ok tx ->
     let err := MkErr (Invalid (VioExn (spoken e))) tx (f_name f) (Some here) in
     parse_kind W (field_map W fuel) (KPoly probe tf table rs u) pid s =
       (match m with Collect => Ok ERRORv | Raise => Exn (EForm (es ++ [err])) end,
        St (stk s1) (forms s1) (paths s1) (replace_nth eid (m, es ++ [err]) (errs s1)))).
Proof. exact C55_failed_lem. Qed.
Print Assumptions C55_failed_probe.

(** Any type field, any source: a value that is no mapping and no sequence (a text, a number, a date…)
    is one error of the field, at the field's own path. *)
Theorem C55_no_data : forall W fuel probe tf table rs u s pid v p p' eid m es f tx,
  no_data v -> nth_error (paths s) pid = Some p -> p_value (w_env W) (entries s) p = (p', Ok v) -> p_str (w_env W) p' = Ok tx ->
  lookup "src" (stk s) <> None -> lookup "src_path" (stk s) = Some (CPath pid) ->
  lookup "errors" (stk s) = Some (CErrs eid) -> nth_error (errs s) eid = Some (m, es) -> lookup "field" (stk s) = Some (CField f) ->
  let e := MkErr (Invalid (VioExn (EValue "Invalid src, expected None, dict or Source"))) tx (f_name f) (Some pid) in
  exists s1, parse_kind W (field_map W fuel) (KPoly probe tf table rs u) pid s =
      (match m with Collect => Ok ERRORv | Raise => Exn (EForm (es ++ [e])) end, s1) /\
    stk s1 = stk s /\ forms s1 = forms s ++ [(probe, [])] /\ errs s1 = replace_nth eid (m, es ++ [e]) (errs s).
Proof. exact C55_scalar_lem. Qed.
Print Assumptions C55_no_data.

(** A field in the middle of mapping, its source path at a dict with the type in it. *)
Definition type_world : world := MkWorld env0 (fun c => if String.eqb c "Inner" then Some Inner else None).
Definition typed : list (val * val) := [(VStr "type", VStr "inner"); (VStr "x", VInt 3); (VStr "y", VStr "v")].
Definition s_typed : st := in_map (VDict typed) [("field", CField (fld "p" (poly_kind "type" [("inner", "Inner")] false UIgnore)))] Collect.
Example C55_data_case :
  plain_native (w_env type_world) (fun v => tidy v = true) /\ tidy (VDict typed) = true /\
  dict_get typed (VStr "type") = Some (VStr "inner") /\ reach type_world s_typed /\ mapping_context s_typed /\
  untagged s_typed /\ dict_here type_world s_typed 0 typed /\ w_class type_world "Inner" = Some Inner /\
  (let r := parse_kind type_world (field_map type_world 6) (poly_kind "type" [("inner", "Inner")] false UIgnore) 0 s_typed in
   fst r = Ok (VForm 1) /\ nth_error (errs (snd r)) 0 = Some (Collect, [])) /\
  (let r := parse_kind type_world (field_map type_world 6) (poly_kind "type" [("outer", "Inner")] false UIgnore) 0 s_typed in
   fst r = Ok ERRORv /\ match nth_error (errs (snd r)) 0 with
                     | Some (Collect, [MkErr k p _ _]) => k = Invalid (VioIdentity (VStr "inner")) /\ p = ""
                     | _ => False
                     end).
Proof.
  split; [exact tidy_native|]. split; [reflexivity|]. split; [reflexivity|]. split.
  { apply (reach_open type_world [("src", CSrc (json (VDict typed))); ("errors", CErrs 0);
      ("field", CField (fld "p" (poly_kind "type" [("inner", "Inner")] false UIgnore)))] (St (stk init) [] [] [(Collect, [])])).
    - apply (reach_heap type_world [] [(Collect, [])] init), reach_init.
    - reflexivity.
    - reflexivity. }
  split; [repeat split; eexists; reflexivity|]. split; [reflexivity|].
  split; [split; [reflexivity|exists (at_root s_typed), (fst (p_value (w_env type_world) (entries s_typed) (at_root s_typed))); split; [reflexivity|]; rewrite (surjective_pairing (p_value (w_env type_world) (entries s_typed) (at_root s_typed))) at 1; f_equal; vm_compute; reflexivity]|]. split; [reflexivity|].
  split; (split; [vm_compute; reflexivity|]); [vm_compute; reflexivity|vm_compute; split; reflexivity].
Qed.
(** The type absent, an integer, null; and a type field whose resolve hook raises. *)
Definition poly_at (items : list (val * val)) : res val * option (mode * list err) :=
  let s := in_map (VDict items) [("field", CField (fld "p" (poly_kind "type" [("inner", "Inner")] false UIgnore)))] Collect in
  let r := parse_kind type_world (field_map type_world 6) (poly_kind "type" [("inner", "Inner")] false UIgnore) 0 s in (fst r, nth_error (errs (snd r)) 0).
Example C55_untyped_case :
  poly_at [(VStr "x", VInt 3)] =
    (Ok ERRORv, Some (Collect, [MkErr (Invalid (VioExn (EField (MkErr Missing "type" (Some "type") None)))) "" (Some "p") (Some 0%nat)])) /\
  poly_at [(VStr "type", VInt 3)] =
    (Ok ERRORv, Some (Collect, [MkErr (Invalid (VioExn (EField (MkErr (Invalid (VioExn (ESource (NotString (VInt 3))))) "type" (Some "type") None)))) "" (Some "p") (Some 0%nat)])) /\
  poly_at [(VStr "type", VNone)] = (Ok NONEv, Some (Collect, [])) /\
  complains s_typed /\ strip_call "type" = None /\ has_char dot "type" = false /\
  untyped (dict_get [(VStr "x", VInt 3)] (VStr "type")) Missing /\
  untyped (dict_get [(VStr "type", VInt 3)] (VStr "type")) (Invalid (VioExn (ESource (NotString (VInt 3))))) /\
  e_attr (w_env type_world) (VDict [(VStr "x", VInt 3)]) "type" = None.
Proof.
  split; [vm_compute; reflexivity|]. split; [vm_compute; reflexivity|]. split; [vm_compute; reflexivity|].
  repeat (split; [vm_compute; reflexivity|]). split; [constructor|]. split; [|vm_compute; reflexivity]. constructor; discriminate.
Qed.
(** A type field whose resolve hook raises: ValueError is an error of the field, KeyError is raised. *)
Definition hooked_type (e : exn) : field :=
  let o := named "type" no_opts in
  MkField (MkOpts (o_name o) (o_src o) (o_nullable o) (o_default o) (o_ignores o) (o_translations o) (o_tags o) (o_attach_parent o)
                  (o_compute o) (Some (MkHook false (fun _ _ => PRaise e))) (o_parse o) (o_munge o) (o_filter o) (o_validate o)) (KString no_strc).
Definition hooked_at (e : exn) : res val * option (mode * list err) :=
  let r := parse_kind type_world (field_map type_world 6) (KPoly (FormTy "TypeProbe" [hooked_type e]) (hooked_type e) [(VStr "inner", "Inner")] false UIgnore) 0 s_typed in
  (fst r, nth_error (errs (snd r)) 0).
Example C55_failed_case :
  hooked_at (EValue "no") = (Ok ERRORv, Some (Collect, [MkErr (Invalid (VioExn (EValue "no"))) "" (Some "p") (Some 0%nat)])) /\
  hooked_at EKey = (Exn EKey, Some (Collect, [])) /\ value_error (EValue "no") /\ ~ value_error EKey.
Proof. split; [vm_compute; reflexivity|]. split; [vm_compute; reflexivity|]. split; [constructor|intros Q; inversion Q]. Qed.
(** Any probe and any data: the field maps the class its table lists for the identity that the
    probe form, mapped from the same data, holds for its type field; an identity that is not
    listed is one error, None is no value; what the probe form rejects is one error. *)
Theorem C55_any_probe : forall W fuel probe tf v pid s s0 s1 ident table rs u,
  path_value W pid s = (Ok v, s0) ->
  Form_map W fuel (length (forms s0)) (AVal v) [] false UIgnore Collect (snd (new_form probe s0)) = (Ok [], s1) ->
  dict_get (entries s1 (length (forms s0))) (VStr (fname tf)) = Some ident ->
  (ident = VNone -> parse_kind W (field_map W fuel) (KPoly probe tf table rs u) pid s = (Ok NONEv, s1)) /\
  (forall c t, ident <> VNone -> hashable ident = true -> lists_class table ident c -> w_class W c = Some t ->
     parse_kind W (field_map W fuel) (KPoly probe tf table rs u) pid s = parse_kind W (field_map W fuel) (KSubForm t rs u) pid s1) /\
  (ident <> VNone -> hashable ident = true -> unlisted table ident -> forall eid m es f here p tx,
     lookup "errors" (stk s1) = Some (CErrs eid) -> nth_error (errs s1) eid = Some (m, es) ->
     lookup "field" (stk s1) = Some (CField f) -> lookup "src_path" (stk s1) = Some (CPath here) ->
     nth_error (paths s1) here = Some p -> p_str (w_env W) p = Ok tx ->
     let err := MkErr (Invalid (VioIdentity ident)) tx (f_name f) (Some here) in
     parse_kind W (field_map W fuel) (KPoly probe tf table rs u) pid s =
       (match m with Collect => Ok ERRORv | Raise => Exn (EForm (es ++ [err])) end,
        St (stk s1) (forms s1) (paths s1) (replace_nth eid (m, es ++ [err]) (errs s1)))).
Proof. intros W fuel probe tf v pid s s0 s1 ident table rs u H1 H2 H3. exact (C55_probed_lem W fuel probe tf v pid s s0 s1 H1 ident H2 H3 table rs u). Qed.
Print Assumptions C55_any_probe.
Theorem C55_rejected_probe : forall W fuel probe tf v pid s s0 s1 table rs u e0 es0,
  path_value W pid s = (Ok v, s0) ->
  Form_map W fuel (length (forms s0)) (AVal v) [] false UIgnore Collect (snd (new_form probe s0)) = (Ok (e0 :: es0), s1) ->
  forall eid m es f here p tx,
     lookup "errors" (stk s1) = Some (CErrs eid) -> nth_error (errs s1) eid = Some (m, es) ->
     lookup "field" (stk s1) = Some (CField f) -> lookup "src_path" (stk s1) = Some (CPath here) ->
     nth_error (paths s1) here = Some p -> p_str (w_env W) p = Ok tx ->
     let err := MkErr (Invalid (VioExn (spoken (EField e0)))) tx (f_name f) (Some here) in
     parse_kind W (field_map W fuel) (KPoly probe tf table rs u) pid s =
       (match m with Collect => Ok ERRORv | Raise => Exn (EForm (es ++ [err])) end,
        St (stk s1) (forms s1) (paths s1) (replace_nth eid (m, es ++ [err]) (errs s1))).
Proof. intros W fuel probe tf v pid s s0 s1 table rs u e0 es0 H1. exact (C55_rejected_lem W fuel probe tf v pid s s0 s1 H1 table rs u e0 es0). Qed.
Print Assumptions C55_rejected_probe.
(** A probe with an integer before the type. *)
Definition two_probe : formty := FormTy "Probe" [fld "x" (KInteger None None); fld "type" (KString no_strc)].
Example C55_any_probe_case :
  let s := s_typed in
  let s0 := snd (path_value type_world 0 s) in
  let r := Form_map type_world 6 (length (forms s0)) (AVal (VDict typed)) [] false UIgnore Collect (snd (new_form two_probe s0)) in
  path_value type_world 0 s = (Ok (VDict typed), s0) /\ fst r = Ok [] /\
  dict_get (entries (snd r) (length (forms s0))) (VStr "type") = Some (VStr "inner") /\
  lists_class [(VStr "other", "Other"); (VStr "inner", "Inner")] (VStr "inner") "Inner" /\ unlisted [(VStr "other", "Other")] (VStr "inner") /\
  fst (parse_kind type_world (field_map type_world 6) (KPoly two_probe (fld "type" (KString no_strc)) [(VStr "inner", "Inner")] false UIgnore) 0 s) = Ok (VForm 1).
Proof.
  cbv zeta. split; [vm_compute; reflexivity|]. split; [vm_compute; reflexivity|]. split; [vm_compute; reflexivity|].
  split; [exists [(VStr "other", "Other")], (VStr "inner"), []; split; [reflexivity|]; split; [reflexivity|]; intros k c [[= <- <-]|[]]; reflexivity|].
  split; [intros k c [[= <- <-]|[]]; reflexivity|]. vm_compute. reflexivity.
Qed.
Example C55_rejected_probe_case :
  let data := VDict [(VStr "type", VStr "inner"); (VStr "x", VStr "many")] in
  let s := in_map data [("field", CField (fld "p" (poly_kind "type" [("inner", "Inner")] false UIgnore)))] Collect in
  let s0 := snd (path_value type_world 0 s) in
  let r := Form_map type_world 6 (length (forms s0)) (AVal data) [] false UIgnore Collect (snd (new_form two_probe s0)) in
  path_value type_world 0 s = (Ok data, s0) /\ (exists e, fst r = Ok [e]) /\
  lookup "errors" (stk (snd r)) = Some (CErrs 0) /\ lookup "src_path" (stk (snd r)) = Some (CPath 0) /\
  fst (parse_kind type_world (field_map type_world 6) (KPoly two_probe (fld "type" (KString no_strc)) [(VStr "inner", "Inner")] false UIgnore) 0 s) = Ok ERRORv.
Proof.
  cbv zeta. split; [vm_compute; reflexivity|]. split; [eexists; vm_compute; reflexivity|]. repeat (split; [vm_compute; reflexivity|]). vm_compute. reflexivity.
Qed.
Ltac small :=
  match goal with
  | |- forall n f, In (n, MField f) _ -> _ =>
      let n := fresh in let f := fresh in let H := fresh in intros n f H; vm_compute in H; vm_compute;
      repeat (destruct H as [H|H]; [injection H as <- <-; lia|]); destruct H
  | |- _ => let n := fresh in let H := fresh in intros n H; vm_compute in H; vm_compute;
      repeat (destruct H as [H|H]; [subst; lia|]); destruct H
  end.
Ltac built_up := repeat match goal with
  | |- built (snd (new_field _ _ _)) => apply built_field
  | |- built (define_class _ _ _ _) => apply built_class; [|small..]
  | |- built (MkS [] [] 0) => constructor
  end.
(** C55 for a class below that does not write its own type field, false: the class the
    identity was written for is not the one the table gives. *)
Theorem C55_inherited_refuted : exists s f v d d' table,
  built s /\ types_map s f = Some table /\ alookup table v = Some d' /\ d' <> d /\
  (exists k g o, nth_error (m_classes s) d = Some k /\ alookup (c_dict k) "type" = Some (MField g) /\
     nth_error (m_fields s) g = Some o /\ fo_choices o = Some [v]) /\
  (exists k, nth_error (m_classes s) d' = Some k /\ c_bases k = [d] /\ c_dict k = []).
Proof.
  exists (define_class [1]%nat [1; 0]%nat [] (define_class [0]%nat [0]%nat [("type", MField 1)]
    (snd (new_field None (Some ["a"]) (define_class [] [] [("type", MField 0)] (snd (new_field None None (MkS [] [] 0)))))))), 0%nat, "a", 1%nat, 2%nat, [("a", 2%nat)].
  split.
  { built_up. }
  repeat split; try (vm_compute; reflexivity); [easy|..].
  - do 3 eexists. repeat split; vm_compute; reflexivity.
  - eexists. repeat split; vm_compute; reflexivity.
Qed.
Print Assumptions C55_inherited_refuted.

(** C56, false: a class defined after the table was first used is not found by it. *)
Theorem C56_refuted : exists s f t dict d v,
  let s' := define_class [0%nat] [0%nat] dict s in
  built s /\ built s' /\ types_cached s f None = Some t /\ d = length (m_classes s) /\ descends s' 0 d /\ lists s' "type" d v /\
  types_map s' f = Some (t ++ [(v, d)]) /\ types_cached s' f (types_cached s f None) = Some t /\ alookup t v = None.
Proof.
  exists (snd (new_field None (Some ["b"]) (define_class [0]%nat [0]%nat [("type", MField 1)]
    (snd (new_field None (Some ["a"]) (define_class [] [] [("type", MField 0)] (snd (new_field None None (MkS [] [] 0))))))))),
    0%nat, [("a", 1%nat)], [("type", MField 2)], 2%nat, "b". cbv zeta.
  assert (B : built (snd (new_field None (Some ["b"]) (define_class [0]%nat [0]%nat [("type", MField 1)]
    (snd (new_field None (Some ["a"]) (define_class [] [] [("type", MField 0)] (snd (new_field None None (MkS [] [] 0)))))))))).
  { built_up. }
  split; [exact B|]. split.
  { apply built_class; [exact B|small..]. }
  split; [vm_compute; reflexivity|]. split; [vm_compute; reflexivity|]. split.
  { apply (desc_step _ _ 2%nat _ (MkC [0%nat] [0%nat] [("type", MField 2)] [2%nat])); [vm_compute; reflexivity|now left|constructor]. }
  split; [do 3 eexists; repeat split; [vm_compute; reflexivity..|now left]|].
  repeat split; vm_compute; reflexivity.
Qed.
Print Assumptions C56_refuted.
(** As long as the table is empty it is computed again. *)
Theorem C56_empty_table_partial : forall s s' f, types_cached s f None = Some [] ->
  types_cached s' f (types_cached s f None) = types_map s' f.
Proof. intros s s' f H. rewrite H. reflexivity. Qed.
Print Assumptions C56_empty_table_partial.

(** C66: calls on the hook of a field standing alone: everything before the first
    registration raises, the registration answers the outermost field, and every call after
    it invokes that function with the target. *)
Theorem C66_first_function_registers : forall form h pre fn rest post f,
  h_func h = None -> outermost (h_parent h) f -> h_target h <> None \/ form <> None ->
  Forall (fun args => ~ registers h args) pre ->
  exists early up target h',
    hook_calls form (pre ++ (HFun fn (h_spec h) :: rest) :: post) h =
      (early ++ HReturned (OwnField f up) :: map (HInvoked fn target) post, h') /\
    length early = length pre /\ Forall (fun a => exists e, a = HRaised e) early /\
    match h_target h with Some t => target = t | None => form = Some target end /\
    h_func h' = Some fn.
Proof. exact C66_lem. Qed.
Print Assumptions C66_first_function_registers.
Example C66_case :
  let h := MkHookObj (OwnField 1 (Some (OwnField 0 None))) None None ["self"; "value"] in
  let pre := [[HFun 8 ["self"]]; [HVal (VInt 1)]; []] in
  outermost (h_parent h) 0 /\ Forall (fun args => ~ registers h args) pre /\
  fst (hook_calls (Some (VForm 4)) (pre ++ [[HFun 9 ["self"; "value"]]; [HFun 8 ["self"]]; [HVal VNone]]) h) =
    [HRaised (EType "argspec does not match"); HRaised (EType "'NoneType' object is not callable");
     HRaised (EType "'NoneType' object is not callable"); HReturned (OwnField 0 None);
     HInvoked 9 (VForm 4) [HFun 8 ["self"]]; HInvoked 9 (VForm 4) [HVal VNone]].
Proof.
  cbv zeta. split; [repeat constructor|]. split; [|vm_compute; reflexivity].
  repeat (apply Forall_cons || apply Forall_nil); intros (fn & rest & H); discriminate.
Qed.
(** C66 for a field already in a form class, false: the class is answered, so the name that
    is decorated is bound to the class and no longer to a field. *)
Theorem C66_attached_refuted : exists form h fn c,
  h_func h = None /\ (exists f, h_parent h = OwnField f (Some (OwnForm c))) /\
  fst (hook_call form [HFun fn (h_spec h)] h) = HReturned (OwnForm c).
Proof. exists None, (MkHookObj (OwnField 0 (Some (OwnForm 7))) None None ["self"]), 3%nat, 7%nat. split; [reflexivity|]. split; [eexists; reflexivity|reflexivity]. Qed.
Print Assumptions C66_attached_refuted.
(** This is so for every hook of a field in a form class, at any nesting: the class is
    answered; otherwise the hook behaves as the claim says. *)
Theorem C66_attached_answers_the_class : forall form h pre fn rest post c,
  h_func h = None -> class_around (h_parent h) c -> h_target h <> None \/ form <> None ->
  Forall (fun args => ~ registers h args) pre ->
  exists early target h',
    hook_calls form (pre ++ (HFun fn (h_spec h) :: rest) :: post) h =
      (early ++ HReturned (OwnForm c) :: map (HInvoked fn target) post, h') /\
    length early = length pre /\ Forall (fun a => exists e, a = HRaised e) early /\
    match h_target h with Some t => target = t | None => form = Some target end /\
    h_func h' = Some fn.
Proof. exact C66_class_lem. Qed.
Print Assumptions C66_attached_answers_the_class.
Example C66_attached_case :
  let h := MkHookObj (OwnField 1 (Some (OwnField 0 (Some (OwnForm 7))))) None None ["self"; "value"] in
  class_around (h_parent h) 7 /\ Forall (fun args => ~ registers h args) [[HFun 8 ["self"]]] /\
  fst (hook_calls (Some (VForm 4)) ([[HFun 8 ["self"]]] ++ [[HFun 9 ["self"; "value"]]; [HVal VNone]]) h) =
    [HRaised (EType "argspec does not match"); HReturned (OwnForm 7); HInvoked 9 (VForm 4) [HVal VNone]].
Proof.
  cbv zeta. split; [repeat constructor|]. split; [|vm_compute; reflexivity].
  apply Forall_cons; [|apply Forall_nil]. intros (fn & rest & H); discriminate.
Qed.

(** C67, false: a tag put on the clone is on the original. *)
Theorem C67_refuted : exists s f o ops,
  nth_error (cs_objs s) f = Some o /\ Forall (fun io => fst io = length (cs_objs s)) ops /\
  tags_of (do_cops ops (clone f s)) f <> tags_of s f /\
  ignores_of (do_cops ops (clone f s)) f <> ignores_of s f /\
  translations_of (do_cops ops (clone f s)) f <> translations_of s f.
Proof.
  exists (MkCS [MkCO 0 0 1 None None VNone VNone] [[]; []] [[]]), 0%nat, (MkCO 0 0 1 None None VNone VNone),
    [(1%nat, OpTag [VStr "t"]); (1%nat, OpIgnore [VStr ""]); (1%nat, OpTranslate [(VStr "y", VBool true)])].
  split; [reflexivity|]. split; [repeat constructor|]. repeat split; vm_compute; discriminate.
Qed.
Print Assumptions C67_refuted.
(** They share these for ever: after any operations on either, both hold the same. *)
Theorem C67_containers_shared : forall f o s ops, nth_error (cs_objs s) f = Some o ->
  let s' := do_cops ops (clone f s) in
  ignores_of s' f = ignores_of s' (length (cs_objs s)) /\ translations_of s' f = translations_of s' (length (cs_objs s)) /\
  tags_of s' f = tags_of s' (length (cs_objs s)).
Proof. exact C67_shared_lem. Qed.
Print Assumptions C67_containers_shared.
(** What does hold: the attributes that are replaced, not changed in place, are separate. *)
Theorem C67_attributes_partial : forall f o s ops, nth_error (cs_objs s) f = Some o ->
  Forall (fun io => fst io = length (cs_objs s)) ops ->
  plain_part (do_cops ops (clone f s)) f = plain_part s f.
Proof. exact C67_plain_lem. Qed.
Print Assumptions C67_attributes_partial.
(** The clone begins with those of the original, without its place... *)
Theorem C67_clone_partial : forall f o s, nth_error (cs_objs s) f = Some o ->
  plain_part (clone f s) (length (cs_objs s)) = Some (None, co_src o, co_nullable o, co_default o).
Proof. exact C67_clone_lem. Qed.
Print Assumptions C67_clone_partial.
(** ...and what is set on a field, a clone or not, is what it has; a default of [None] also allows
    nulls. *)
Theorem C67_own_partial : forall f o s, nth_error (cs_objs s) f = Some o ->
  (forall v, plain_part (do_cop f (OpNullable v) s) f = Some (co_parent o, co_src o, v, co_default o)) /\
  (forall k, plain_part (do_cop f (OpSrc k) s) f = Some (co_parent o, k, co_nullable o, co_default o)) /\
  (forall v, v <> VNone -> plain_part (do_cop f (OpDefault v) s) f = Some (co_parent o, co_src o, co_nullable o, v)) /\
  plain_part (do_cop f (OpDefault VNone) s) f = Some (co_parent o, co_src o, VBool true, VNone) /\
  (forall c, match c with OpIgnore _ | OpTranslate _ | OpTag _ => True | _ => False end -> plain_part (do_cop f c s) f = plain_part s f).
Proof. exact C67_own_lem. Qed.
Print Assumptions C67_own_partial.
(** ...and its containers, shared with its clones, have what was put in. *)
Theorem C67_contents_partial : forall f o s, nth_error (cs_objs s) f = Some o ->
  (co_ignores o < length (cs_lists s))%nat -> (co_tags o < length (cs_lists s))%nat -> (co_translations o < length (cs_dicts s))%nat ->
  (forall vs, ignores_of (do_cop f (OpIgnore vs) s) f = ignores_of s f ++ vs) /\
  (forall d k v, dict_get (translations_of (do_cop f (OpTranslate d) s) f) (VStr k) = Some v <->
     SpecChain.last_given d k v \/ (forall w, ~ SpecChain.last_given d k w) /\ dict_get (translations_of s f) (VStr k) = Some v) /\
  (forall ts, let l' := tags_of (do_cop f (OpTag (map VStr ts)) s) f in
     (exists more, l' = tags_of s f ++ map VStr more) /\ (forall v, In v l' <-> In v (tags_of s f) \/ In v (map VStr ts)) /\ (NoDup (tags_of s f) -> NoDup l')).
Proof. exact CloneProofs.C67_contents_lem. Qed.
Print Assumptions C67_contents_partial.
Example C67_contents_case :
  let s := MkCS [MkCO 0 0 1 None None VNone VNone] [[]; [VStr "a"]] [[(VStr "x", VInt 1)]] in
  tags_of (do_cop 0 (OpTag [VStr "a"; VStr "b"; VStr "b"]) s) 0 = [VStr "a"; VStr "b"] /\
  translations_of (do_cop 0 (OpTranslate [(VStr "x", VInt 2); (VStr "y", VInt 3)]) s) 0 = [(VStr "x", VInt 2); (VStr "y", VInt 3)].
Proof. vm_compute. auto. Qed.
Example C67_case :
  let s := MkCS [MkCO 0 0 1 (Some (InClass 3)) None VNone VNone] [[]; []] [[]] in
  let s' := do_cops [(1%nat, OpDefault (VInt 3)); (1%nat, OpSrc (Some "x"))] (clone 0 s) in
  plain_part s' 0 = Some (Some (InClass 3), None, VNone, VNone) /\ plain_part s' 1 = Some (None, Some "x", VNone, VInt 3).
Proof. vm_compute. auto. Qed.
(** A text where the mapping should be. *)
Definition s_text : st := in_map (VStr "inner") [("field", CField (fld "p" (poly_kind "type" [("inner", "Inner")] false UIgnore)))] Collect.
Example C55_no_data_case :
  no_data (VStr "inner") /\ nth_error (paths s_text) 0 = Some (at_root s_text) /\
  snd (p_value (w_env type_world) (entries s_text) (at_root s_text)) = Ok (VStr "inner") /\
  p_str (w_env type_world) (fst (p_value (w_env type_world) (entries s_text) (at_root s_text))) = Ok "" /\
  lookup "src" (stk s_text) <> None /\ lookup "src_path" (stk s_text) = Some (CPath 0) /\ complains s_text /\
  (let r := parse_kind type_world (field_map type_world 6) (poly_kind "type" [("inner", "Inner")] false UIgnore) 0 s_text in
   fst r = Ok ERRORv /\ nth_error (errs (snd r)) 0 =
     Some (Collect, [MkErr (Invalid (VioExn (EValue "Invalid src, expected None, dict or Source"))) "" (Some "p") (Some 0%nat)])).
Proof.
  split; [exact I|]. split; [reflexivity|]. split; [vm_compute; reflexivity|]. split; [vm_compute; reflexivity|].
  split; [discriminate|]. split; [reflexivity|]. split; [vm_compute; reflexivity|]. split; vm_compute; reflexivity.
Qed.
