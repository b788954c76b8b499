(** * Properties C91: methods of fields that are called one after the other, and C95: keywords that a constructor does not know. *)
From Verif Require Import PyBase PyStr Source Field Context Fields Build SpecCtx SpecField SpecBuild SpecClock SpecChain ChainProofs KeywordProofs.
Open Scope Z_scope.

(** After any calls of [min], [max] and [range] a number is the one that the constructor makes
    of the bounds that were said last... *)
Theorem C91_number : forall cl args kw b lo hi cs lo' hi',
  Number_init cl args kw = Ok b -> range_said kw lo hi -> bounds_told cs (lo, hi) (lo', hi') ->
  exists b', calls size_step cs b b' /\
    forall kw2 b2, alike ["range"; "min_value"; "max_value"] kw kw2 -> range_said kw2 lo' hi' -> Number_init cl args kw2 = Ok b2 -> b2 = b'.
Proof. exact C91_number_lem. Qed.
Print Assumptions C91_number.
(** [Integer('n', min_value=5, default=1).max(9).range(2, 3).max(4)] is [Integer('n', range=(2, 4), default=1)] *)
Definition kw_first : kwargs := [("min_value", AV (VInt 5)); ("default", AV (VInt 1))].
Definition kw_last : kwargs := [("range", AV (VTuple [VInt 2; VInt 4])); ("default", AV (VInt 1))].
Definition some_calls : list size_call := [CMax (VInt 9); CRange (VInt 2) (VInt 3); CMax (VInt 4)].
Ltac alike := let n := fresh in let NI := fresh in intros n NI; cbn [alookup kw_first kw_last In] in *;
  repeat match goal with |- context [String.eqb ?a n] => let Q := fresh in destruct (String.eqb a n) eqn:Q; [apply String.eqb_eq in Q; try (exfalso; subst n; tauto)|] end; reflexivity.
Example C91_number_case : exists b b2, Number_init NInteger [AV (VStr "n")] kw_first = Ok b /\ range_said kw_first (Some (VInt 5)) None /\
  bounds_told some_calls (Some (VInt 5), None) (Some (VInt 2), Some (VInt 4)) /\
  alike ["range"; "min_value"; "max_value"] kw_first kw_last /\ range_said kw_last (Some (VInt 2)) (Some (VInt 4)) /\
  Number_init NInteger [AV (VStr "n")] kw_last = Ok b2 /\ b <> b2.
Proof.
  eexists _, _. split; [reflexivity|]. split.
  { right. split; [reflexivity|]. split; [apply bnd_val; discriminate|constructor]. }
  split; [repeat (econstructor; try discriminate)|]. split; [alike|]. split.
  { left. eexists _, _, _. split; [reflexivity|]. split; [now right|]. split; apply bnd_val; discriminate. }
  split; [reflexivity|discriminate].
Qed.
(** ...likewise a list and its lengths... *)
Theorem C91_list : forall args kw b lo hi cs lo' hi',
  List_init args kw = Ok b -> pair_said kw lo hi -> lengths_told cs (lo, hi) (lo', hi') ->
  exists b', calls size_step cs b b' /\
    forall kw2 b2, alike ["length"; "min_length"; "max_length"] kw kw2 -> pair_said kw2 lo' hi' -> List_init args kw2 = Ok b2 -> b2 = b'.
Proof. exact C91_list_lem. Qed.
Print Assumptions C91_list.
Definition int_item : bfield := BF false no_opts (KInteger None None).
Example C91_list_case : exists b b2, List_init [AF int_item] [] = Ok b /\ pair_said [] None None /\
  lengths_told [CMin (VInt 1); CRange VNone (VInt 3); CMin (VInt 2)] (None, None) (Some 2, Some 3) /\
  pair_said [("length", AV (VList [VInt 2; VInt 3]))] (Some 2) (Some 3) /\ alike ["length"; "min_length"; "max_length"] [] [("length", AV (VList [VInt 2; VInt 3]))] /\
  List_init [AF int_item] [("length", AV (VList [VInt 2; VInt 3]))] = Ok b2.
Proof.
  eexists _, _. split; [reflexivity|]. split; [right; split; [reflexivity|split; constructor]|]. split; [repeat econstructor|]. split.
  { left. eexists _, _, _. split; [reflexivity|]. split; [now left|]. split; constructor. }
  split; [|reflexivity]. intros n NI. cbn [alookup]. destruct (String.eqb "length" n) eqn:Q; [|reflexivity]. apply String.eqb_eq in Q. subst. exfalso. apply NI. now left.
Qed.
(** ...and a date, time or datetime, its bounds and its formats. *)
Theorem C91_clock : forall c args kw b fmts lo hi cs fmts' lo' hi',
  clock_init c args kw = Ok b -> formats_said (alookup kw "format") fmts ->
  bound_said (alookup kw "after") lo -> bound_said (alookup kw "before") hi -> clock_told c cs (lo, hi, fmts) (lo', hi', fmts') ->
  exists b', calls clock_step cs b b' /\
    forall kw2 b2, alike ["after"; "before"; "format"] kw kw2 -> formats_said (alookup kw2 "format") fmts' ->
      bound_said (alookup kw2 "after") lo' -> bound_said (alookup kw2 "before") hi' -> clock_init c args kw2 = Ok b2 -> b2 = b'.
Proof. exact C91_clock_lem. Qed.
Print Assumptions C91_clock.
Definition kw_clock : kwargs := [("after", AV (VTime 3)); ("before", AV (VTime 5)); ("format", AV (VStr "%H"))].
Example C91_clock_case : exists b b2, clock_init CTime [] [] = Ok b /\
  clock_told CTime [CBefore (VTime 9); CFormat (VStr "%S"); CBetween (VTime 3) (VTime 5); CFormat (VStr "%H")] (None, None, []) (Some (VTime 3), Some (VTime 5), ["%H"]) /\
  alike ["after"; "before"; "format"] [] kw_clock /\ formats_said (alookup kw_clock "format") ["%H"] /\ clock_init CTime [] kw_clock = Ok b2.
Proof.
  eexists _, _. split; [reflexivity|]. split.
  { eapply ct_before; [now apply bnd_val|]. eapply ct_format; [split; [now apply fo_one|eauto]|]. eapply ct_between; [now apply bnd_val..|].
    eapply ct_format; [split; [now apply fo_one|eauto]|]. apply ct_none. }
  split; [|split; [now apply fo_one|reflexivity]].
  intros n NI. cbn [alookup kw_clock In] in *. repeat match goal with |- context [String.eqb ?a n] => let Q := fresh in destruct (String.eqb a n) eqn:Q; [apply String.eqb_eq in Q; exfalso; subst n; tauto|] end. reflexivity.
Qed.
(** Options said later are options said to the constructor (but for what C72 excludes). *)
Theorem C91_options : forall m args kw1 kw2 b b',
  make m args kw1 = Ok b -> with_options kw2 b = Ok b' -> apart kw1 kw2 ->
  (alookup kw1 "default" = Some (AV VNone) -> unsaid kw2 "nullable") -> (says kw2 "optional" -> unsaid kw1 "default") ->
  make m args (kw1 ++ kw2) = Ok b'.
Proof. exact C91_options_lem. Qed.
Print Assumptions C91_options.
Example C91_options_case : let kw1 := [("src", AV (VStr "s")); ("min_length", AV (VInt 2)); ("nullable", AV (VBool false))] in let kw2 := [("default", AV (VStr "d")); ("tags", AV (VStr "t"))] in
  apart kw1 kw2 /\ exists b b', make MkStr [] kw1 = Ok b /\ with_options kw2 b = Ok b' /\ o_tags (b_opts b') = ["t"] /\ b_kind b' = KString (MkStrc (Some 2) None None [] []).
Proof.
  cbv zeta. split; [|eexists _, _; repeat split]. intros n. cbn [alookup].
  repeat match goal with |- context [String.eqb ?a n] => let Q := fresh in destruct (String.eqb a n) eqn:Q; [apply String.eqb_eq in Q; subst n; auto|] end. now left.
Qed.
(** [ignore(v, w, ...)] ignores each of the values, [translate(d)] is the option, and
    [tag(t, ..., k=...)] is that option for each tag and keyword, in their order. *)
Theorem C91_ignore : forall vs b, (forall v, In v vs -> v <> VConst NOTSET) ->
  calls options_step (map (fun v => [("ignore", AV v)]) vs) b (with_ignores vs b).
Proof. exact C91_ignore_lem. Qed.
Print Assumptions C91_ignore.
Theorem C91_translate : forall v b, v <> VConst NOTSET -> options_step [("translate", AV v)] b = with_translations v b.
Proof. exact C91_translate_any_lem. Qed.
Print Assumptions C91_translate.
(** A sequence of pairs translates as the dict of the pairs, the last pair of a key counting... *)
Theorem C91_table : forall v d b, table_of v d -> with_translations v b = with_translations (VDict d) b.
Proof. exact C91_table_lem. Qed.
Print Assumptions C91_table.
(** ...and adds to the translations the field has. *)
Theorem C91_translations : forall d b, exists b', with_translations (VDict d) b = Ok b' /\ b_kind b' = b_kind b /\ b_src b' = b_src b /\
  (forall k v, dict_get (o_translations (b_opts b')) (VStr k) = Some v <->
     last_given d k v \/ (forall w, ~ last_given d k w) /\ dict_get (o_translations (b_opts b)) (VStr k) = Some v).
Proof. exact C91_translations_lem. Qed.
Print Assumptions C91_translations.
(** Anything else is refused: TypeError for what is no sequence, and for a pair whose first is no
    key; ValueError for a sequence that is no pair.  The first offending pair decides. *)
Theorem C91_no_table : forall v b,
  (no_sequence v -> exists msg, with_translations v b = Exn (EType msg)) /\
  (forall l d x rest, members v (l ++ x :: rest) -> Forall2 (fun x p => two_of x (fst p) (snd p)) l d ->
     (no_sequence x -> exists msg, with_translations v b = Exn (EType msg)) /\
     (forall ms, members x ms -> length ms <> 2%nat -> exists msg, with_translations v b = Exn (EValue msg)) /\
     (forall a c, members x [a; c] -> unhashable a -> exists msg, with_translations v b = Exn (EType msg))).
Proof. exact C91_no_table_lem. Qed.
Print Assumptions C91_no_table.
Example C91_table_case :
  table_of (VList [VTuple [VStr "a"; VInt 1]; VStr "bc"; VList [VStr "a"; VInt 2]]) [(VStr "a", VInt 1); (VStr "b", VStr "c"); (VStr "a", VInt 2)] /\
  last_given [(VStr "a", VInt 1); (VStr "b", VStr "c"); (VStr "a", VInt 2)] "a" (VInt 2) /\
  with_translations (VList [VStr "bc"; VInt 3]) int_item = Exn (EType "cannot convert dictionary update sequence element to a sequence") /\
  with_translations (VList [VStr "bc"; VStr "d"]) int_item = Exn (EValue "dictionary update sequence element; 2 is required").
Proof.
  split; [|split; [|split; reflexivity]].
  - apply (to_pairs _ [VTuple [VStr "a"; VInt 1]; VStr "bc"; VList [VStr "a"; VInt 2]]); [constructor|].
    constructor; [apply two_seq; [apply mb_tuple|intros H; inversion H]|].
    constructor; [apply two_seq; [apply (mb_text "bc")|intros H; inversion H]|].
    constructor; [apply two_seq; [apply mb_list|intros H; inversion H]|constructor].
  - exists [(VStr "a", VInt 1); (VStr "b", VStr "c")], []. split; [reflexivity|]. intros w [].
Qed.
Theorem C91_tag : forall ts b b' ks, (forall v, In v ts -> v <> VConst NOTSET) ->
  with_tags ts ks b = Ok b' <-> calls options_step (map (fun v => [("tags", AV v)]) (ts ++ map VStr ks)) b b'.
Proof. exact C91_tag_lem. Qed.
Print Assumptions C91_tag.
Example C91_tag_case : exists b, with_tags [VStr "a"; VStr "b"] ["a"; "c"] int_item = Ok b /\ o_tags (b_opts b) = ["a"; "b"; "c"] /\
  o_ignores (b_opts (with_ignores [VInt 1; VInt 2] b)) = [VInt 1; VInt 2].
Proof. eexists. repeat split. Qed.
(** Other fields have no such methods. *)
Theorem C91_elsewhere : forall m args kw b, make m args kw = Ok b -> (forall k, m = MkPlain k -> plain_kind k) ->
  (forall v, (forall c, m <> MkNum c) -> set_min v b = Exn (EAttr "min") /\ set_max v b = Exn (EAttr "max")) /\
  (forall v, (forall c, m <> MkClock c) -> set_after v b = Exn (EAttr "after") /\ set_before v b = Exn (EAttr "before") /\ set_format v b = Exn (EAttr "format")).
Proof. exact C91_elsewhere_lem. Qed.
Print Assumptions C91_elsewhere.
Example C91_elsewhere_case : exists b, make MkStr [] [("min_length", AV (VInt 2))] = Ok b /\ set_min (VInt 3) b = Exn (EAttr "min").
Proof. eexists. split; reflexivity. Qed.

(** ** C95: keywords *)

(** A keyword that a class does not know is refused with [TypeError], whatever else is said... *)
Theorem C95_unknown : forall m n a args kw kw' b,
  construct m args kw = Ok b -> ~ In n (own_keywords m ++ field_keywords) -> and_also n a kw kw' ->
  exists t, construct m args kw' = Exn (EType t).
Proof. exact C95_unknown_lem. Qed.
Print Assumptions C95_unknown.
(** [Integer('n', min_value=5, default=1, max_lenght=3)]; [PolymorphicSubForm(..., flat=True)] *)
Example C95_unknown_case : exists b kw, construct (AnyMaker (MkNum NInteger)) [AV (VStr "n")] kw_first = Ok b /\
  and_also "max_length" (AV (VInt 3)) kw_first kw /\ ~ In "max_length" (own_keywords (AnyMaker (MkNum NInteger)) ++ field_keywords).
Proof.
  eexists _, _. split; [reflexivity|]. split; [exists [("min_value", AV (VInt 5))], [("default", AV (VInt 1))]; split; reflexivity|].
  cbn. intuition discriminate.
Qed.
Example C95_known_case : exists b1 b2 b3,
  construct MkTuple [AF (BF true no_opts KBool); AF (BF true no_opts KBool)] [("allow_field", AV (VInt 3))] = Ok b1 /\
  construct (MkDict (BF true no_opts KBool) (BF true no_opts KBool)) [AV (VStr "d")] [("max_keys", AV (VInt 3)); ("optional", AV (VBool true))] = Ok b2 /\
  construct MkGroup [AF (BF true (set_src (Some (KStr "g")) no_opts) KBool)] [("nullable", AV (VBool true))] = Ok b3.
Proof. repeat (eexists _ || split); reflexivity. Qed.

(** ...and so is one that what is said already makes void. *)
Theorem C95_excluded : forall m n a args kw kw' b,
  construct m args kw = Ok b -> excludes m args kw n -> and_also n a kw kw' ->
  exists t, construct m args kw' = Exn (EType t).
Proof. exact C95_exclude_lem. Qed.
Print Assumptions C95_excluded.
(** [Integer('n', range=(2, 4), default=1, min_value=0)]; [List(field, length=(1, 2), field=field)] *)
Example C95_excluded_case : (exists b, construct (AnyMaker (MkNum NInteger)) [AV (VStr "n")] kw_last = Ok b /\
    excludes (AnyMaker (MkNum NInteger)) [AV (VStr "n")] kw_last "min_value" /\
    and_also "min_value" (AV (VInt 0)) kw_last (kw_last ++ [("min_value", AV (VInt 0))])) /\
  exists b, let args := [AF (BF true no_opts KBool)] in let kw := [("length", AV (VTuple [VInt 1; VInt 2]))] in
    construct MkList args kw = Ok b /\ excludes MkList args kw "field" /\ excludes MkList args kw "max_length".
Proof.
  split.
  - eexists. split; [reflexivity|]. split; [eapply ex_range; [reflexivity|discriminate|now left]|]. exists kw_last, []. split; reflexivity.
  - eexists. split; [reflexivity|]. split; [apply ex_item; eexists; split; [now left|exact I]|].
    eapply ex_list; [reflexivity|constructor; reflexivity|now right].
Qed.

(** Later calls of [options] refuse them as well. *)
Theorem C95_options : forall n a kw kw' b,
  ~ In n field_keywords \/ n = "src" -> and_also n a kw kw' ->
  exists t, with_options kw' b = Exn (EType t).
Proof. exact C95_options_lem. Qed.
Print Assumptions C95_options.
Example C95_options_case : exists b1, with_options [("nullable", AV (VBool false))] (BF true no_opts KBool) = Ok b1 /\
  and_also "src" (AV (VStr "x")) [("nullable", AV (VBool false))] [("src", AV (VStr "x")); ("nullable", AV (VBool false))].
Proof. eexists. split; [reflexivity|]. now exists [], [("nullable", AV (VBool false))]. Qed.
