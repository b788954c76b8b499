(** * Properties C72-C80: what constructors, options and the methods that register a hook
    make of a field, followed through to what the field maps. *)
From Verif Require Import PyBase PyStr Source Field Context Fields Build SpecCtx SpecField SpecBox SpecBuild MakeProofs Make73 Make74 Make77 PropsField Demo SpecAttr.
From Coq Require Import QArith.
Open Scope Z_scope.

(** ** C72: options *)
(** [default=None]: an absent value and a null both map to [None], without an error. *)
Theorem C72_none_default : forall W n name args kw k b s eid m es pid p igd igm t,
  field_init args kw k = Ok b -> ~ says kw "attach_parent" ->
  let f := attach_as name b in
  mapping W s eid m es pid p igd igm -> p_str (w_env W) (place f p) = Ok t ->
  alookup kw "default" = Some (AV VNone) ->
  (igd = false -> absent W s f p -> yields W (S n) f NONEv s eid m es VNone []) /\
  (untouched f VNone -> (exists q1 q2, p_exists (w_env W) (entries s) (place f p) = (q1, Ok true) /\ p_is_null (w_env W) (entries s) q1 = (q2, Ok true)) ->
   yields W (S n) f NONEv s eid m es VNone []).
Proof. exact C72_none_lem. Qed.
Print Assumptions C72_none_default.
(** A default that is no function is the value of an absent field. *)
Theorem C72_default : forall W n name args kw k b s eid m es pid p igd igm t,
  field_init args kw k = Ok b -> ~ says kw "attach_parent" ->
  let f := attach_as name b in
  mapping W s eid m es pid p igd igm -> p_str (w_env W) (place f p) = Ok t ->
  forall v, alookup kw "default" = Some (AV v) -> v <> VConst NOTSET -> igd = false -> absent W s f p ->
  yields W (S n) f NONEv s eid m es v [].
Proof. exact C72_default_lem. Qed.
Print Assumptions C72_default.
(** [optional=True] without a default: an absent field vanishes. *)
Theorem C72_optional : forall W n name args kw k b s eid m es pid p igd igm t,
  field_init args kw k = Ok b -> ~ says kw "attach_parent" ->
  let f := attach_as name b in
  mapping W s eid m es pid p igd igm -> p_str (w_env W) (place f p) = Ok t ->
  says kw "optional" -> unsaid kw "default" -> igd = false -> absent W s f p ->
  yields W (S n) f NONEv s eid m es NONEv [].
Proof. exact C72_optional_lem. Qed.
Print Assumptions C72_optional.
(** Neither: an absent field is reported. *)
Theorem C72_required : forall W n name args kw k b s eid m es pid p igd igm t,
  field_init args kw k = Ok b -> ~ says kw "attach_parent" ->
  let f := attach_as name b in
  mapping W s eid m es pid p igd igm -> p_str (w_env W) (place f p) = Ok t ->
  unsaid kw "default" -> ~ says kw "optional" -> igm = false -> absent W s f p ->
  yields W (S n) f NONEv s eid m es NOTSETv [missing_at f pid t].
Proof. exact C72_required_lem. Qed.
Print Assumptions C72_required.
(** [ignore=v]: a value equal to [v] is as good as absent. *)
Theorem C72_ignore : forall W n name args kw k b s eid m es pid p igd igm t,
  field_init args kw k = Ok b -> ~ says kw "attach_parent" ->
  let f := attach_as name b in
  mapping W s eid m es pid p igd igm -> p_str (w_env W) (place f p) = Ok t ->
  forall v w, alookup kw "ignore" = Some (AV v) -> v <> VConst NOTSET -> static_default kw -> unsaid kw "translate" ->
  obtains W s f p NONEv w -> ignored w = false -> py_eq w v = true ->
  (igd = true \/ required f -> yields W (S n) f NONEv s eid m es NOTSETv (if igm then [] else [missing_at f pid t])) /\
  (forall d, igd = false -> o_default (f_opts f) = DVal d -> d <> VConst NOTSET -> yields W (S n) f NONEv s eid m es d []).
Proof. exact C72_ignore_lem. Qed.
Print Assumptions C72_ignore.
(** [Integer(default=None)], [Integer(default=5)], [Integer(optional=True)], [Integer()] and
    [Integer(ignore=1, default=7)] on documents without 'n', with a null and with 1. *)
Definition built (args : list arg) (kw : kwargs) : field :=
  match Number_init NInteger args kw with Ok b => attach_as "n" b | Exn _ => anon KAny end.
Definition made (kw : kwargs) : list (res val * list (mode * list err)) :=
  map (fun d => let '(r, s) := field_map world0 3 (built [] kw) NONEv (in_map (jdict d) [] Collect) in (r, errs s))
      [[("k", VInt 1)]; [("n", VNone)]; [("n", VInt 1)]].
Definition what (e : err) : ekind := let (k, _, _, _) := e in k.
Definition n_missing : err := MkErr Missing "n" (Some "n") (Some 0%nat).
Definition no_error : list (mode * list err) := [(Collect, [])].
Example C72_cases :
  map made [[("default", AV VNone)]; [("default", AV (VInt 5))]; [("optional", AV (VBool true))]; []; [("ignore", AV (VInt 1)); ("default", AV (VInt 7))]] =
  [ [(Ok VNone, no_error); (Ok VNone, no_error); (Ok (VInt 1), no_error)];
    [(Ok (VInt 5), no_error); (Ok VNone, no_error); (Ok (VInt 1), no_error)];
    [(Ok NONEv, no_error); (Ok VNone, no_error); (Ok (VInt 1), no_error)];
    [(Ok NOTSETv, [(Collect, [n_missing])]); (Ok VNone, no_error); (Ok (VInt 1), no_error)];
    [(Ok (VInt 7), no_error); (Ok VNone, no_error); (Ok (VInt 7), no_error)] ].
Proof. vm_compute. reflexivity. Qed.
Example C72_hypotheses : let kw := [("default", AV VNone); ("nullable", AV (VBool false))] in
  (exists b, field_init [] kw (KInteger None None) = Ok b /\ attach_as "n" b = built [] kw) /\ ~ says kw "attach_parent" /\
  mapping world0 s_empty 0 Collect [] 0 (at_root s_empty) false false /\ absent world0 s_empty (built [] kw) (at_root s_empty) /\ untouched (built [] kw) VNone.
Proof.
  cbv zeta. split; [eexists; split; reflexivity|]. split; [intros (a & L & _); discriminate|]. split; [in_map|]. split; [eexists; reflexivity|].
  split; [left; reflexivity|split; reflexivity].
Qed.
(** Options given in two calls are options given in one, unless the second call takes back
    what [default=None] implies or [optional] takes back a default. *)
Theorem C72_two_calls : forall kw1 kw2 o o1 o2,
  field_options kw1 o = Ok o1 -> field_options kw2 o1 = Ok o2 -> apart kw1 kw2 ->
  (alookup kw1 "default" = Some (AV VNone) -> unsaid kw2 "nullable") ->
  (says kw2 "optional" -> unsaid kw1 "default") ->
  field_options (kw1 ++ kw2) o = Ok o2.
Proof. exact C72_calls_lem. Qed.
Print Assumptions C72_two_calls.
Ltac apart := let x := fresh in intros x; cbn [alookup app];
  repeat match goal with |- context [String.eqb ?a ?n] =>
    let H := fresh in destruct (String.eqb a n) eqn:H; [apply String.eqb_eq in H; subst n; right; reflexivity|] end; now left.
Example C72_two_calls_case : let kw1 := [("ignore", AV (VInt 3)); ("nullable", AV (VBool false))] in let kw2 := [("default", AV VNone); ("tags", AV (VStr "t"))] in
  apart kw1 kw2 /\ exists o1 o2, field_options kw1 no_opts = Ok o1 /\ field_options kw2 o1 = Ok o2 /\ o_nullable o2 = true /\ o_tags o2 = ["t"].
Proof. cbv zeta. split; [apart|eexists _, _; repeat split]. Qed.
(** Two calls that are not one: [.options(default=None).options(nullable=False)]. *)
Theorem C72_any_two_calls_refuted : exists kw1 kw2 o o1 o2 o3,
  apart kw1 kw2 /\ field_options kw1 o = Ok o1 /\ field_options kw2 o1 = Ok o2 /\ field_options (kw1 ++ kw2) o = Ok o3 /\ o_nullable o2 <> o_nullable o3.
Proof.
  exists [("default", AV VNone)], [("nullable", AV (VBool false))], no_opts. eexists _, _, _.
  split; [apart|split; [reflexivity|split; [reflexivity|split; [reflexivity|discriminate]]]].
Qed.
Print Assumptions C72_any_two_calls_refuted.
(** Nor [.options(default=5).options(optional=True)]. *)
Theorem C72_optional_last_refuted : exists kw1 kw2 o o1 o2 o3,
  apart kw1 kw2 /\ field_options kw1 o = Ok o1 /\ field_options kw2 o1 = Ok o2 /\ field_options (kw1 ++ kw2) o = Ok o3 /\ o_default o2 <> o_default o3.
Proof.
  exists [("default", AV (VInt 5))], [("optional", AV (VBool true))], no_opts. eexists _, _, _.
  split; [apart|split; [reflexivity|split; [reflexivity|split; [reflexivity|discriminate]]]].
Qed.
Print Assumptions C72_optional_last_refuted.
(** [ignore=\[a, b\]] ignores the list, not its values, and [tags=\[..\]] fails. *)
Theorem C72_ignore_many_refuted : exists W n args kw k b name s v w,
  field_init args kw k = Ok b /\ alookup kw "ignore" = Some (AV (VList [v; w])) /\
  mapping W s 0 Collect [] 0 (at_root s) false false /\ obtains W s (attach_as name b) (at_root s) NONEv v /\
  fst (field_map W (S n) (attach_as name b) NONEv s) = Ok v.
Proof.
  exists world0, 2%nat, [], [("ignore", AV (VList [VInt 1; VInt 2]))], (KInteger None None). eexists _, "n", (in_map (jdict [("n", VInt 1)]) [] Collect), (VInt 1), (VInt 2).
  split; [reflexivity|]. split; [reflexivity|]. split; [in_map|]. split; [|vm_compute; reflexivity].
  eapply ob_read; reflexivity.
Qed.
Print Assumptions C72_ignore_many_refuted.
Theorem C72_tags_refuted : exists l e, forall k, field_init [] [("tags", AV (VList l))] k = Exn (EType e).
Proof. exists [VStr "a"]. eexists. intros k. reflexivity. Qed.
Print Assumptions C72_tags_refuted.

(** ** C73: lengths, alphabet, choices, pattern and bounds *)
(** A text maps exactly if it satisfies what the constructor was told; otherwise the first
    thing it violates is reported. *)
Theorem C73_string : forall W n name args kw c b arg s eid m es pid p igd igm t v x,
  String_init args kw = Ok b -> string_said kw c -> static_default kw -> ~ says kw "attach_parent" ->
  let f := attach_as name b in
  mapping W s eid m es pid p igd igm -> obtains W s f p arg v -> ignored v = false -> lookable f v -> translated f v (VStr x) ->
  py_in (VStr x) (o_ignores (f_opts f)) = false -> p_str (w_env W) (spot f arg p) = Ok t ->
  (string_ok (w_env W) f c x -> yields W (S n) f arg s eid m es (VStr x) []) /\
  (~ string_ok (w_env W) f c x -> exists viol, first_violated (w_env W) f c x viol /\ yields W (S n) f arg s eid m es ERRORv [invalid_at f pid viol t]).
Proof. exact C73_string_lem. Qed.
Print Assumptions C73_string.
(** [length=n]: exactly [n] characters. *)
Theorem C73_exact_length : forall W n name args kw z b arg s eid m es pid p igd igm t v x,
  String_init args kw = Ok b -> alookup kw "length" = Some (AV (VInt z)) -> z <> 0 ->
  unsaid kw "pattern" -> unsaid kw "alphabet" -> unsaid kw "choices" -> static_default kw -> ~ says kw "attach_parent" ->
  let f := attach_as name b in
  mapping W s eid m es pid p igd igm -> obtains W s f p arg v -> ignored v = false -> lookable f v -> translated f v (VStr x) ->
  py_in (VStr x) (o_ignores (f_opts f)) = false -> p_str (w_env W) (spot f arg p) = Ok t ->
  (Z.of_nat (String.length x) = z -> yields W (S n) f arg s eid m es (VStr x) []) /\
  (Z.of_nat (String.length x) < z -> yields W (S n) f arg s eid m es ERRORv [invalid_at f pid (VioMinLen (VStr x) z) t]) /\
  (z < Z.of_nat (String.length x) -> yields W (S n) f arg s eid m es ERRORv [invalid_at f pid (VioMaxLen (VStr x) z) t]).
Proof. exact C73_length_lem. Qed.
Print Assumptions C73_exact_length.
Definition made_string (kw : kwargs) : field := match String_init [] kw with Ok b => attach_as "n" b | Exn _ => anon KAny end.
Definition said : kwargs := [("length", AV (VTuple [VInt 2; VNone])); ("alphabet", AV (VStr "ab")); ("pattern", ARe "ab")].
Definition said_strc : strc := MkStrc (Some 2) None (Some "ab") ["a"; "b"]%char [].
Example C73_string_case :
  (exists b, String_init [] said = Ok b /\ attach_as "n" b = made_string said) /\ string_said said said_strc /\ static_default said /\ ~ says said "attach_parent" /\
  map (fun x => let '(r, s) := field_map world0 3 (made_string said) NONEv (s_text x) in (r, map (fun g => map what (snd g)) (errs s))) ["abba"; "a"; "ba"; "abc"] =
  [(Ok (VStr "abba"), [[]]); (Ok ERRORv, [[Invalid (VioMinLen (VStr "a") 2)]]);
   (Ok ERRORv, [[Invalid (VioPattern (VStr "ba") "ab")]]); (Ok ERRORv, [[Invalid (VioChars ["c"%char])]])].
Proof.
  split; [eexists; split; reflexivity|]. split.
  { split; [|split; [constructor|split; [apply (alp_text "ab")|constructor]]].
    right. left. exists (VInt 2), VNone. eexists. split; [reflexivity|]. split; [right; reflexivity|]. split; constructor. }
  split; [intros q H; discriminate|]. split; [intros (a & L & _); discriminate|]. vm_compute. reflexivity.
Qed.
(** [length=0] sets no limit. *)
Theorem C73_length_zero_refuted : exists W n b name s x,
  String_init [] [("length", AV (VInt 0))] = Ok b /\ mapping W s 0 Collect [] 0 (at_root s) false false /\
  finds_text W s (attach_as name b) (at_root s) x /\ String.length x <> O /\ fst (field_map W (S n) (attach_as name b) NONEv s) = Ok (VStr x).
Proof.
  exists world0, 2%nat. eexists. exists "n", (s_text "long"), "long". split; [reflexivity|]. split; [in_map|].
  split; [eexists _, _, _; repeat split|]. split; [discriminate|reflexivity].
Qed.
Print Assumptions C73_length_zero_refuted.
(** A number maps exactly if it lies between the bounds. *)
Theorem C73_number : forall W n cl name args kw lo hi b arg s eid m es pid p igd igm t v w q,
  Number_init cl args kw = Ok b -> range_said kw lo hi -> static_default kw -> ~ says kw "attach_parent" ->
  let f := attach_as name b in
  mapping W s eid m es pid p igd igm -> obtains W s f p arg v -> ignored v = false -> lookable f v -> translated f v w -> number w q ->
  py_in w (o_ignores (f_opts f)) = false -> p_str (w_env W) (spot f arg p) = Ok t ->
  ((forall z, lo = Some z -> exists r, number z r /\ (r <= q)%Q) -> (forall z, hi = Some z -> exists r, number z r /\ (q <= r)%Q) ->
   yields W (S n) f arg s eid m es w []) /\
  (forall z r, lo = Some z -> number z r -> (q < r)%Q -> yields W (S n) f arg s eid m es ERRORv [invalid_at f pid (VioMin w z) t]) /\
  (forall z r, hi = Some z -> number z r -> (r < q)%Q -> (forall c, lo = Some c -> exists x, number c x /\ (x <= q)%Q) ->
   yields W (S n) f arg s eid m es ERRORv [invalid_at f pid (VioMax w z) t]).
Proof. exact C73_number_lem. Qed.
Print Assumptions C73_number.
Definition ranged : kwargs := [("range", AV (VTuple [VInt 2; VInt 4])); ("default", AV (VInt 9))].
Example C73_number_case :
  range_said ranged (Some (VInt 2)) (Some (VInt 4)) /\ static_default ranged /\ (exists b, Number_init NInteger [] ranged = Ok b /\ attach_as "n" b = built [] ranged) /\
  map (fun z => fst (field_map world0 3 (built [] ranged) NONEv (in_map (jdict [("n", VInt z)]) [] Collect))) [1; 2; 4; 5] =
  [Ok ERRORv; Ok (VInt 2); Ok (VInt 4); Ok ERRORv].
Proof.
  split; [left; eexists _, _, _; split; [reflexivity|split; [right; reflexivity|split; constructor; discriminate]]|].
  split; [intros q H; discriminate|]. split; [eexists; split; reflexivity|]. vm_compute. reflexivity.
Qed.
(** A list keeps the items that map, and counts those. *)
Theorem C73_list : forall W n name pre item post kw g lo hi b s eid m es pid p igd igm len q vs s1 t,
  List_init (pre ++ item :: post) kw = Ok b -> (forall x, In x pre -> ~ exists g, item_said x g) -> item_said item g ->
  pair_said kw lo hi -> static_default kw -> ~ says kw "attach_parent" ->
  let f := attach_as name b in
  mapping W s eid m es pid p igd igm -> p_str (w_env W) (place f p) = Ok t -> sequence_at W s f p len q ->
  items W n (indexed len g) (SpecBox.within f s pid q) vs s1 -> SpecField.untouched f (VList (survivors vs)) ->
  (long_enough lo (length (survivors vs)) -> short_enough hi (length (survivors vs)) -> ends W (S n) f s s1 (VList (survivors vs))) /\
  (forall k, lo = Some k -> Z.of_nat (length (survivors vs)) < k -> rejects W (S n) f s s1 eid (invalid_at f pid (VioMinItems k) t)) /\
  (forall k, hi = Some k -> k < Z.of_nat (length (survivors vs)) -> long_enough lo (length (survivors vs)) ->
   rejects W (S n) f s s1 eid (invalid_at f pid (VioMaxItems k) t)).
Proof. exact C73_list_lem. Qed.
Print Assumptions C73_list.
(** [List('l', Inner, length=(1, 2))] *)
Definition int_b : bfield := BF false no_opts (KInteger None None).
Definition listed : kwargs := [("length", AV (VList [VInt 1; VInt 2]))].
Definition list_field : field := match List_init [AV (VStr "l"); AF int_b] listed with Ok b => attach_as "x" b | Exn _ => anon KAny end.
Example C73_list_case :
  (exists b, List_init ([AV (VStr "l")] ++ AF int_b :: []) listed = Ok b /\ attach_as "x" b = list_field) /\ item_said (AF int_b) (anon (KInteger None None)) /\
  pair_said listed (Some 1) (Some 2) /\
  map (fun l => fst (field_map world0 4 list_field NONEv (in_map (jdict [("l", VList l)]) [] Collect))) [[VStr "q"]; [VInt 1; VStr "q"; VInt 2]; [VInt 1; VInt 2; VInt 3]]
  = [Ok ERRORv; Ok (VList [VInt 1; VInt 2]); Ok ERRORv].
Proof.
  split; [eexists; split; reflexivity|]. split; [apply (item_is_field int_b)|].
  split; [left; eexists _, _, _; split; [reflexivity|split; [left; reflexivity|split; constructor]]|]. vm_compute. reflexivity.
Qed.
(** Unlike [String], [List] takes no integer as [length]. *)
Theorem C73_list_length_refuted : forall f z, z <> 0 -> exists e, List_init [AF f] [("length", AV (VInt z))] = Exn (EType e).
Proof. intros f z N. destruct z; [congruence| |]; eexists; reflexivity. Qed.
Print Assumptions C73_list_length_refuted.

(** ** C74: [constant] *)
Theorem C74_constant : forall W n name b v w s eid m es pid p igd igm t,
  mapping W s eid m es pid p igd igm -> hook_free (attach_as name b) ->
  exists b', constant v b = Ok b' /\
    let f := attach_as name b' in
    (p_str (w_env W) (place f p) = Ok t -> settles (w_env W) f v w -> yields W (S n) f NONEv s eid m es w []).
Proof. exact C74_lem. Qed.
Print Assumptions C74_constant.
(** a type's tag, [Type.constant] *)
Theorem C74_type_constant : forall W n name x s eid m es pid p igd igm t,
  mapping W s eid m es pid p igd igm ->
  exists b, type_constant (VStr x) = Ok b /\
    (p_str (w_env W) (place (attach_as name b) p) = Ok t -> yields W (S n) (attach_as name b) NONEv s eid m es (VStr x) []).
Proof. exact C74_type_lem. Qed.
Print Assumptions C74_type_constant.
(** on a field that belongs to a form already *)
Theorem C74_attached : forall W n g v w s eid m es pid p igd igm t name,
  mapping W s eid m es pid p igd igm -> quiet g -> o_munge (f_opts g) = None ->
  let f := attach_as name (attached_constant v g) in
  p_str (w_env W) (place f p) = Ok t -> settles (w_env W) f v w -> yields W (S n) f NONEv s eid m es w [].
Proof. exact C74_attached_lem. Qed.
Print Assumptions C74_attached.
Definition ranged_b : bfield := match Number_init NInteger [] ranged with Ok b => b | Exn _ => int_b end.
Example C74_case : let f v := match constant v ranged_b with Ok b => attach_as "n" b | Exn _ => anon KAny end in
  hook_free (attach_as "n" ranged_b) /\ settles env0 (f (VInt 3)) (VInt 3) (VInt 3) /\
  map (fun v => map (fun d => fst (field_map world0 3 (f v) NONEv (in_map (jdict d) [] Collect))) [[]; [("n", VInt 2)]]) [VInt 3; VInt 7] =
  [[Ok (VInt 3); Ok (VInt 3)]; [Ok ERRORv; Ok ERRORv]].
Proof.
  cbv zeta. split; [free|]. split; [|vm_compute; reflexivity].
  split; [reflexivity|]. split; [left; reflexivity|]. split; [apply tr_miss; reflexivity|]. split; [reflexivity|]. split; [reflexivity|].
  eapply fits_number; [reflexivity|constructor| |].
  - intros z H. injection H as <-. exists (inject_Z 2). split; [constructor|discriminate].
  - intros z H. injection H as <-. exists (inject_Z 4). split; [constructor|discriminate].
Qed.
(** The second [constant] fails on a field with a hook. *)
Theorem C74_again_refuted : forall v w b b', constant v b = Ok b' -> exists e, constant w b' = Exn (EType e).
Proof. intros v w b b' H. exists "takes a different number of arguments". revert H. exact (C74_again_lem v w b b'). Qed.
Print Assumptions C74_again_refuted.

(** ** C75: [String.format] *)
(** Every keyword names attributes that are mapped: the text is what [str.format] makes of
    their values. *)
Theorem C75_format : forall W n name b fmt kw values id x w s eid m es pid p igd igm t,
  mapping W s eid m es pid p igd igm -> lookup "form" (stk s) = Some (CForm id) -> hook_free (attach_as name b) ->
  all_read (w_env W) s (VForm id) kw values -> e_format (w_env W) fmt values = Ok x ->
  exists b', string_format (w_env W) fmt kw b = Ok b' /\
    let f := attach_as name b' in
    (p_str (w_env W) (place f p) = Ok t -> settles (w_env W) f x w -> yields W (S n) f NONEv s eid m es w []).
Proof. exact C75_lem. Qed.
Print Assumptions C75_format.
(** One of them names no field, and nothing else forms have: one error. *)
Theorem C75_unknown_attribute : forall W n name b fmt kw values id k names id' ty l nm rest more s eid m es pid p igd igm t,
  mapping W s eid m es pid p igd igm -> lookup "form" (stk s) = Some (CForm id) -> hook_free (attach_as name b) ->
  all_read (w_env W) s (VForm id) kw values -> plain_names (names ++ nm :: rest) ->
  attrs (w_env W) s (VForm id) names (VForm id') -> nth_error (forms s) id' = Some (ty, l) -> (forall g, In g (ft_fields ty) -> o_name (f_opts g) <> Some nm) -> no_attribute (w_env W) nm ->
  exists b', string_format (w_env W) fmt (kw ++ (k, dotted (names ++ nm :: rest)) :: more) b = Ok b' /\
    let f := attach_as name b' in
    (p_str (w_env W) (place f p) = Ok t -> yields W (S n) f NONEv s eid m es ERRORv [invalid_at f pid (VioExn (EAttr nm)) t]).
Proof. exact C75_miss_lem. Qed.
Print Assumptions C75_unknown_attribute.
(** The same for a value that is no form, in which Python finds no such attribute. *)
Theorem C75_no_attribute : forall W n name b fmt kw values id k names v nm rest more s eid m es pid p igd igm t,
  mapping W s eid m es pid p igd igm -> lookup "form" (stk s) = Some (CForm id) -> hook_free (attach_as name b) ->
  all_read (w_env W) s (VForm id) kw values -> plain_names (names ++ nm :: rest) ->
  attrs (w_env W) s (VForm id) names v -> foreign v -> e_attr (w_env W) v nm = None ->
  exists b', string_format (w_env W) fmt (kw ++ (k, dotted (names ++ nm :: rest)) :: more) b = Ok b' /\
    let f := attach_as name b' in
    (p_str (w_env W) (place f p) = Ok t -> yields W (S n) f NONEv s eid m es ERRORv [invalid_at f pid (VioExn (EAttr nm)) t]).
Proof. exact C75_lack_lem. Qed.
Print Assumptions C75_no_attribute.
(** What [str.format] itself raises is not reported but raised, with no error added... *)
Theorem C75_raises : forall W n name b fmt kw values id e s eid m es pid p igd igm,
  mapping W s eid m es pid p igd igm -> lookup "form" (stk s) = Some (CForm id) -> hook_free (attach_as name b) ->
  all_read (w_env W) s (VForm id) kw values -> e_format (w_env W) fmt values = Exn e ->
  exists b', string_format (w_env W) fmt kw b = Ok b' /\
    exists s', field_map W (S n) (attach_as name b') NONEv s = (Exn e, s') /\ stk s' = stk s /\ forms s' = forms s /\ errs s' = errs s.
Proof. exact C75_raises_lem. Qed.
Print Assumptions C75_raises.
(** ...and so is what reading an attribute raises, when it is no [AttributeError]. *)
Theorem C75_attribute_raises : forall W rec fmt kw values id k names id' nm rest more e s s2,
  lookup "form" (stk s) = Some (CForm id) -> all_read (w_env W) s (VForm id) kw values -> plain_names (names ++ nm :: rest) ->
  attrs (w_env W) s (VForm id) names (VForm id') -> form_getattr W rec id' nm s = (Exn e, s2) -> (forall x, e <> EAttr x) ->
  call_hook W rec (format_hook (w_env W) fmt (kw ++ (k, dotted (names ++ nm :: rest)) :: more)) [] s = (Exn e, s2).
Proof. exact C75_attribute_lem. Qed.
Print Assumptions C75_attribute_raises.
(** An interpreter where [format] joins texts, and where a pattern is a prefix, with the rest
    as the group 1 and the group "code". *)
Definition env1 : env := {|
  py3 := true; e_attr := fun v a => if String.eqb a "real" then match v with VInt z => Some (VInt z) | _ => None end else None; e_item := fun _ _ => Exn EKey; e_call := fun _ => Exn (EType "object is not callable");
  e_float := fun _ => None; e_dec := fun _ => None; e_str := fun _ => "?"; e_iso := fun _ => None; e_strp := fun _ _ => None;
  e_strptime_time := fun _ _ => None; e_uuid := fun _ => None;
  e_re := fun p s => if String.prefix p s then
    let rest := VStr (String.substring (String.length p) (String.length s) s) in Some [(KInt 0, VStr p); (KInt 1, rest); (KStr "code", rest)] else None;
  e_compile := fun _ => Exn (EOther "SyntaxError"); e_import := fun _ => None; e_shlex := fun s => Ok [s];
  e_format := fun fmt l => if String.eqb fmt "{" then Exn (EValue "Single '{' encountered in format string")
    else Ok (VStr (String.concat fmt (map (fun x => match snd x with VStr y => y | _ => "?" end) l)))
|}.
Definition world1 : world := MkWorld env1 (fun _ => None).
Definition in_form (d : val) (fs : list (formty * list (val * val))) : st :=
  snd (push world1 [("src", CSrc (json d)); ("errors", CErrs 0); ("form", CForm 0)] (St (stk init) fs [] [(Collect, [])])).
Lemma in_form_mapping d fs : mapping world1 (in_form d fs) 0 Collect [] 0 (at_root (in_form d fs)) false false.
Proof.
  split; try reflexivity; try (eexists; split; reflexivity).
  apply (reach_open world1 [("src", CSrc (json d)); ("errors", CErrs 0); ("form", CForm 0)] (St (stk init) fs [] [(Collect, [])])).
  - apply (reach_heap world1 fs [(Collect, [])] init), reach_init.
  - reflexivity.
  - reflexivity.
Qed.
Definition text_b : bfield := BF false no_opts (KString no_strc).
Lemma any_text E f x : string_ok E f no_strc x.
Proof. split; [left; reflexivity|]. repeat (split; [intros k H; discriminate|]). left. reflexivity. Qed.
Definition two_forms : list (formty * list (val * val)) :=
  [(Outer, [(VStr "sub", VForm 1)]); (Inner, [(VStr "x", VInt 3); (VStr "y", VStr "z")])].
Definition by_dots : list (string * string) := [("p", "sub.y"); ("q", "sub.y")].
Example C75_case : let s := in_form (jdict []) two_forms in
  let f kw := match string_format env1 "+" kw text_b with Ok b => attach_as "n" b | Exn _ => anon KAny end in
  lookup "form" (stk s) = Some (CForm 0) /\ all_read env1 s (VForm 0) by_dots [("p", VStr "z"); ("q", VStr "z")] /\
  settles env1 (f by_dots) (VStr "z+z") (VStr "z+z") /\ attrs env1 s (VForm 0) ["sub"] (VForm 1) /\ plain_names (["sub"] ++ ["w"]) /\ no_attribute env1 "w" /\
  map (fun kw => let '(r, s') := field_map world1 3 (f kw) NONEv s in (r, map (fun g => map what (snd g)) (errs s'))) [by_dots; by_dots ++ [("r", "sub.w")]] =
  [(Ok (VStr "z+z"), [[]]); (Ok ERRORv, [[Invalid (VioExn (EAttr "w"))]])].
Proof.
  cbv zeta. split; [reflexivity|].
  assert (SUB : attrs env1 (in_form (jdict []) two_forms) (VForm 0) ["sub"] (VForm 1)).
  { eapply at_form; [reflexivity|right; right; left; reflexivity|reflexivity|reflexivity|constructor]. }
  assert (Y : attrs env1 (in_form (jdict []) two_forms) (VForm 0) ["sub"; "y"] (VStr "z")).
  { eapply at_form; [reflexivity|right; right; left; reflexivity|reflexivity|reflexivity|].
    eapply at_form; [reflexivity|right; left; reflexivity|reflexivity|reflexivity|constructor]. }
  assert (P : plain_names ["sub"; "y"]).
  { split; [discriminate|]. intros x [<-|[<-|[]]] H; cbn in H; intuition discriminate. }
  split; [repeat constructor; (exists ["sub"; "y"]; split; [reflexivity|split; [exact P|exact Y]])|].
  split.
  { split; [reflexivity|]. split; [left; reflexivity|]. split; [apply tr_miss; reflexivity|]. split; [reflexivity|]. split; [reflexivity|].
    eapply fits_string; [reflexivity|]. apply any_text. }
  split; [exact SUB|]. split; [split; [discriminate|]; intros x [<-|[<-|[]]] H; cbn in H; intuition discriminate|].
  split; [split; [intros H; cbn in H; intuition discriminate|intros [H|[H _]]; [cbn in H; intuition discriminate|discriminate]]|vm_compute; reflexivity].
Qed.

Definition Fails : formty := FormTy "Fails"
  [fld "w" KAny; MkField (MkOpts (Some "z") (Some (KStr "z")) false (DUnset None) [] [] [] false
                            (Some (MkHook true (fun _ _ => PRaise EKey))) None None None None None) KAny].
Example C75_raises_case : let s := in_form (jdict []) two_forms in let s2 := in_form (jdict []) [(Fails, [(VStr "w", VInt 3)])] in
  all_read env1 s (VForm 0) by_dots [("p", VStr "z"); ("q", VStr "z")] /\
  e_format env1 "{" [("p", VStr "z"); ("q", VStr "z")] = Exn (EValue "Single '{' encountered in format string") /\
  all_read env1 s2 (VForm 0) [("p", "w")] [("p", VInt 3)] /\ plain_names ["z"] /\
  fst (form_getattr world1 (field_map world1 3) 0 "z" s2) = Exn EKey /\
  fst (field_map world1 3 (match string_format env1 "+" [("p", "w"); ("q", "z")] text_b with Ok b => attach_as "n" b | Exn _ => anon KAny end) NONEv s2) = Exn EKey.
Proof.
  cbv zeta. split.
  { repeat constructor; (exists ["sub"; "y"]; split; [reflexivity|split; [split; [discriminate|intros x [<-|[<-|[]]] H; cbn in H; intuition discriminate]|]];
      eapply at_form; [reflexivity|right; right; left; reflexivity|reflexivity|reflexivity|];
      eapply at_form; [reflexivity|right; left; reflexivity|reflexivity|reflexivity|constructor]). }
  split; [reflexivity|]. split.
  { repeat constructor. exists ["w"]. split; [reflexivity|]. split; [split; [discriminate|intros x [<-|[]] H; cbn in H; intuition discriminate]|].
    eapply at_form; [reflexivity|left; reflexivity|reflexivity|reflexivity|constructor]. }
  split; [split; [discriminate|intros x [<-|[]] H; cbn in H; intuition discriminate]|].
  split; vm_compute; reflexivity.
Qed.
(** [sub.x.real] is an attribute of a number, [sub.y.real] and [sub.x.real.w] are none. *)
Example C75_no_attribute_case : let s := in_form (jdict []) two_forms in
  let f kw := match string_format env1 "+" kw text_b with Ok b => attach_as "n" b | Exn _ => anon KAny end in
  all_read env1 s (VForm 0) [("p", "sub.x.real")] [("p", VInt 3)] /\ attrs env1 s (VForm 0) ["sub"; "x"; "real"] (VInt 3) /\ attrs env1 s (VForm 0) ["sub"; "y"] (VStr "z") /\
  foreign (VInt 3) /\ e_attr env1 (VInt 3) "w" = None /\ e_attr env1 (VStr "z") "real" = None /\
  map (fun kw => let '(r, s') := field_map world1 3 (f kw) NONEv s in (r, map (fun g => map what (snd g)) (errs s'))) [[("p", "sub.x.real")]; [("p", "sub.y.real")]; [("p", "sub.x.real.w")]] =
  [(Ok (VStr "?"), [[]]); (Ok ERRORv, [[Invalid (VioExn (EAttr "real"))]]); (Ok ERRORv, [[Invalid (VioExn (EAttr "w"))]])].
Proof.
  cbv zeta. assert (X : attrs env1 (in_form (jdict []) two_forms) (VForm 0) ["sub"; "x"; "real"] (VInt 3)).
  { eapply at_form; [reflexivity|right; right; left; reflexivity|reflexivity|reflexivity|].
    eapply at_form; [reflexivity|left; reflexivity|reflexivity|reflexivity|]. eapply at_value; [exact I|reflexivity|constructor]. }
  split; [repeat constructor; exists ["sub"; "x"; "real"]; split; [reflexivity|]; split; [split; [discriminate|intros x [<-|[<-|[<-|[]]]] H; cbn in H; intuition discriminate]|exact X]|].
  split; [exact X|]. split.
  { eapply at_form; [reflexivity|right; right; left; reflexivity|reflexivity|reflexivity|].
    eapply at_form; [reflexivity|right; left; reflexivity|reflexivity|reflexivity|constructor]. }
  split; [exact I|]. split; [reflexivity|]. split; [reflexivity|]. vm_compute. reflexivity.
Qed.

(** ** C76: [String.capture] *)
(** A text that matches is replaced by the group asked for, or by the first; one that does
    not match is as good as absent; anything else breaks the mapping. *)
Theorem C76_capture : forall W n name b pattern ask s eid m es pid p igd igm t arg v u,
  mapping W s eid m es pid p igd igm -> hook_free (attach_as name b) ->
  exists b', string_capture (w_env W) pattern ask (Some name) b = Ok b' /\
  let f := attach_as name b' in
  (obtains W s f p arg v -> ignored v = false -> lookable f v -> translated f v u -> p_str (w_env W) (spot f arg p) = Ok t ->
   (forall x groups w, u = VStr x -> e_re (w_env W) pattern x = Some groups -> captured groups ask name w ->
      ignored w = false -> py_in w (o_ignores (f_opts f)) = false -> fits (w_env W) f w -> yields W (S n) f arg s eid m es w []) /\
   (forall x, u = VStr x -> (e_re (w_env W) pattern x = None \/ exists groups, e_re (w_env W) pattern x = Some groups /\ lacks_group groups (KStr (asked ask name)) /\ lacks_group groups (KInt 1)) ->
      (igd = true \/ required f -> yields W (S n) f arg s eid m es NOTSETv (if igm then [] else [missing_at f pid t])) /\
      (forall d, igd = false -> o_default (f_opts f) = DVal d -> d <> VConst NOTSET -> yields W (S n) f arg s eid m es d [])) /\
   (ignored u = false -> (forall x, u <> VStr x) ->
      exists s', field_map W (S n) f arg s = (Exn (EType "expected string or bytes-like object"), s') /\ stk s' = stk s /\ forms s' = forms s /\ errs s' = errs s)).
Proof. exact C76_lem. Qed.
Print Assumptions C76_capture.
Definition cap (ask : option string) (name : string) : field :=
  match string_capture env1 "id-" ask (Some name) text_b with Ok b => attach_as name b | Exn _ => anon KAny end.
Example C76_case : let s d := in_form (jdict [("code", d); ("k", d)]) [] in
  let go d f := let '(r, s') := field_map world1 3 f NONEv (s d) in (r, map (fun g => map what (snd g)) (errs s')) in
  (exists groups, e_re env1 "id-" "id-7" = Some groups /\ captured groups None "code" (VStr "7") /\ captured groups (Some "k") "code" (VStr "7")) /\
  map (fun d => map (go d) [cap None "code"; cap None "k"; cap (Some "code") "k"]) [VStr "id-7"; VStr "x"; VNone] =
  [ [(Ok (VStr "7"), [[]]); (Ok (VStr "7"), [[]]); (Ok (VStr "7"), [[]])];
    [(Ok NOTSETv, [[Missing]]); (Ok NOTSETv, [[Missing]]); (Ok NOTSETv, [[Missing]])];
    [(Exn (EType "expected string or bytes-like object"), [[]]); (Exn (EType "expected string or bytes-like object"), [[]]);
     (Exn (EType "expected string or bytes-like object"), [[]])] ].
Proof.
  cbv zeta. split; [|vm_compute; reflexivity]. eexists. split; [reflexivity|]. split.
  - apply cap_named. eexists [_; _], [], (KStr "code"). split; [reflexivity|]. split; [reflexivity|].
    intros x [<-|[<-|[]]]; reflexivity.
  - apply cap_first.
    + intros x [<-|[<-|[<-|[]]]]; reflexivity.
    + eexists [_], [_], (KInt 1). split; [reflexivity|]. split; [reflexivity|]. intros x [<-|[]]; reflexivity.
Qed.
(** A null is a value of the field, but breaks [capture]. *)
Theorem C76_null_refuted : exists W n name b' s e,
  string_capture (w_env W) "id-" None (Some name) text_b = Ok b' /\ mapping W s 0 Collect [] 0 (at_root s) false false /\
  obtains W s (attach_as name b') (at_root s) NONEv VNone /\ o_nullable (f_opts (attach_as name b')) = true /\
  fst (field_map W (S n) (attach_as name b') NONEv s) = Exn (EType e).
Proof.
  exists world1, 2%nat, "n". eexists. exists (in_form (jdict [("n", VNone)]) []), "expected string or bytes-like object".
  split; [reflexivity|]. split; [apply in_form_mapping|]. split; [eapply ob_null; reflexivity|]. split; reflexivity.
Qed.
Print Assumptions C76_null_refuted.

(** ** C77: [Integer.pattern] *)
(** What the pattern matches is read as an integer, or one error is reported. *)
Theorem C77_pattern : forall W n name b pattern s eid m es pid p igd igm t c,
  mapping W s eid m es pid p igd igm -> lookup "form" (stk s) = Some c -> hook_free (attach_as name b) ->
  exists b', number_pattern (w_env W) pattern b = Ok b' /\
  let f := attach_as name b' in
  (p_str (w_env W) (place f p) = Ok t -> forall x, finds_text W s f p x ->
   (forall y z w, matches (w_env W) pattern x y -> SpecSrc.int_text y z -> settles (w_env W) f (VInt z) w -> yields W (S n) f NONEv s eid m es w []) /\
   ((e_re (w_env W) pattern x = None \/ exists y, matches (w_env W) pattern x y /\ forall z, ~ SpecSrc.int_text y z) ->
    exists e, yields W (S n) f NONEv s eid m es ERRORv [invalid_at f pid (VioExn (EValue e)) t])).
Proof. exact C77_lem. Qed.
Print Assumptions C77_pattern.
Definition matching (k : kind) (pattern : string) : field :=
  match number_pattern env1 pattern (BF false no_opts k) with Ok b => attach_as "n" b | Exn _ => anon KAny end.
Example C77_case : let s := in_form (jdict [("n", VStr "12kg")]) [] in
  (exists c, lookup "form" (stk s) = Some c) /\ finds_text world1 s (matching (KInteger None None) "12") (at_root s) "12kg" /\ matches env1 "12" "12kg" "12" /\
  map (fun p => let '(r, s') := field_map world1 3 (matching (KInteger None None) p) NONEv s in (r, map (fun g => length (snd g)) (errs s'))) ["12"; "12k"; "3"] =
  [(Ok (VInt 12), [0%nat]); (Ok ERRORv, [1%nat]); (Ok ERRORv, [1%nat])].
Proof.
  cbv zeta. split; [eexists; reflexivity|]. split; [eexists _, _, _; repeat split|]. split; [|vm_compute; reflexivity].
  eexists. split; [reflexivity|]. eexists [], [_; _], (KInt 0). split; [reflexivity|]. split; [reflexivity|]. intros x [].
Qed.
(** [Float.pattern] does the same: a matched fraction is an error, a matched integer stays
    an integer. *)
Theorem C77_float_refuted : exists W n name b1 b2 s e,
  number_pattern (w_env W) "1.5" (BF false no_opts (KFloat None None)) = Ok b1 /\
  number_pattern (w_env W) "1" (BF false no_opts (KFloat None None)) = Ok b2 /\ mapping W s 0 Collect [] 0 (at_root s) false false /\
  finds_text W s (attach_as name b1) (at_root s) "1.5" /\ matches (w_env W) "1.5" "1.5" "1.5" /\
  fst (field_map W (S n) (attach_as name b1) NONEv s) = Ok ERRORv /\ errs (snd (field_map W (S n) (attach_as name b1) NONEv s)) = [(Collect, [e])] /\
  fst (field_map W (S n) (attach_as name b2) NONEv s) = Ok (VInt 1).
Proof.
  exists world1, 2%nat, "n". eexists _, _. exists (in_form (jdict [("n", VStr "1.5")]) []). eexists.
  split; [reflexivity|]. split; [reflexivity|]. split; [apply in_form_mapping|]. split; [eexists _, _, _; repeat split|].
  split; [eexists; split; [reflexivity|]; eexists [], [_; _], (KInt 0); split; [reflexivity|]; split; [reflexivity|]; intros x []|].
  split; [reflexivity|]. split; reflexivity.
Qed.
Print Assumptions C77_float_refuted.

(** ** C78: [Group] *)
(** A group groups by the fields it was given, in the order they were given, however they
    were nested in lists; without a default no match is the empty list. *)
Theorem C78_group : forall W n name items kw b,
  Group_init items kw = Ok b -> ~ says kw "attach_parent" ->
  exists l, entries_said items l /\
  let f := attach_as name b in
  (forall s eid m es pid p igd igm keys q ts c s1 t, mapping W s eid m es pid p igd igm -> p_str (w_env W) (place f p) = Ok t ->
     mapping_at W s f p keys q -> grouped W n l keys (SpecBox.within f s pid q) ts c s1 -> c <> O ->
     SpecField.untouched f (VList ts) -> ends W (S n) f s s1 (VList ts)) /\
  (unsaid kw "default" -> forall s eid m es pid p igm keys q ts s1, mapping W s eid m es pid p false igm ->
     mapping_at W s f p keys q -> grouped W n l keys (SpecBox.within f s pid q) ts 0 s1 -> ends W (S n) f s s1 (VList [])).
Proof. exact C78_lem. Qed.
Print Assumptions C78_group.
(** Such arguments, and no others, make a group. *)
Theorem C78_arguments : forall items, (exists b, Group_init items [] = Ok b) <-> exists l, entries_said items l.
Proof. exact C78_arguments_lem. Qed.
Print Assumptions C78_arguments.
(** A field without a [src] is refused; the error says where it was. *)
Theorem C78_bare : forall items path kw, bare_at items path -> Group_init items kw = Exn (EValue ("field" ++ indices path ++ ".src is not set")).
Proof. exact C78_bare_lem. Qed.
Print Assumptions C78_bare.
(** So is a tuple that is not a pair; and anything else, the error then saying where the list
    around it was. *)
Theorem C78_odd : forall items path kw, odd_at items path -> Group_init items kw = Exn (EValue ("field" ++ indices path ++ " tuple be (src, field)")).
Proof. exact C78_odd_lem. Qed.
Print Assumptions C78_odd.
Theorem C78_alien : forall items path kw, alien_at items path ->
  Group_init items kw = Exn (EValue ("field" ++ indices path ++ " should be field, (src, field) or [(src, field), ...]")).
Proof. exact C78_alien_lem. Qed.
Print Assumptions C78_alien.
Example C78_refused_case :
  odd_at [AList [ATuple [AF int_b]]] [0%nat; 0%nat] /\
  Group_init [AList [ATuple [AF int_b]]] [] = Exn (EValue "field[0][0] tuple be (src, field)") /\
  alien_at [AList [AList []; AV (VInt 3)]] [0%nat] /\
  Group_init [AList [AList []; AV (VInt 3)]] [] = Exn (EValue "field[0] should be field, (src, field) or [(src, field), ...]").
Proof.
  split; [|split; [vm_compute; reflexivity|split; [|vm_compute; reflexivity]]].
  - apply (oa_in [] [ATuple [AF int_b]] [] [] [0%nat]); [constructor|]. apply (oa_here [] [AF int_b] [] []); [constructor|discriminate].
  - apply (aa_in [] [AList []; AV (VInt 3)] [] [] []); [constructor|]. apply (aa_here [AList []] (AV (VInt 3)) [] []); [|constructor].
    apply (es_cons _ [] [] []); [constructor; constructor|constructor].
Qed.
Definition src_b (s : string) : bfield := BF true (set_src (Some (KStr s)) no_opts) (KInteger None None).
Definition nested : list arg := [AF (src_b "a"); AList [ATuple [AV (VStr "b"); AF int_b]; AList [ATuple [ARe "c"; AF int_b]]]].
Example C78_case :
  (exists l, entries_said nested l /\ map fst l = [GName "a"; GName "b"; GRe "c"]) /\
  (let f := match Group_init nested [] with Ok b => attach_as "g" b | Exn _ => anon KAny end in
   map (fun d => fst (field_map world0 5 f NONEv (in_map (jdict d) [] Collect))) [[("c2", VInt 3); ("b", VInt 2); ("c1", VInt 1)]; [("z", VInt 1)]]) =
  [Ok (VList [VTuple [VStr "c2"; VDict [(VInt 0, VStr "c")]; VInt 3]; VTuple [VStr "b"; VNone; VInt 2]; VTuple [VStr "c1"; VDict [(VInt 0, VStr "c")]; VInt 1]]);
   Ok (VList [])] /\
  bare_at [AF (src_b "a"); AList [AF (src_b "b"); AList [AF int_b]]] [1%nat; 1%nat; 0%nat] /\
  Group_init [AF (src_b "a"); AList [AF (src_b "b"); AList [AF int_b]]] [] = Exn (EValue "field[1][1][0].src is not set").
Proof.
  assert (A : forall s, entries_said [AF (src_b s)] [(GName s, MkField (b_opts (src_b s)) (b_kind (src_b s)))]).
  { intros s. change [(GName s, MkField (b_opts (src_b s)) (b_kind (src_b s)))] with ([(GName s, MkField (b_opts (src_b s)) (b_kind (src_b s)))] ++ []).
    apply es_cons; [constructor; reflexivity|constructor]. }
  split.
  { eexists. split.
    - apply es_cons; [constructor; reflexivity|]. apply es_cons; [|constructor]. apply es_list. apply es_cons; [constructor|].
      apply es_cons; [|constructor]. apply es_list. apply es_cons; [constructor|constructor].
    - reflexivity. }
  split; [vm_compute; reflexivity|]. split; [|vm_compute; reflexivity].
  eapply (ba_in [_] _ []); [apply A|]. eapply (ba_in [_] _ []); [apply A|]. eapply (ba_here [] _ []); [constructor|reflexivity].
Qed.

(** ** C79: the value of a [Type] *)
Theorem C79_value : forall choices kw b, type_instance choices kw = Ok b ->
  (forall v, choices = [v] -> (forall c, v <> VConst c) -> type_value b = Ok (DVal v)) /\
  (length choices <> 1%nat -> type_value b = Exn (EType "is abstract or polymorphic")).
Proof. exact C79_lem. Qed.
Print Assumptions C79_value.
(** Where the source has nothing, the one choice is the value, and several leave nothing. *)
Theorem C79_absent : forall W n name choices kw b s eid m es pid p igd igm t, type_instance choices kw = Ok b -> ~ says kw "attach_parent" ->
  let f := attach_as name b in
  mapping W s eid m es pid p igd igm -> p_str (w_env W) (place f p) = Ok t -> igd = false -> absent W s f p ->
  (forall v, choices = [v] -> v <> VConst NOTSET -> yields W (S n) f NONEv s eid m es v []) /\
  (length choices <> 1%nat -> yields W (S n) f NONEv s eid m es NONEv []).
Proof. exact C79_absent_lem. Qed.
Print Assumptions C79_absent.
Example C79_absent_case : let s := in_map (jdict []) [] Collect in
  mapping world0 s 0 Collect [] 0 (at_root s) false false /\
  map (fun l => match type_instance (map VStr l) [] with Ok b => fst (field_map world0 3 (attach_as "n" b) NONEv s) | Exn e => Exn e end) [["a"]; ["a"; "b"]] = [Ok (VStr "a"); Ok NONEv].
Proof. split; [in_map|]. vm_compute. reflexivity. Qed.
Example C79_case : map (fun l => bindr (type_instance (map VStr l) []) type_value) [["a"]; ["a"; "b"]] =
  [Ok (DVal (VStr "a")); Exn (EType "is abstract or polymorphic")].
Proof. reflexivity. Qed.
(** An abstract type has no value, but [value] gives one: the method [default] itself. *)
Theorem C79_abstract_refuted : exists b d, type_abstract [] [] = Ok b /\ type_value b = Ok d.
Proof. eexists _, _. split; reflexivity. Qed.
Print Assumptions C79_abstract_refuted.

(** ** C80: [Tuple] *)
(** The fields in the order given, each from the item at its place; another number of items
    is an error. *)
Theorem C80_tuple : forall W n name args kw fs b s eid m es pid p igd igm t,
  Tuple_init args kw = Ok b -> fields_said args fs -> static_default kw -> ~ says kw "attach_parent" ->
  let f := attach_as name b in let gs := map (fun b => MkField (b_opts b) (b_kind b)) fs in
  mapping W s eid m es pid p igd igm -> p_str (w_env W) (place f p) = Ok t ->
  (forall q vs s1, sequence_at W s f p (length fs) q -> items W n (zipped 0 gs) (SpecBox.within f s pid q) vs s1 -> SpecField.untouched f (VTuple (survivors vs)) ->
     ends W (S n) f s s1 (VTuple (survivors vs))) /\
  (forall q len, m = Collect -> sequence_at W s f p len q -> len <> length fs ->
     yields W (S n) f NONEv s eid m es ERRORv [invalid_at f pid (VioItems (length fs)) t]).
Proof. exact C80_lem. Qed.
Print Assumptions C80_tuple.
Definition tuple_args : list arg := [AV (VStr "l"); AF int_b; AF text_b].
Example C80_case : fields_said tuple_args [int_b; text_b] /\
  let f := match Tuple_init tuple_args [] with Ok b => attach_as "x" b | Exn _ => anon KAny end in
  map (fun l => fst (field_map world0 4 f NONEv (in_map (jdict [("l", VList l)]) [] Collect))) [[VInt 1; VStr "q"]; [VInt 1]] =
  [Ok (VTuple [VInt 1; VStr "q"]); Ok ERRORv].
Proof.
  split; [|vm_compute; reflexivity]. apply fs_src; [apply (fs_apart [int_b; text_b]); repeat constructor|]. intros x rest H. discriminate.
Qed.
(** One field alone is refused, and so is no field, the latter by accident. *)
Theorem C80_single_field : forall f kw, Tuple_init [AF f] kw = Exn (EType "is not a field sequence") /\ Tuple_init [] kw = Exn EIndex.
Proof. intros f kw. split; reflexivity. Qed.
Print Assumptions C80_single_field.
(** Something that is not a field is refused: a number or a text with a [ValueError] (the message
    cannot be formatted), anything else with a [TypeError]. *)
Theorem C80_not_a_field : forall fs a rest kw, (forall f, a <> AF f) ->
  exists e, refusal a e /\ Tuple_init [AList (map AF fs ++ a :: rest)] kw = Exn e /\ Tuple_init [ATuple (map AF fs ++ a :: rest)] kw = Exn e /\
    (forall f, Tuple_init (AF f :: map AF fs ++ a :: rest) kw = Exn e).
Proof. exact C80_refuses_lem. Qed.
Print Assumptions C80_not_a_field.
Example C80_not_a_field_case : (forall f, AV (VInt 3) <> AF f) /\ number_or_text (AV (VInt 3)) /\ ~ number_or_text (AV VNone) /\
  Tuple_init [AF int_b; AV (VInt 3)] [] = Exn (EValue "Unknown format code 'r'") /\ Tuple_init [AF int_b; AV VNone] [] = Exn (EType "unsupported format string").
Proof. split; [discriminate|]. split; [constructor|]. split; [intros N; inversion N|]. split; reflexivity. Qed.
