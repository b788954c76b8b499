(** * Theorems C37, C39, C43, C44, C65: mapping a form and its sub-forms.

    Every source, every reachable state of the context, collect and raise mode.  What the
    mapping of each field does is in the relation [maps]. *)
From Verif Require Import PyBase PyStr Source Field Context Fields SpecCtx SpecField SpecBox SpecLocal SpecDrop SpecForm FormLemmas Demo PropsField PropsBox PropsDrop.
Open Scope Z_scope.

(** C39: whatever [form.map] does, it is one of these: every chosen field is mapped in
    declaration order, also after earlier ones failed, and the errors returned are the
    concatenation of the errors of each; or a field raises; or the source is no mapping. *)
Theorem C39_all_fields_in_order : forall W n id t l a src tags rs u m s tg gs,
  reach W s -> nth_error (forms s) id = Some (t, l) -> at_top s a -> as_source a src ->
  ignoring u -> in_force s tags tg -> choice tg (ft_fields t) gs ->
  outcome W n id src m rs gs s (fst (Form_map W n id a tags rs u m s)) (snd (Form_map W n id a tags rs u m s)).
Proof. exact C39_lem. Qed.
Print Assumptions C39_all_fields_in_order.
Definition s_outer : st := snd (new_form Outer init).
Example C39_case :
  reach world0 s_outer /\ nth_error (forms s_outer) 0 = Some (Outer, []) /\ at_top s_outer (ASrc (json outer_bad)) /\
  as_source (ASrc (json outer_bad)) (json outer_bad) /\ ignoring UIgnore /\ in_force s_outer [] [] /\
  choice [] (ft_fields Outer) (ft_fields Outer) /\
  (exists es, fst (Form_map world0 9 0 (ASrc (json outer_bad)) [] false UIgnore Collect s_outer) = Ok es /\
    map where_ es = [("a", Some 0%nat); ("l[1]", Some 0%nat); ("sub.x", Some 0%nat); ("sub.y", Some 0%nat)]).
Proof.
  split; [apply reach_form, reach_init|]. split; [reflexivity|]. split; [eexists; reflexivity|]. split; [constructor|].
  split; [now left|]. split; [right; split; reflexivity|]. split; [repeat (constructor; [now left|]); constructor|].
  eexists. split; vm_compute; reflexivity.
Qed.

(** C43: entries whose key is not the name of a chosen field are as before. *)
Theorem C43_unselected_unchanged : forall W C n id t l a src tags rs u m s tg gs es s' k,
  reach W s -> nth_error (forms s) id = Some (t, l) -> at_top s a -> as_source a src ->
  ignoring u -> in_force s tags tg -> choice tg (ft_fields t) gs -> still_classes C W -> still_form C t ->
  Form_map W n id a tags rs u m s = (Ok es, s') -> (forall g, In g gs -> k <> VStr (fname g)) ->
  dict_get (entries_at s' id) k = dict_get (entries_at s id) k.
Proof. exact C43_lem. Qed.
Print Assumptions C43_unselected_unchanged.

(** C44: afterwards the form holds what it held before, without the entries of the chosen
    fields if [reset], overwritten by the values just mapped, in that order; and no other
    form has changed. *)
Theorem C44_reset_then_map : forall W C n id t l a src tags rs u m s tg gs es s',
  reach W s -> nth_error (forms s) id = Some (t, l) -> at_top s a -> as_source a src ->
  ignoring u -> in_force s tags tg -> choice tg (ft_fields t) gs -> still_classes C W -> still_form C t ->
  Form_map W n id a tags rs u m s = (Ok es, s') ->
  exists s1 vs news s2, begins W id src m rs gs s s1 /\ maps W n id (length (errs s)) gs s1 vs news s2 /\ es = concat news /\
    nth_error (forms s') id = Some (t, assigned gs vs (if rs then without gs l else l)) /\
    forall i x, i <> id -> nth_error (forms s) i = Some x -> nth_error (forms s') i = Some x.
Proof. exact C44_lem. Qed.
Print Assumptions C44_reset_then_map.
(** Name by name: the value of the last field of that name that mapped; failing that,
    nothing after a reset, and the old value otherwise. *)
Theorem C44_stale_or_reset : forall W C n id t l a src tags rs u m s tg gs es s',
  reach W s -> nth_error (forms s) id = Some (t, l) -> at_top s a -> as_source a src ->
  ignoring u -> in_force s tags tg -> choice tg (ft_fields t) gs -> still_classes C W -> still_form C t ->
  Form_map W n id a tags rs u m s = (Ok es, s') ->
  exists s1 vs news s2, begins W id src m rs gs s s1 /\ maps W n id (length (errs s)) gs s1 vs news s2 /\ es = concat news /\
    forall b, dict_get (entries_at s' id) (VStr b) =
      latest gs vs b (if rs && named gs (VStr b) then None else dict_get (entries_at s id) (VStr b)).
Proof. exact C44_stale_lem. Qed.
Print Assumptions C44_stale_or_reset.
(** Three integer fields, two of them tagged "t"; the form already holds all three. *)
Definition tagged (n : string) (tags : list string) : field := with_tags tags (fld n (KInteger None None)).
Definition Tagged : formty := FormTy "Tagged" [tagged "a" ["t"]; tagged "b" []; tagged "c" ["u"; "t"]].
Definition abc : list (val * val) := [(VStr "a", VInt 1); (VStr "b", VInt 2); (VStr "c", VInt 3)].
Definition s_tagged : st := St (stk init) [(Tagged, abc)] (paths init) (errs init).
Definition ac : list field := [tagged "a" ["t"]; tagged "c" ["u"; "t"]].
Definition no_class (c : string) : Prop := False.
Lemma no_classes W : still_classes no_class W. Proof. intros c t []. Qed.
Lemma still_tagged : still_form no_class Tagged.
Proof. constructor. intros f [<-|[<-|[<-|[]]]]; local_leaf. Qed.
(** The source has a new "a", a bad "b" and no "c". *)
Definition some_abc : source := json (jdict [("a", VInt 7); ("b", VStr "q")]).
Lemma C43_case_hyps :
  reach world0 s_tagged /\ nth_error (forms s_tagged) 0 = Some (Tagged, abc) /\ at_top s_tagged (ASrc some_abc) /\
  as_source (ASrc some_abc) some_abc /\ ignoring UIgnore /\ in_force s_tagged ["t"] ["t"] /\
  choice ["t"] (ft_fields Tagged) ac /\ still_classes no_class world0 /\ still_form no_class Tagged.
Proof.
  split; [exact (reach_heap world0 [(Tagged, abc)] (errs init) init (reach_init world0))|]. split; [reflexivity|]. split; [eexists; reflexivity|].
  split; [constructor|]. split; [now left|]. split; [left; split; [discriminate|reflexivity]|].
  split; [|split; [apply no_classes|exact still_tagged]]. cbn [ft_fields Tagged].
  apply ch_in; [right; exists "t"; split; now left|]. apply ch_out; [intros [H|(x & _ & [])]; discriminate|].
  apply ch_in; [right; exists "t"; split; [now left|right; now left]|]. apply ch_nil.
Qed.
Example C43_case : (forall g, In g ac -> VStr "b" <> VStr (fname g)) /\
  (exists es s', Form_map world0 9 0 (ASrc some_abc) ["t"] false UIgnore Collect s_tagged = (Ok es, s') /\
    entries_at s' 0 = [(VStr "a", VInt 7); (VStr "b", VInt 2); (VStr "c", VInt 3)] /\ map where_ es = [("c", Some 0%nat)]).
Proof.
  split; [intros g [<-|[<-|[]]]; discriminate|]. eexists _, _. split; [vm_compute; reflexivity|]. split; vm_compute; reflexivity.
Qed.
(** The same tags set by a hook, in a [with ctx(tags=['t'])] block. *)
Example C43_hook_case :
  let s := St (user_vars [("tags", VList [VStr "t"])] :: stk init) [(Tagged, abc)] [] [] in
  in_force s [] ["t"] /\
  exists es s', Form_map world0 9 0 (ASrc some_abc) [] false UIgnore Collect s = (Ok es, s') /\
    entries_at s' 0 = [(VStr "a", VInt 7); (VStr "b", VInt 2); (VStr "c", VInt 3)] /\ map where_ es = [("c", Some 0%nat)].
Proof. split; [right; split; [reflexivity|left; reflexivity]|]. eexists _, _. split; [vm_compute; reflexivity|]. split; vm_compute; reflexivity. Qed.
Example C44_case :
  exists es s', Form_map world0 9 0 (ASrc some_abc) ["t"] true UIgnore Collect s_tagged = (Ok es, s') /\
    entries_at s' 0 = [(VStr "b", VInt 2); (VStr "a", VInt 7)] /\ map where_ es = [("c", Some 0%nat)].
Proof. eexists _, _. split; [vm_compute; reflexivity|]. split; vm_compute; reflexivity. Qed.

(** A polymorphic sub-form whose class has such a field itself: nodes of a tree. *)
Definition node_type : field := fld "type" (KString no_strc).
Definition next_node : field := MkField (let o := f_opts (fld "next" KAny) in
  MkOpts (o_name o) (o_src o) true (DVal VNone) [] [] ["t"] false None None None None None None)
  (KPoly (FormTy "TypeProbe" [node_type]) node_type [(VStr "node", "Node")] false UIgnore).
Definition Node : formty := FormTy "Node" [node_type; next_node].
Definition node_world : world := MkWorld env0 (fun c => if String.eqb c "Node" then Some Node else None).
Lemma still_node : still_classes (eq "Node") node_world /\ still_form (eq "Node") Node.
Proof.
  assert (T : still (eq "Node") node_type) by local_leaf.
  assert (N : still_form (eq "Node") Node).
  { constructor. intros f [<-|[<-|[]]]; [exact T|]. local_leaf; [|exact T|constructor|].
    - constructor. intros f [<-|[]]. exact T.
    - intros i c [E|[]]. now injection E as _ <-. }
  split; [|exact N]. intros c t <- E. injection E as <-. exact N.
Qed.
Definition nodes : source := json (jdict [("type", VStr "q"); ("next", jdict [("type", VStr "node"); ("next", jdict [("type", VStr "node")])])]).
Definition s_node : st := St (stk init) [(Node, [(VStr "type", VStr "old")])] [] [].
Example C43_poly_case :
  nth_error (forms s_node) 0 = Some (Node, [(VStr "type", VStr "old")]) /\ choice ["t"] (ft_fields Node) [next_node] /\
  exists s', Form_map node_world 12 0 (ASrc nodes) ["t"] false UIgnore Collect s_node = (Ok [], s') /\
    entries_at s' 0 = [(VStr "type", VStr "old"); (VStr "next", VForm 2)] /\
    dict_get (entries_at s' 2) (VStr "next") = Some (VForm 4).
Proof.
  split; [reflexivity|]. split; [apply ch_out; [intros [H|(x & _ & [])]; discriminate|]; apply ch_in; [right; exists "t"; split; now left|apply ch_nil]|].
  eexists. split; [vm_compute; reflexivity|]. split; vm_compute; reflexivity.
Qed.

(** C37: the fields of a sub-form are mapped as those of a form of their own, in an error
    list of their own; these errors are then appended, once and in order, to the list of
    the enclosing form, and a sub-form with errors has no value.  Any form, whatever its hooks
    do; [more] is what they added themselves to the enclosing list (reading an attribute of
    the enclosing form can), which is nothing for fields that report where they are. *)
Theorem C37_subform_errors_once : forall W n f t rs u s eid m es pid p igd igm tg gs q tx vs news s2,
  mapping W s eid m es pid p igd igm -> plain_steps f -> f_kind f = KSubForm t rs u -> ignoring u ->
  src_set s f -> in_force s [] tg -> choice tg (ft_fields t) gs ->
  sub_at W s f t p q -> p_str (w_env W) (place f p) = Ok tx ->
  maps W n (length (forms s)) (length (errs s)) gs (inside_sub f t s pid q) vs news s2 ->
  untouched f (VForm (length (forms s))) ->
  exists more, nth_error (errs s2) eid = Some (m, es ++ more) /\ (local_form t -> more = []) /\
  exists s', field_map W (S n) f NONEv s = (Ok (match concat news with [] => VForm (length (forms s)) | _ => ERRORv end), s') /\
    stk s' = stk s /\ forms s' = forms s2 /\ errs s' = replace_nth eid (m, (es ++ more) ++ concat news) (errs s2).
Proof. exact C37_lem. Qed.
Print Assumptions C37_subform_errors_once.
(** A field of the sub-form that raises: the enclosing field reports what it catches and
    passes on the rest. *)
Theorem C37_subform_raises : forall W n f t rs u s eid m es pid p igd igm tg gs q tx x s2,
  mapping W s eid m es pid p igd igm -> plain_steps f -> f_kind f = KSubForm t rs u -> ignoring u ->
  src_set s f -> in_force s [] tg -> choice tg (ft_fields t) gs ->
  sub_at W s f t p q -> p_str (w_env W) (place f p) = Ok tx ->
  maps_raise W n (length (forms s)) (length (errs s)) gs (inside_sub f t s pid q) x s2 ->
  if caught_by_compute x then rejects W (S n) f s s2 eid (invalid_at f pid (VioExn (spoken x)) tx) else fails W (S n) f s s2 x.
Proof. exact C37_raise_lem. Qed.
Print Assumptions C37_subform_raises.
(** Below the path of the sub-form are the paths of its errors: theorem C69. *)
Example C37_case : let s := s_sub in let f := sub_field in
  mapping world0 s 0 Collect [] 0 (at_root s) false false /\ plain_steps f /\ f_kind f = KSubForm Inner false UIgnore /\ ignoring UIgnore /\
  src_set s f /\ local_form Inner /\ in_force s [] [] /\ choice [] (ft_fields Inner) (ft_fields Inner) /\
  (exists q, sub_at world0 s f Inner (at_root s) q /\
    exists vs news s2, maps world0 4 (length (forms s)) (length (errs s)) (ft_fields Inner) (inside_sub f Inner s 0 q) vs news s2 /\
      map where_ (concat news) = [("sub.x", Some 0%nat); ("sub.y", Some 0%nat)]) /\
  untouched f (VForm (length (forms s))).
Proof.
  cbv zeta. split; [in_map|]. split; [free|]. split; [reflexivity|]. split; [now left|]. split; [eexists; split; reflexivity|].
  split; [exact local_inner|]. split; [right; split; reflexivity|]. split; [repeat (constructor; [now left|]); constructor|]. split; [|plain_value].
  eexists. split.
  - eexists _, _. split; [eexists; split; reflexivity|vm_compute; reflexivity].
  - eexists _, _, _. split.
    + eapply ms_cons; [vm_compute; reflexivity|reflexivity|vm_compute; reflexivity|].
      eapply ms_cons; [vm_compute; reflexivity|vm_compute; reflexivity|vm_compute; reflexivity|]. apply ms_nil.
    + vm_compute. reflexivity.
Qed.

(** C65: [attach_parent] on a value without attributes raises out of [form.map]. *)
Definition with_parent (f : field) : field :=
  let o := f_opts f in
  MkField (MkOpts (o_name o) (o_src o) (o_nullable o) (o_default o) (o_ignores o) (o_translations o)
                  (o_tags o) true (o_compute o) (o_resolve o) (o_parse o) (o_munge o) (o_filter o) (o_validate o)) (f_kind f).
Theorem C65_attach_parent_refuted : exists f v,
  o_attach_parent (f_opts f) = true /\ o_compute (f_opts f) = None /\ o_parse (f_opts f) = None /\ o_munge (f_opts f) = None /\
  o_filter (f_opts f) = None /\ o_validate (f_opts f) = None /\
  let t := FormTy "T" [f] in let u := FormTy "U" [MkField (let o := f_opts f in
    MkOpts (o_name o) (o_src o) (o_nullable o) (o_default o) (o_ignores o) (o_translations o)
      (o_tags o) false (o_compute o) (o_resolve o) (o_parse o) (o_munge o) (o_filter o) (o_validate o)) (f_kind f)] in
  fst (Form_map world0 9 0 (ASrc (json v)) [] false UIgnore Collect (snd (new_form u init))) = Ok [] /\
  fst (Form_map world0 9 0 (ASrc (json v)) [] false UIgnore Collect (snd (new_form t init))) = Exn (EAttr "object has no attribute 'parent'").
Proof.
  exists (with_parent (fld "a" (KInteger None None))), (jdict [("a", VInt 7)]).
  repeat (split; [reflexivity|]). cbv zeta. split; vm_compute; reflexivity.
Qed.
Print Assumptions C65_attach_parent_refuted.
