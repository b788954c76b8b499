(** * Theorems C42, C48-C53, C64: form objects outside mapping. *)
From Coq Require Import Sorting.
From Verif Require Import PyBase PyStr Source Field Context Fields Forms SpecForms ObjProofs LeafProofs FormsLemmas Demo SpecAttr AttrProofs.

(** C42: [Form(src)] is a new form with the given dict entries, mapped from [src]; the
    errors of [map], if any, are raised as one [FormError], in order. *)
Theorem C42_constructor : forall W fuel t a more kw s,
  match a with ASrc _ => True | AVal v => container v = true | ANone => False end ->
  let id := length (forms s) in
  let s1 := St (stk s) (forms s ++ [(t, dict_update (dict_update [] more) (kw_dict kw))]) (paths s) (errs s) in
  form_init W (field_map W fuel) t (Some a) more kw s =
  match Form_map W fuel id a [] false UIgnore Collect s1 with
  | (Ok [], s2) => (Ok id, s2)
  | (Ok es, s2) => (Exn (EForm es), s2)
  | (Exn e, s2) => (Exn e, s2)
  end.
Proof. exact C42_lem. Qed.
Print Assumptions C42_constructor.

(** Keyword arguments alone are a dict to map from. *)
Theorem C42_keywords : forall W fuel t more kw s, kw <> [] ->
  form_init W (field_map W fuel) t None more kw s =
  form_init W (field_map W fuel) t (Some (AVal (VDict (kw_dict kw)))) [] [] s.
Proof. exact C42_keywords_lem. Qed.
Print Assumptions C42_keywords.

(** Without arguments nothing is mapped: required fields are not missed. *)
Theorem C42_no_arguments : forall W fuel t s,
  form_init W (field_map W fuel) t None [] [] s =
  (Ok (length (forms s)), St (stk s) (forms s ++ [(t, [])]) (paths s) (errs s)).
Proof. exact C42_empty_lem. Qed.
Print Assumptions C42_no_arguments.

(** [None] is not a source: [Form(None)] fails although [Form().map(None)] maps from
    an empty one. *)
Theorem C42_none_refuted : exists W fuel t e s2 id s3,
  form_init W (field_map W fuel) t (Some (AVal VNone)) [] [] init = (Exn (ESource e), s2) /\
  (id <- new_form t; Form_map W fuel id (AVal VNone) [] false UIgnore Collect;; ret id) init = (Ok id, s3).
Proof.
  exists world0, 5%nat, (FormTy "Empty" []). vm_compute.
  eexists. eexists. eexists. eexists. split; [reflexivity|reflexivity].
Qed.
Print Assumptions C42_none_refuted.

Example C42_case :
  (exists s, form_init world0 (field_map world0 9) Outer (Some (AVal outer_ok)) [] [] init = (Ok 0%nat, s)) /\
  (exists e1 e2 e3 e4 s, form_init world0 (field_map world0 9) Outer (Some (AVal outer_bad)) [] [] init =
    (Exn (EForm [e1; e2; e3; e4]), s)) /\ container outer_bad = true.
Proof.
  split; [|split; [|reflexivity]].
  - eexists. vm_compute. reflexivity.
  - vm_compute. eexists. eexists. eexists. eexists. eexists. reflexivity.
Qed.

(** C48: any sequence of attribute reads, assignments and deletions answers and ends
    as on finite maps, one per form; nothing else changes. *)
Theorem C48_attributes : forall W fuel ops s,
  (forall o, In o ops -> addressed s o) -> reads_present ops (map_of s) ->
  exists s', do_aops W fuel ops s = (Ok (fst (spec_aops ops (map_of s))), s') /\
    (forall i k, map_of s' i k = snd (spec_aops ops (map_of s)) i k) /\
    stk s' = stk s /\ paths s' = paths s /\ errs s' = errs s /\
    (forall i, option_map fst (nth_error (forms s') i) = option_map fst (nth_error (forms s) i)).
Proof. exact C48_lem. Qed.
Print Assumptions C48_attributes.

Definition two_forms : st :=
  St (stk init) [(Inner, [(VStr "x", VInt 1)]); (Outer, [(VStr "sub", VForm 0); (VStr "extra", VInt 7); (VStr "l", VTuple [VInt 5])])] [] [].
Definition some_ops : list aop :=
  [ASet 0 "x" (VInt 2); ASet 1 "a" (VInt 3); AGet 0 "x"; ADel 0 "x"; ADel 0 "x"; AGet 1 "a"].
Example C48_case : (forall o, In o some_ops -> addressed two_forms o) /\ reads_present some_ops (map_of two_forms) /\
  fst (spec_aops some_ops (map_of two_forms)) = [None; None; Some (VInt 2); None; None; Some (VInt 3)].
Proof.
  split; [|split; [|reflexivity]].
  - intros o I. cbn [some_ops In] in I. unfold addressed.
    repeat (destruct I as [<-|I]; [eexists; eexists; eexists; split; [reflexivity|split; [left; reflexivity|reflexivity]]|]). destruct I.
  - cbn. repeat split; discriminate.
Qed.

(** C49: outside a mapping, or inside the form's own, a lazily read value is never a
    sentinel, and it is stored. *)
Theorem C49_own_reads_partial : forall W fuel f id s v s',
  dict_get (entries s id) (VStr (fname f)) = None ->
  (match lookup "form" (stk s) with None => true | Some c => is_none_c c end = true \/
   lookup "parent" (stk s) = Some (CForm id)) ->
  field_get W (field_map W fuel) f id s = (Ok v, s') ->
  (forall c, v <> VConst c) /\
  ((exists x, nth_error (forms s') id = Some x) -> dict_get (entries s' id) (VStr (fname f)) = Some v).
Proof. exact C49_lem. Qed.
Print Assumptions C49_own_reads_partial.

(** A hook of a sub-form's field reading the enclosing form's field [x], and keeping
    what it read. *)
Definition keeps_x : hook prog :=
  MkHook true (fun _ _ => PGet 0 "x" (fun r => match r with Ok v => PRet (VTuple [v]) | Exn e => PRaise e end)).
Definition with_compute (h : hook prog) (f : field) : field :=
  let o := f_opts f in
  MkField (MkOpts (o_name o) (o_src o) (o_nullable o) (o_default o) (o_ignores o) (o_translations o)
                  (o_tags o) (o_attach_parent o) (Some h) (o_resolve o) (o_parse o)
                  (o_munge o) (o_filter o) (o_validate o)) (f_kind f).
Definition Looks : formty := FormTy "Looks" [with_compute keeps_x (fld "seen" KAny)].
Definition Looked : formty := FormTy "Looked" [fld "sub" (KSubForm Looks false UIgnore); fld "x" (KInteger None None)].

(** The hook sees the sentinel [NOT_SET]: line 640 returns what [map] returned. *)
Theorem C49_rewound_read_refuted : exists W fuel t data s id,
  snd ((id <- new_form t; Form_map W fuel id (AVal data) [] false UIgnore Collect) init) = s /\
  dict_get (entries s id) (VStr "seen") = Some (VTuple [VConst NOTSET]).
Proof.
  exists world0, 9%nat, Looked, (jdict [("sub", jdict [])]). eexists. exists 1%nat. split; [reflexivity|]. vm_compute. reflexivity.
Qed.
Print Assumptions C49_rewound_read_refuted.

(** The same form, read once it is mapped: the read succeeds and is stored. *)
Example C49_case : let W := world0 in let f := with_default (VInt 4) (fld "x" (KInteger None None)) in
  let s := St (stk init) [(FormTy "F" [f], [])] [] [] in
  dict_get (entries s 0%nat) (VStr (fname f)) = None /\
  match lookup "form" (stk s) with None => true | Some c => is_none_c c end = true /\
  fst (field_get W (field_map W 5) f 0%nat s) = Ok (VInt 4).
Proof. vm_compute. repeat split. Qed.

(** C50: [has] answers yes for the names with an entry... *)
Theorem C50_present : forall W fuel id a s,
  dict_get (entries s id) (VStr a) <> None -> has_name W (field_map W fuel) id a s = (Ok true, s).
Proof. exact C50_yes_lem. Qed.
Print Assumptions C50_present.
(** ...and else only for the methods of forms, and where the field holds a method. *)
Theorem C50_yes : forall W fuel id a t l s s', nth_error (forms s) id = Some (t, l) -> has_name W (field_map W fuel) id a s = (Ok true, s') ->
  dict_get l (VStr a) <> None \/ (find_field a t = None /\ bound_method a) \/
  exists f c z, find_field a t = Some f /\ form_getattr W (field_map W fuel) id a s = (Ok (VObj c z), s') /\ String.prefix "method " c = true.
Proof. exact C50_true_lem. Qed.
Print Assumptions C50_yes.
(** A name without an entry and without a field: yes for a method, an error for anything else that
    forms have, no for the rest. *)
Theorem C50_unknown : forall W fuel id a t l s, nth_error (forms s) id = Some (t, l) -> dict_get l (VStr a) = None ->
  (forall f, In f (ft_fields t) -> o_name (f_opts f) <> Some a) ->
  (bound_method a -> has_name W (field_map W fuel) id a s = (Ok true, s)) /\
  (other_attribute (w_env W) a -> has_name W (field_map W fuel) id a s = (Exn (EAttr "__get__"), s)) /\
  (no_attribute (w_env W) a -> has_name W (field_map W fuel) id a s = (Ok false, s)).
Proof. exact C50_unknown_lem. Qed.
Print Assumptions C50_unknown.
Theorem C50_method_refuted : exists W fuel t s' a, has_name W (field_map W fuel) 0 a (St (stk init) [(t, [])] [] []) = (Ok true, s').
Proof. do 2 eexists. exists (FormTy "F" []). eexists. exists "map". apply (proj1 (C50_unknown world0 0 0 "map" (FormTy "F" []) [] (St (stk init) [(FormTy "F" [], [])] [] []) eq_refl eq_refl (fun f H => match H with end))). cbn. tauto. Qed.
Print Assumptions C50_method_refuted.
Example C50_names_case : let s := St (stk init) [(FormTy "F" [], [])] [] [] in
  bound_method "copy" /\ other_attribute env0 "keys" /\ no_attribute env0 "x" /\ other_attribute (w_env world2) "iteritems" /\ no_attribute env0 "iteritems" /\
  map (fun a => fst (has_name world0 (field_map world0 3) 0 a s)) ["copy"; "keys"; "x"] = [Ok true; Exn (EAttr "__get__"); Ok false].
Proof.
  cbv zeta. split; [cbn; tauto|]. split; [left; cbn; tauto|].
  split; [split; [intros H; cbn in H; intuition discriminate|intros [H|[H _]]; [cbn in H; intuition discriminate|discriminate]]|].
  split; [right; split; [reflexivity|cbn; tauto]|].
  split; [split; [intros H; cbn in H; intuition discriminate|intros [H|[H _]]; [cbn in H; intuition discriminate|discriminate]]|].
  vm_compute. reflexivity.
Qed.

(** ...but for the others it may raise, [FormError] for a required field and
    [AttributeError] for one with a default, which it also stores. *)
Theorem C50_absent_refuted :
  (exists W fuel t es s', has_name W (field_map W fuel) 0 "x" (St (stk init) [(t, [])] [] []) = (Exn (EForm es), s')) /\
  (exists W fuel t s', has_name W (field_map W fuel) 0 "x" (St (stk init) [(t, [])] [] []) = (Exn (EAttr "__get__"), s') /\
     dict_get (entries s' 0%nat) (VStr "x") <> None).
Proof.
  split.
  - exists world0, 5%nat, (FormTy "F" [fld "x" (KInteger None None)]). vm_compute. eexists. eexists. reflexivity.
  - exists world0, 5%nat, (FormTy "F" [with_default (VInt 4) (fld "x" (KInteger None None))]). vm_compute. eexists.
    split; [reflexivity|]. vm_compute. discriminate.
Qed.
Print Assumptions C50_absent_refuted.

(** C51: [flatten] lists exactly the leaves, each once, in field order. *)
Theorem C51_flatten : forall n s id out, flat n s [] id = Ok out ->
  exists idx, Forall2 (fun at_ x => leaf s id at_ (fst x) (snd x)) idx out /\ StronglySorted sooner idx /\
    (forall at_ fs v, leaf s id at_ fs v -> In (at_, (fs, v)) (combine idx out)).
Proof. exact C51_lem. Qed.
Print Assumptions C51_flatten.

(** It succeeds whenever forms do not nest without end. *)
Theorem C51_flatten_total : forall n s id, deep s id n -> exists out, flat n s [] id = Ok out.
Proof. exact C51_total_lem. Qed.
Print Assumptions C51_flatten_total.

Example C51_case : deep two_forms 1 2 /\
  option_map (map (fun x => (map fname (fst x), snd x))) (match flat 2 two_forms [] 1 with Ok o => Some o | _ => None end) =
  Some [(["l"], VTuple [VInt 5]); (["sub"; "x"], VInt 1)].
Proof.
  split; [|reflexivity]. constructor. intros t l f j [= <- <-] I D. cbn [Outer ft_fields In] in I.
  destruct I as [<-|[<-|[<-|[]]]]; vm_compute in D; try discriminate. injection D as <-.
  constructor. intros t l f j [= <- <-] I D. destruct I as [<-|[<-|[]]]; vm_compute in D; discriminate.
Qed.

(** C52: a form whose values hold no forms. *)
Theorem C52_filter : forall tags inv n id s t l,
  nth_error (forms s) id = Some (t, l) -> NoDup (map fname (ft_fields t)) ->
  (forall f v, In f (ft_fields t) -> dict_get l (VStr (fname f)) = Some v -> formless v) ->
  exists l', form_filter (S n) tags inv id s =
      (Ok (length (forms s)), St (stk s) (forms s ++ [(t, l')]) (paths s) (errs s)) /\
    (forall f, In f (ft_fields t) -> wanted tags inv f ->
       dict_get l' (VStr (fname f)) = match dict_get l (VStr (fname f)) with
                                     | Some (VConst NONE) => None
                                     | o => option_map as_list o
                                     end) /\
    (forall f, In f (ft_fields t) -> ~ wanted tags inv f -> dict_get l' (VStr (fname f)) = None) /\
    (forall k, (forall f, In f (ft_fields t) -> k <> VStr (fname f)) -> dict_get l' k = None).
Proof. exact C52_lem. Qed.
Print Assumptions C52_filter.

(** Nested forms of any depth: the leaves kept are those with every field on the way
    wanted. *)
Theorem C52_filter_leaves : forall n tags inv id s out,
  closed_heap s -> distinct_names s -> (id < length (forms s))%nat ->
  flat n s [] id = Ok out -> Forall (fun x => formless (snd x)) out ->
  exists d s' keep, form_filter n tags inv id s = (Ok d, s') /\ preserved s s' /\ (length (forms s) <= d)%nat /\
    (forall fs, keep fs = true <-> Forall (wanted tags inv) fs) /\
    flat n s' [] d = Ok (map (fun x => (fst x, as_list (snd x))) (filter (fun x => keep (fst x)) out)).
Proof. exact C52_leaves_lem. Qed.
Print Assumptions C52_filter_leaves.

Definition Marks : formty := FormTy "Marks" [with_tags ["m"] (fld "p" KAny); fld "q" KAny].
Definition Marked : formty :=
  FormTy "Marked" [with_tags ["m"; "n"] (fld "a" KAny); fld "b" KAny; with_tags ["m"] (fld "sub" (KSubForm Marks false UIgnore))].
Definition marked : st :=
  St (stk init) [(Marked, [(VStr "a", VInt 1); (VStr "b", VInt 2); (VStr "sub", VForm 1)]);
                 (Marks, [(VStr "p", VTuple [VInt 3]); (VStr "q", VInt 4)])] [] [].
Lemma marked_closed : closed_heap marked.
Proof.
  intros id t l k j N D. assert (I : In (VForm j) (map snd l)).
  { unfold dict_get in D. destruct (find (fun kv => py_eq (fst kv) k) l) as [[k' v']|] eqn:F; [|discriminate]. cbn in D. injection D as ->.
    apply find_some in F. destruct F as [F _]. apply in_map_iff. exists (k', VForm j). auto. }
  destruct id as [|[|id]]; [injection N as <- <-|injection N as <- <-|destruct id; discriminate N];
    cbn in I; repeat (destruct I as [E|I]; [try discriminate E; injection E as <-; cbn; auto|]); destruct I.
Qed.
Lemma marked_names : distinct_names marked.
Proof.
  intros id t l N. destruct id as [|[|id]]; [injection N as <- <-|injection N as <- <-|destruct id; discriminate N];
    cbn; repeat constructor; cbn; intuition discriminate.
Qed.
Definition marked_all : list (list field * val) := match flat 2 marked [] 0 with Ok o => o | _ => [] end.
Example C52_case : closed_heap marked /\ distinct_names marked /\ flat 2 marked [] 0 = Ok marked_all /\
  Forall (fun x => formless (snd x)) marked_all /\
  (let '(r, s) := form_filter 2 ["m"] false 0 marked in
   match r with Ok d => match flat 2 s [] d with Ok o => map (fun x => (map fname (fst x), snd x)) o | _ => [] end | _ => [] end)
  = [(["a"], VInt 1); (["sub"; "p"], VList [VInt 3])] /\
  (let '(r, s) := form_filter 2 ["m"] true 1 marked in
   match r with Ok d => entries s d | _ => [] end) = [(VStr "q", VInt 4)].
Proof.
  split; [exact marked_closed|]. split; [exact marked_names|]. split; [reflexivity|]. split; [|split; reflexivity].
  vm_compute. repeat constructor. intros j [H|[]]. discriminate H.
Qed.

(** C53: a new form of the same class with the same entries, nested forms included. *)
Theorem C53_copy : forall id t l s, nth_error (forms s) id = Some (t, l) -> distinct_keys l ->
  form_copy id s = (Ok (length (forms s)), St (stk s) (forms s ++ [(t, l)]) (paths s) (errs s)).
Proof. exact C53_copy_lem. Qed.
Print Assumptions C53_copy.

(** Later updates, to whichever forms and in whatever order: each of the two sees
    only those made to itself. *)
Theorem C53_independent : forall W fuel id t l s ops,
  nth_error (forms s) id = Some (t, l) -> distinct_keys l ->
  let s1 := snd (form_copy id s) in let d := length (forms s) in
  (forall o, In o ops -> addressed s1 o) -> (forall i a, ~ In (AGet i a) ops) ->
  exists s', snd (do_aops W fuel ops s1) = s' /\ fst (do_aops W fuel ops s1) = Ok (map (fun _ => None) ops) /\
    (forall k, map_of s' id k = snd (spec_aops (filter (fun o => Nat.eqb (aop_form o) id) ops) (map_of s)) id k) /\
    (forall k, map_of s' d k =
       snd (spec_aops (filter (fun o => Nat.eqb (aop_form o) d) ops) (fun _ k => dict_get l k)) d k).
Proof. exact C53_independent_lem. Qed.
Print Assumptions C53_independent.

Definition later : list aop := [ASet 2 "a" (VInt 1); ADel 1 "sub"; ASet 1 "a" (VInt 2)].
Example C53_case : (exists t l, nth_error (forms two_forms) 1 = Some (t, l) /\ distinct_keys l) /\
  (forall o, In o later -> addressed (snd (form_copy 1 two_forms)) o) /\ (forall i a, ~ In (AGet i a) later) /\
  entries (snd (do_aops world0 3 later (snd (form_copy 1 two_forms)))) 2%nat =
    [(VStr "sub", VForm 0); (VStr "extra", VInt 7); (VStr "l", VTuple [VInt 5]); (VStr "a", VInt 1)].
Proof.
  split; [|split; [|split]].
  - eexists. eexists. split; [reflexivity|]. cbn. intuition; subst; reflexivity.
  - intros o I. cbn [later In] in I. unfold addressed. destruct I as [<-|[<-|[<-|[]]]]; eexists; eexists.
    + exists (fld "a" (KInteger None None)). split; [reflexivity|]. split; [now left|reflexivity].
    + exists (fld "sub" (KSubForm Inner false UIgnore)). split; [reflexivity|]. split; [right; right; now left|reflexivity].
    + exists (fld "a" (KInteger None None)). split; [reflexivity|]. split; [now left|reflexivity].
  - intros i a [H|[H|[H|[]]]]; discriminate H.
  - vm_compute. reflexivity.
Qed.

(** C64: a line per error, between two empty ones. *)
Theorem C64_error_text : forall es, es <> [] -> Forall (fun e => one_line (fst e) /\ one_line (snd e)) es ->
  text_lines (form_error_message es) = ("" :: map (fun e => "* " ++ fst e ++ ": " ++ snd e) es ++ [""])%string.
Proof. exact C64_lem. Qed.
Print Assumptions C64_error_text.

(** A message is not escaped: one with a line break is not one line. *)
Theorem C64_line_breaks_refuted : exists es, es <> [] /\
  text_lines (form_error_message es) <> ("" :: map (fun e => "* " ++ fst e ++ ": " ++ snd e) es ++ [""])%string.
Proof. exists [("Invalid"%string, ("a" ++ String newline "b")%string)]. split; [discriminate|]. vm_compute. discriminate. Qed.
Print Assumptions C64_line_breaks_refuted.

(** For any errors at all: the lines of their texts, in their order, between two empty lines. *)
Theorem C64_all_lines : forall es, es <> [] ->
  text_lines (form_error_message es) = ("" :: flat_map (fun e => text_lines ("* " ++ fst e ++ ": " ++ snd e)) es ++ [""])%string.
Proof. exact C64_all_lem. Qed.
Print Assumptions C64_all_lines.
Example C64_all_case : let es := [("Missing"%string, "a - missing"%string); ("Invalid"%string, ("b" ++ String newline "c")%string)] in
  es <> [] /\ List.length (text_lines (form_error_message es)) = 5%nat.
Proof. split; [discriminate|]. vm_compute. reflexivity. Qed.

Example C64_case : let es := [("Missing", "a - missing"); ("Invalid", "b - not an integer")]%string in
  es <> [] /\ Forall (fun e => one_line (fst e) /\ one_line (snd e)) es.
Proof.
  split; [discriminate|]. repeat constructor; unfold one_line; cbn;
    intros H; repeat (destruct H as [H|H]; [discriminate H|]); exact H.
Qed.
