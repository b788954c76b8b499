(** * Theorems C88, C89: form classes made on the fly. *)
From Coq Require Import Permutation Sorted Lia.
From Verif Require Import PyBase PyStr Meta SpecMeta BuiltProofs ProbeProofs.

(** C88: the form that probes for the type has copies of the fields up to the type field, in
    the same order and reading the same keys, and nothing else; the fields and classes there
    are do not change. *)
Theorem C88_probe_is_a_prefix : forall s form tf o c pre post, built s -> fieldless s form ->
  nth_error (m_fields s) tf = Some o -> fo_parent o = Some (InClass c) -> fields_of s c = pre ++ tf :: post ->
  NoDup (map (name_of s) (pre ++ [tf])) -> NoDup (map (count_of s) (pre ++ [tf])) ->
  exists p s', for_field form tf s = (Some p, s') /\ only_adds s s' /\
    (length (m_classes s) <= p)%nat /\ (forall f, In f (fields_of s' p) -> (length (m_fields s) <= f)%nat) /\
    map (shows s') (fields_of s' p) = map (shows s) (pre ++ [tf]) /\
    map (count_of s') (fields_of s' p) = map (count_of s) (pre ++ [tf]).
Proof. exact C88_lem. Qed.
Print Assumptions C88_probe_is_a_prefix.
(** There always is one: a field registered in a class is in the class's list. *)
Theorem C88_probe_exists : forall s form tf o c, built s -> nth_error (m_fields s) tf = Some o -> fo_parent o = Some (InClass c) ->
  exists p s', for_field form tf s = (Some p, s').
Proof. exact C88_found_lem. Qed.
Print Assumptions C88_probe_exists.

(** [Form]; a form with the fields "b", "type" and "a", created in that order. *)
Definition only_form : mst := define_class [] [] [] (MkS [] [] 0).
Definition three_fields : mst :=
  snd (new_field None None (snd (new_field (Some "kind") (Some ["x"; "y"]) (snd (new_field None None only_form))))).
Definition typed : mst := define_class [0%nat] [0%nat] [("a", MField 2); ("b", MField 0); ("type", MField 1)] three_fields.
Lemma three_built : built three_fields.
Proof. unfold three_fields. do 3 apply built_field. apply built_class; [constructor| | |]; intros; contradiction. Qed.
Lemma typed_built : built typed.
Proof.
  unfold typed. apply built_class; [exact three_built| | |].
  - intros b [<-|[]]. cbn. lia.
  - intros b [<-|[]]. cbn. lia.
  - intros n f [[= <- <-]|[[= <- <-]|[[= <- <-]|[]]]]; cbn; lia.
Qed.
Lemma form_fieldless s : nth_error (m_classes s) 0 = Some (MkC [] [] [] []) -> fieldless s 0.
Proof.
  intros K. exists (MkC [] [] [] []). split; [exact K|]. intros b n g [<-|[]]. unfold class_attr. rewrite K. cbn [c_mro mro_attr]. rewrite K. discriminate.
Qed.
Example C88_case : built typed /\ fieldless typed 0 /\ fields_of typed 1 = [0; 1; 2]%nat /\
  option_map fo_parent (nth_error (m_fields typed) 1) = Some (Some (InClass 1)) /\
  NoDup (map (name_of typed) [0; 1]%nat) /\ NoDup (map (count_of typed) [0; 1]%nat) /\
  let '(p, s') := for_field 0 1 typed in
  p = Some 2%nat /\ fields_of s' 2 = [3; 4]%nat /\ map (shows s') [3; 4]%nat = [Some (Some "b", Some "b", None); Some (Some "type", Some "kind", Some ["x"; "y"])].
Proof.
  split; [exact typed_built|]. split; [apply form_fieldless; reflexivity|]. split; [reflexivity|]. split; [reflexivity|].
  split; [repeat constructor; cbn; intuition discriminate|]. split; [repeat constructor; cbn; intuition discriminate|]. vm_compute. auto.
Qed.

(** Two fields of the same name: the probe has only the later one.  A form with the field
    "x"; below it one with another "x", the first "x" once more as "w", and the type. *)
Definition twice : mst :=
  define_class [1%nat] [1; 0]%nat [("x", MField 1); ("w", MField 0); ("type", MField 2)]
    (snd (new_field None (Some ["k"]) (snd (new_field None None
      (define_class [0%nat] [0%nat] [("x", MField 0)] (snd (new_field None None only_form))))))).
Theorem C88_same_names_refuted : exists s form tf o c pre post, built s /\ fieldless s form /\
  nth_error (m_fields s) tf = Some o /\ fo_parent o = Some (InClass c) /\ fields_of s c = pre ++ tf :: post /\
  forall p s', for_field form tf s = (Some p, s') -> length (fields_of s' p) <> length (pre ++ [tf]).
Proof.
  exists twice, 0%nat, 2%nat. eexists. exists 2%nat, [0; 1]%nat, []. split; [|split; [|split; [|split; [|split]]]].
  - unfold twice. apply built_class; [do 2 apply built_field; apply built_class; [apply built_field, built_class; [constructor| | |]; intros; contradiction| | |]| | |].
    + intros b [<-|[]]. cbn. lia.
    + intros b [<-|[]]. cbn. lia.
    + intros n f [[= <- <-]|[]]. cbn. lia.
    + intros b [<-|[]]. cbn. lia.
    + intros b [<-|[<-|[]]]; cbn; lia.
    + intros n f [[= <- <-]|[[= <- <-]|[[= <- <-]|[]]]]; cbn; lia.
  - apply form_fieldless. reflexivity.
  - reflexivity.
  - reflexivity.
  - vm_compute. reflexivity.
  - intros p s' H. assert (E : let '(p, s') := for_field 0 2 twice in match p with Some p => length (fields_of s' p) | None => 9%nat end = 2%nat) by (vm_compute; reflexivity).
    rewrite H in E. rewrite E. discriminate.
Qed.
Print Assumptions C88_same_names_refuted.

(** C89: the class made by [from_fields] does not depend on the order of the keywords. *)
Theorem C89_keyword_order : forall s base fs fs', Permutation fs fs' -> NoDup (map fst fs) ->
  let c := fst (from_fields base fs s) in let s1 := snd (from_fields base fs s) in let s2 := snd (from_fields base fs' s) in
  fst (from_fields base fs' s) = c /\ m_fields s2 = m_fields s1 /\ forall b, fields_of s2 b = fields_of s1 b.
Proof. exact C89_order_lem. Qed.
Print Assumptions C89_keyword_order.
(** New fields: the class has these fields, in order of creation, each named by its keyword. *)
Theorem C89_names_partial : forall s base fs, built s -> fieldless s base -> NoDup (map fst fs) -> NoDup (map snd fs) ->
  (forall n f, In (n, f) fs -> unregistered s f) ->
  let c := fst (from_fields base fs s) in let s' := snd (from_fields base fs s) in
  Permutation (fields_of s' c) (map snd fs) /\
  StronglySorted (fun a b => (count_of s a <= count_of s b)%nat) (fields_of s' c) /\
  (forall n f, In (n, f) fs -> name_of s' f = Some n).
Proof. exact C89_names_lem. Qed.
Print Assumptions C89_names_partial.
Example C89_case : let fs := [("z", 2); ("p", 0); ("q", 1)]%nat in let fs' := [("p", 0); ("q", 1); ("z", 2)]%nat in
  Permutation fs fs' /\ NoDup (map fst fs) /\ NoDup (map snd fs) /\ built three_fields /\ fieldless three_fields 0 /\
  (forall n f, In (n, f) fs -> unregistered three_fields f) /\
  fields_of (snd (from_fields 0 fs three_fields)) 1 = [0; 1; 2]%nat.
Proof.
  cbv zeta. split; [exact (Permutation_cons_append [("p", 0); ("q", 1)]%nat ("z"%string, 2%nat))|].
  split; [repeat constructor; cbn; intuition discriminate|]. split; [repeat constructor; cbn; intuition discriminate|].
  split; [exact three_built|]. split; [apply form_fieldless; reflexivity|]. split; [|vm_compute; reflexivity].
  intros n f [[= <- <-]|[[= <- <-]|[[= <- <-]|[]]]]; eexists; split; reflexivity.
Qed.
(** A field some class has registered keeps its name and key, whatever the keyword. *)
Theorem C89_names_refuted : exists s base fs n f, built s /\ fieldless s base /\ NoDup (map fst fs) /\ NoDup (map snd fs) /\
  In (n, f) fs /\ name_of (snd (from_fields base fs s)) f <> Some n.
Proof.
  exists typed, 0%nat, [("q", 0)]%nat, "q"%string, 0%nat. split; [exact typed_built|]. split; [apply form_fieldless; reflexivity|].
  split; [repeat constructor; cbn; tauto|]. split; [repeat constructor; cbn; tauto|]. split; [now left|]. vm_compute. discriminate.
Qed.
Print Assumptions C89_names_refuted.
