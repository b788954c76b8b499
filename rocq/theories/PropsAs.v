(** * Theorems C99: forms read as data. *)
From Verif Require Import PyBase PyStr Source SpecAs AsProofs Demo.

(** C99: every read through a native source of a form, at any path and whatever is cached, has the
    outcome of the read through a source of the dict of the form's entries and caches the same
    values; only the form itself is not the dict. *)
Theorem C99_reads : forall E ents i, plain_form E ents i -> forall al ig loc l,
  same_read (pp_exists E ents (at_form i al ig loc l)) (pp_exists E ents (at_dict (ents i) al ig loc l)) /\
  same_read (pp_is_null E ents (at_form i al ig loc l)) (pp_is_null E ents (at_dict (ents i) al ig loc l)) /\
  same_read (pp_sequence E ents (at_form i al ig loc l)) (pp_sequence E ents (at_dict (ents i) al ig loc l)) /\
  same_read (pp_mapping E ents (at_form i al ig loc l)) (pp_mapping E ents (at_dict (ents i) al ig loc l)) /\
  (l <> [] ->
    same_read (pp_value E ents (at_form i al ig loc l)) (pp_value E ents (at_dict (ents i) al ig loc l)) /\
    forall t, same_read (pp_primitive E ents t (at_form i al ig loc l)) (pp_primitive E ents t (at_dict (ents i) al ig loc l))).
Proof. exact C99_reads_lem. Qed.
Print Assumptions C99_reads.
(** The form itself is no value of a primitive type. *)
Theorem C99_no_primitive : forall E ents i al ig loc t, t <> TyAuto ->
  exists x, snd (pp_primitive E ents t (at_form i al ig loc [])) = Exn (ESource x).
Proof. exact C99_no_primitive_lem. Qed.
Print Assumptions C99_no_primitive.
(** A form inside the data of any source resolves keys as the dict does, and has its keys. *)
Theorem C99_inside : forall E ents i, plain_form E ents i -> forall src ks k,
  psource_resolve E ents src ks (VForm i) k = psource_resolve E ents src ks (VDict (ents i)) k.
Proof. exact psource_as. Qed.
Print Assumptions C99_inside.
Theorem C99_keys : forall E ents i src n,
  psource_mapping E ents src n (VForm i) = psource_mapping E ents src n (VDict (ents i)).
Proof. exact mapping_as. Qed.
Print Assumptions C99_keys.
(** An entry is read under its name; whatever the attributes of the form. *)
Theorem C99_entry : forall E ents i al ig loc k v, dict_get (ents i) (VStr k) = Some v -> v <> VConst NONE ->
  (forall x, k <> (x ++ "()")%string) -> ~ In [k] ig ->
  snd (pp_value E ents (at_form i al ig loc [Part (KStr k) None])) = Ok v.
Proof. exact C99_entry_lem. Qed.
Print Assumptions C99_entry.

(** A form with a number, a list and another form. *)
Definition some_forms : entries_of := fun i =>
  match i with
  | O => [(VStr "a", VInt 1); (VStr "b", VList [VInt 2; VForm 1]); (VStr "c", VForm 1)]
  | _ => [(VStr "d", VStr "x")]
  end.
Example C99_case :
  plain_form env0 some_forms 0 /\
  snd (pp_mapping env0 some_forms (at_form 0 [] [] None [])) = Ok (Ok [VStr "a"; VStr "b"; VStr "c"]) /\
  snd (pp_value env0 some_forms (at_form 0 [] [] None [Part (KStr "b") None; Part (KInt 1) None; Part (KStr "d") None])) = Ok (VStr "x") /\
  snd (pp_value env0 some_forms (at_form 0 [] [] None [Part (KStr "c.d") None])) = Ok (VStr "x") /\
  snd (pp_exists env0 some_forms (at_form 0 [] [] None [Part (KStr "e") None])) = Ok false.
Proof. split; [intros a; reflexivity|]. repeat split. Qed.
