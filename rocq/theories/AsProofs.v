(** * AsProofs: forms read as data (C99). *)
From Verif Require Import PyBase PyStr Source SpecAs FromProofs.

Section As.
Variables (E : env) (ents : entries_of) (i : nat).
Hypothesis PF : plain_form E ents i.
Notation d := (ents i).

Lemma item_as k : as_item E ents (VForm i) k = as_item E ents (VDict d) k. Proof. reflexivity. Qed.
Lemma resolve1_as al ig ks k : default_resolve1 E ents al ig ks (VForm i) k = default_resolve1 E ents al ig ks (VDict d) k.
Proof.
  unfold default_resolve1. destruct (is_ignored ig ks); [reflexivity|]. rewrite item_as. destruct (as_item E ents (VDict d) k) as [v|e]; [|reflexivity].
  destruct (negb (is_NONE v)); [reflexivity|]. unfold as_alias, as_attr, py_getattr.
  destruct k as [s|z|r]; try reflexivity. rewrite PF. destruct (alookup al s) as [a|]; reflexivity.
Qed.
Lemma split_nonempty s : exists a rest, split_on dot s = a :: rest.
Proof. destruct (split_on dot s) as [|a rest] eqn:S; [|eauto]. exfalso. revert S. destruct s as [|x s]; cbn [split_on]; [discriminate|]. destruct (Ascii.eqb x dot); [discriminate|]. destruct (split_on dot s); discriminate. Qed.
Lemma resolve_as fuel : forall al ig ks k, default_resolve fuel E ents al ig ks (VForm i) k = default_resolve fuel E ents al ig ks (VDict d) k.
Proof.
  assert (STEP : forall al ig ks s,
    match default_resolve1 E ents al ig ks (VForm i) (KStr s) with
    | Ok v => if is_NONE v then walk_atoms (fun c a => default_resolve1 E ents al ig ks c (KStr a)) (VForm i) (split_on dot s) else Ok v
    | Exn e => Exn e end =
    match default_resolve1 E ents al ig ks (VDict d) (KStr s) with
    | Ok v => if is_NONE v then walk_atoms (fun c a => default_resolve1 E ents al ig ks c (KStr a)) (VDict d) (split_on dot s) else Ok v
    | Exn e => Exn e end).
  { intros al ig ks s. rewrite resolve1_as. destruct (default_resolve1 E ents al ig ks (VDict d) (KStr s)) as [v|e]; [|reflexivity].
    destruct (is_NONE v); [|reflexivity]. destruct (split_nonempty s) as (a & rest & ->). cbn [walk_atoms]. now rewrite resolve1_as. }
  induction fuel as [|fuel IH]; intros al ig ks [s|z|r]; cbn [default_resolve]; try apply resolve1_as.
  - destruct (strip_call s); apply STEP.
  - destruct (strip_call s) as [s'|]; [now rewrite IH|apply STEP].
Qed.
Lemma psource_as src ks k : psource_resolve E ents src ks (VForm i) k = psource_resolve E ents src ks (VDict d) k.
Proof. 
  destruct src; cbn [psource_resolve]; [apply resolve_as| |reflexivity].
  unfold json_resolve. destruct k as [s|z|r]; try reflexivity. destruct (has_char dot s); [|reflexivity].
  destruct (split_nonempty s) as (a & rest & ->). reflexivity.
Qed.
Lemma walk_as src src' ks ps : (forall c k, psource_resolve E ents src ks c k = psource_resolve E ents src' ks c k) ->
  forall c, walk_parts (psource_resolve E ents src ks) c ps = walk_parts (psource_resolve E ents src' ks) c ps.
Proof.
  intros S. induction ps as [|p ps IH]; intros c; cbn [walk_parts]; [reflexivity|]. rewrite S.
  destruct (psource_resolve E ents src' ks c (pk p)) as [v|e]; [|reflexivity]. destruct (is_NONE v); [reflexivity|]. now rewrite IH.
Qed.
Lemma value_as al ig loc l : l <> [] -> same_read (pp_value E ents (at_form i al ig loc l)) (pp_value E ents (at_dict d al ig loc l)).
Proof.
  intros N. unfold at_form, at_dict, pp_value, pp_keys. cbn [pp_parts pp_src pp_root].
  destruct (last_cached (rev l)) as [[[n v]|]|e]; [| |now split].
  - rewrite (walk_as _ (SDefault (VDict d) al ig loc)) by reflexivity. destruct (walk_parts _ _ _). now split.
  - rewrite Nat.sub_diag. cbn [skipn firstn app]. destruct l as [|p l]; [contradiction|]. cbn [walk_parts].
    rewrite psource_as.
    change (psource_resolve E ents (SDefault (VForm i) al ig loc)) with (psource_resolve E ents (SDefault (VDict d) al ig loc)).
    destruct (psource_resolve E ents (SDefault (VDict d) al ig loc) _ (VDict d) (pk p)) as [v|e]; [|now split].
    destruct (is_NONE v); [now split|]. destruct (walk_parts _ v l). now split.
Qed.
Lemma mapping_as src n : psource_mapping E ents src n (VForm i) = psource_mapping E ents src n (VDict d).
Proof. destruct src; reflexivity. Qed.
Lemma root_form al ig loc : pp_value E ents (at_form i al ig loc []) = (at_form i al ig loc [], Ok (VForm i)).
Proof. reflexivity. Qed.

Lemma C99_reads_lem al ig loc l :
  same_read (pp_exists E ents (at_form i al ig loc l)) (pp_exists E ents (at_dict d al ig loc l)) /\
  same_read (pp_is_null E ents (at_form i al ig loc l)) (pp_is_null E ents (at_dict d al ig loc l)) /\
  same_read (pp_sequence E ents (at_form i al ig loc l)) (pp_sequence E ents (at_dict d al ig loc l)) /\
  same_read (pp_mapping E ents (at_form i al ig loc l)) (pp_mapping E ents (at_dict d al ig loc l)) /\
  (l <> [] ->
    same_read (pp_value E ents (at_form i al ig loc l)) (pp_value E ents (at_dict d al ig loc l)) /\
    forall t, same_read (pp_primitive E ents t (at_form i al ig loc l)) (pp_primitive E ents t (at_dict d al ig loc l))).
Proof.
  destruct l as [|p l].
  - repeat split; contradiction.
  - assert (N : p :: l <> []) by discriminate. pose proof (value_as al ig loc _ N) as V.
    unfold pp_exists, pp_is_null, pp_sequence, pp_mapping, pp_primitive.
    destruct (pp_value E ents (at_form i al ig loc (p :: l))) as [p1 r1], (pp_value E ents (at_dict d al ig loc (p :: l))) as [p2 r2].
    destruct V as [V1 V2]. cbn [fst snd] in V1, V2. subst r2. unfold same_read. cbn [fst snd].
    repeat split; try assumption. 
Qed.
End As.

Lemma C99_no_primitive_lem E ents i al ig loc t : t <> TyAuto ->
  exists x, snd (pp_primitive E ents t (at_form i al ig loc [])) = Exn (ESource x).
Proof. intros N. destruct t; try contradiction; eexists; reflexivity. Qed.
Lemma C99_entry_lem E ents i al ig loc k v : dict_get (ents i) (VStr k) = Some v -> v <> VConst NONE ->
  (forall x, k <> (x ++ "()")%string) -> ~ In [k] ig ->
  snd (pp_value E ents (at_form i al ig loc [Part (KStr k) None])) = Ok v.
Proof.
  intros G NV C NI.
  assert (NN : is_NONE v = false) by (destruct v; try reflexivity; destruct c; try reflexivity; congruence).
  assert (SC : strip_call k = None) by (destruct (strip_call k) as [y|] eqn:S0; [|reflexivity]; destruct (C y (strip_call_some _ _ S0))).
  assert (IG : is_ignored ig [KStr k] = false).
  { unfold is_ignored. destruct (existsb _ ig) eqn:X; [|reflexivity]. apply existsb_exists in X. destruct X as (l & I & K).
    destruct l as [|s [|]]; cbn in K; try discriminate; [|rewrite andb_false_r in K; discriminate].
    rewrite andb_true_r in K. apply String.eqb_eq in K. subst s. contradiction. }
 unfold at_form, pp_value, pp_keys. cbn [pp_parts pp_src pp_root rev app last_cached pk pc length Nat.sub skipn firstn map walk_parts psource_resolve].
  assert (R : forall fuel, default_resolve fuel E ents al ig [KStr k] (VForm i) (KStr k) = Ok v).
  { intros fuel. assert (R1 : default_resolve1 E ents al ig [KStr k] (VForm i) (KStr k) = Ok v).
    { unfold default_resolve1, as_item. rewrite IG. cbn [py_getitem val_of_key]. rewrite G. cbn [or_NONE]. now rewrite NN. }
    destruct fuel; cbn [default_resolve]; rewrite SC, R1, NN; reflexivity. }
  rewrite R, NN. reflexivity.
Qed.
