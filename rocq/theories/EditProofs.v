(** * EditProofs: paths as lists of keys. *)
From Verif Require Import PyBase PyStr Source Field Shape SpecSrc PathEdit SpecEdit.
From Coq Require Import Lia.
Open Scope Z_scope.

(** The three edits, on any list *)
Inductive mut := MS (i : Z) (k : key) | MD (i : Z) | MI (i : Z) (k : key).
Definition mut_list {A} (mk : key -> A) (m : mut) (l : list A) : res (list A) :=
  match m with
  | MS i k => list_setitem i (mk k) l
  | MD i => list_delitem i l
  | MI i k => Ok (list_insert i (mk k) l)
  end.
Definition fresh (k : key) : part := Part k None.
Definition pp_mut (m : mut) (p : ppath) : ppath * res unit := with_parts p (mut_list fresh m (pp_parts p)).
Definition up_mut (m : mut) (u : upath) : upath * res unit := up_edit (mut_list fresh m (up_parts u)) (pp_mut m) u.
Definition bp_mut (m : mut) : bpath -> bpath * res unit := on_bp (pp_mut m) (up_mut m).
Definition p_mut (m : mut) (p : path) : path * res unit :=
  match m with MS i k => p_setitem i k p | MD i => p_delitem i p | MI i k => p_insert i k p end.
Definition map_res {A B} (f : A -> B) (r : res A) : res B := match r with Ok a => Ok (f a) | Exn e => Exn e end.

Lemma mut_map {A B} (f : A -> B) mk mk' m l : (forall k, f (mk k) = mk' k) -> mut_list mk' m (map f l) = map_res (map f) (mut_list mk m l).
Proof.
  intros F. destruct m as [i k|i|i k]; cbn [mut_list]; unfold list_setitem, list_delitem, list_insert; rewrite map_length.
  - destruct (list_index (length l) i); [|reflexivity]. cbn [map_res]. now rewrite map_app, firstn_map, skipn_map; cbn [map]; rewrite F.
  - destruct (list_index (length l) i); [|reflexivity]. cbn [map_res]. now rewrite map_app, firstn_map, skipn_map.
  - cbn [map_res]. now rewrite map_app, firstn_map, skipn_map; cbn [map]; rewrite F.
Qed.
Lemma mut_same {A B} (mk : key -> A) (mk' : key -> B) m l l' r : length l = length l' -> mut_list mk m l = Ok r ->
  exists r', mut_list mk' m l' = Ok r' /\ length r' = length r.
Proof.
  intros L H. pose proof (mut_map (fun _ => tt) mk (fun _ => tt) m l (fun _ => eq_refl)) as P. pose proof (mut_map (fun _ => tt) mk' (fun _ => tt) m l' (fun _ => eq_refl)) as Q.
  assert (Em : map (fun _ : A => tt) l = map (fun _ : B => tt) l').
  { clear - L. revert l' L. induction l as [|a l IH]; intros [|b l'] L; try discriminate; [reflexivity|]. cbn. f_equal. apply IH. now injection L. }
  rewrite Em in P. rewrite Q, H in P. destruct (mut_list mk' m l') as [r'|e]; [|discriminate]. exists r'. split; [reflexivity|].
  cbn [map_res] in P. injection P as P. apply (f_equal (@length _)) in P. now rewrite !map_length in P.
Qed.

Lemma each_mut m n n' (l : list part) r : length l = n -> mut_list fresh m l = Ok r -> length r = n' ->
  forall ps, Forall (fun p => length (pp_parts p) = n) ps ->
  exists ps', each_path (pp_mut m) ps = (ps', Ok tt) /\ Forall (fun p => length (pp_parts p) = n') ps'.
Proof.
  intros L R L'. induction ps as [|p ps IH]; intros F; cbn [each_path]; [eauto|]. inversion F as [|? ? Fp Fps]; subst.
  destruct (mut_same fresh fresh m l (pp_parts p) r (eq_sym Fp) R) as (rp & Rp & Lp).
  destruct (IH Fps) as (ps' & Es & Fs). unfold pp_mut at 1. rewrite Rp. cbn [with_parts]. rewrite Es. eexists. split; [reflexivity|].
  constructor; [exact Lp|exact Fs].
Qed.

Definition keyed (m : mut) (ks : list key) : list key := match mut_list (fun k => k) m ks with Ok l => l | Exn _ => ks end.
Definition said (m : mut) (ks : list key) : res unit := map_res (fun _ => tt) (mut_list (fun k => k) m ks).

Lemma pp_mut_keys m p : pp_keys (fst (pp_mut m p)) = keyed m (pp_keys p) /\ snd (pp_mut m p) = said m (pp_keys p).
Proof.
  unfold pp_mut, keyed, said, pp_keys. rewrite (mut_map pk fresh (fun k => k) m _ (fun _ => eq_refl)).
  destruct (mut_list fresh m (pp_parts p)) as [l|e]; cbn; auto.
Qed.
Lemma level_up u : level (bshape (BU u)) <-> Forall (fun p => length (pp_parts p) = length (up_parts u)) (up_paths u).
Proof. unfold level, lens. cbn [bshape fst snd]. rewrite Forall_map. unfold up_keys. now rewrite map_length. Qed.
Lemma bp_mut_keys m b : level (bshape b) -> bp_keys (fst (bp_mut m b)) = keyed m (bp_keys b) /\ snd (bp_mut m b) = said m (bp_keys b) /\ level (bshape (fst (bp_mut m b))).
Proof.
  destruct b as [p|u]; intros V.
  - destruct (pp_mut_keys m p) as [K S]. unfold bp_mut, on_bp. destruct (pp_mut m p) as [p' r]. cbn [fst snd] in *. split; [exact K|]. split; [exact S|]. constructor.
  - apply level_up in V. unfold bp_mut, on_bp, up_mut, up_edit. unfold keyed, said. cbn [bp_keys]. unfold up_keys. rewrite (mut_map pk fresh (fun k => k) m _ (fun _ => eq_refl)).
    destruct (mut_list fresh m (up_parts u)) as [l|e] eqn:M; cbn [map_res].
    + destruct (each_mut m _ _ _ _ eq_refl M eq_refl _ V) as (ps' & Es & Fs). rewrite Es. cbn [fst snd bp_keys]. split; [reflexivity|]. split; [reflexivity|]. now apply level_up.
    + cbn [fst snd bp_keys]. split; [reflexivity|]. split; [reflexivity|]. now apply level_up.
Qed.

(** Key lists against the specification *)
Lemma index_some n i j : list_index n i = Some j -> (j < n)%nat /\ (i = Z.of_nat j \/ i = Z.of_nat j - Z.of_nat n).
Proof.
  unfold list_index. destruct (i <? 0) eqn:I; [apply Z.ltb_lt in I|apply Z.ltb_ge in I].
  - destruct (Z.of_nat n + i <? 0) eqn:A; [discriminate|]. destruct (Z.of_nat n <=? Z.of_nat n + i) eqn:B; [discriminate|]. apply Z.ltb_ge in A. apply Z.leb_gt in B.
    cbn. intros H. injection H as <-. split; [lia|right; lia].
  - destruct (i <? 0) eqn:A; [apply Z.ltb_lt in A; lia|]. destruct (Z.of_nat n <=? i) eqn:B; [discriminate|]. apply Z.leb_gt in B. cbn. intros H. injection H as <-. split; [lia|left; lia].
Qed.
Lemma index_none {A} (l : list A) i : list_index (length l) i = None -> outside i l.
Proof.
  unfold list_index, outside. destruct (i <? 0) eqn:I; [apply Z.ltb_lt in I|apply Z.ltb_ge in I].
  - destruct (Z.of_nat (length l) + i <? 0) eqn:QA; [apply Z.ltb_lt in QA; lia|]. destruct (Z.of_nat (length l) <=? Z.of_nat (length l) + i) eqn:QB; [apply Z.leb_le in QB; lia|]. discriminate.
  - destruct (i <? 0) eqn:QA; [apply Z.ltb_lt in QA; lia|]. destruct (Z.of_nat (length l) <=? i) eqn:QB; [apply Z.leb_le in QB; lia|]. discriminate.
Qed.
Lemma split_at {A} (l : list A) j : (j < length l)%nat -> exists x, l = firstn j l ++ x :: skipn (S j) l /\ length (firstn j l) = j /\ length (skipn (S j) l) = (length l - S j)%nat.
Proof.
  intros H. destruct (nth_error l j) as [x|] eqn:N; [|apply nth_error_None in N; lia]. exists x. split; [|rewrite firstn_length, skipn_length; lia].
  rewrite <- (firstn_skipn j l) at 1. f_equal. clear H. revert j N. induction l as [|a l IH]; intros [|j] N; cbn in *; try discriminate; [now injection N as ->|]. now apply IH.
Qed.
Lemma denotes_at {A} (l : list A) i j : list_index (length l) i = Some j -> exists x, l = firstn j l ++ x :: skipn (S j) l /\ denotes i (firstn j l) (skipn (S j) l).
Proof.
  intros H. apply index_some in H as [L D]. destruct (split_at l j L) as (x & S1 & S2 & S3). exists x. split; [exact S1|]. unfold denotes. rewrite S2, S3. destruct D as [D|D]; [left|right]; lia.
Qed.
Lemma gap_at {A} (l : list A) i : denotes_gap i (firstn (insert_index (length l) i) l) (skipn (insert_index (length l) i) l).
Proof.
  unfold denotes_gap. set (n := length l). assert (Ln : length (firstn (insert_index n i) l) = insert_index n i) by (rewrite firstn_length; unfold insert_index; lia).
  assert (Ls : length (skipn (insert_index n i) l) = (n - insert_index n i)%nat) by (now rewrite skipn_length). rewrite Ln, Ls.
  unfold insert_index. destruct (i <? 0) eqn:I; [apply Z.ltb_lt in I|apply Z.ltb_ge in I].
  - destruct (Z_lt_le_dec (Z.of_nat n + i) 0).
    + right. right. right. split; [|lia]. replace (Nat.min n (Z.to_nat (Z.of_nat n + i))) with O by lia. reflexivity.
    + right. left. lia.
  - destruct (Z_le_gt_dec i (Z.of_nat n)); [left; lia|]. right. right. left. split; [|lia]. replace (Nat.min n (Z.to_nat i)) with n by lia. unfold n. apply skipn_all.
Qed.
Definition edit_of (m : mut) : edit := match m with MS i k => Set_ i k | MD i => Del i | MI i k => Ins i k end.
Lemma mut_does m ks : list_does (edit_of m) ks (done (said m ks)) (keyed m ks).
Proof.
  unfold said, keyed. destruct m as [i k|i|i k]; cbn [mut_list edit_of]; unfold list_setitem, list_delitem, list_insert.
  - destruct (list_index (length ks) i) as [j|] eqn:J; cbn [map_res done].
    + destruct (denotes_at ks i j J) as (x & S & D). rewrite S at 1. now constructor.
    + constructor. now apply index_none.
  - destruct (list_index (length ks) i) as [j|] eqn:J; cbn [map_res done].
    + destruct (denotes_at ks i j J) as (x & S & D). rewrite S at 1. now constructor.
    + constructor. now apply index_none.
  - cbn [map_res done]. pose proof (gap_at ks i) as G. rewrite <- (firstn_skipn (insert_index (length ks) i) ks) at 1. now constructor.
Qed.
Lemma item_does i ks : list_does (Item i) ks (its_key match py_index ks i with Some k => Ok k | None => Exn EIndex end) ks.
Proof.
  assert (P : py_index ks i = match list_index (length ks) i with Some j => nth_error ks j | None => None end).
  { unfold py_index, list_index. now destruct (_ || _)%bool. }
  rewrite P. destruct (list_index (length ks) i) as [j|] eqn:J.
  - destruct (denotes_at ks i j J) as (x & S & D). apply index_some in J as [L _].
    assert (N : nth_error ks j = Some x). { rewrite S. rewrite nth_error_app2; rewrite firstn_length_le by lia; [|lia]. now rewrite Nat.sub_diag. }
    rewrite N. cbn [its_key]. rewrite S at 1. rewrite S at 3. now constructor.
  - cbn. constructor. now apply index_none.
Qed.
Lemma last_item {A} (l : list A) x : py_index (l ++ [x]) (-1) = Some x.
Proof.
  unfold py_index. rewrite app_length. cbn [length]. cbn [Z.ltb Z.compare].
  replace (Z.of_nat (length l + 1) + -1) with (Z.of_nat (length l)) by lia.
  destruct (Z.of_nat (length l) <? 0) eqn:A1; [apply Z.ltb_lt in A1; lia|]. destruct (Z.of_nat (length l + 1) <=? Z.of_nat (length l)) eqn:B; [apply Z.leb_le in B; lia|].
  cbn [orb]. rewrite Nat2Z.id, nth_error_app2, Nat.sub_diag by lia. reflexivity.
Qed.
Lemma name_does p : list_does Name (p_keys p) (its_key (p_name p)) (p_keys p).
Proof.
  unfold p_name, p_getitem. destruct (p_keys p) as [|k0 l0] eqn:K; [constructor|]. destruct (exists_last (l := k0 :: l0) ltac:(discriminate)) as (l & x & ->).
  rewrite last_item. destruct x as [s|z|v]; cbn [its_key]; constructor; exact I.
Qed.

(** ** Plain and union paths *)
Section B.
Context (E : env) (ents : entries_of).
Lemma read_shape op p : pshape (fst (do_read E ents op p)) = pshape p.
Proof.
  destruct op; cbn [do_read].
  - pose proof (preads_value E ents p). now destruct (p_value E ents p).
  - pose proof (preads_exists E ents p). now destruct (p_exists E ents p).
  - pose proof (preads_is_null E ents p). now destruct (p_is_null E ents p).
  - pose proof (preads_primitive E ents t p). now destruct (p_primitive E ents t p).
  - pose proof (preads_sequence E ents p). now destruct (p_sequence E ents p).
  - pose proof (preads_mapping E ents p). now destruct (p_mapping E ents p).
Qed.
Lemma base_mut m b : p_mut m (PBase b) = let '(b', r) := bp_mut m b in (PBase b', r).
Proof. now destruct m. Qed.
Lemma do_mut m p : do_edit E ents (edit_of m) p = let '(p', r) := p_mut m p in (p', done r).
Proof. now destruct m. Qed.
Lemma edit_cases e : (exists m, e = edit_of m) \/ (exists i, e = Item i) \/ e = Size \/ e = Name \/ exists op, e = Look op.
Proof. destruct e; [left; now exists (MS i k)|left; now exists (MD i)|left; now exists (MI i k)|eauto|eauto|eauto 6|eauto 8]. Qed.

(** One step, given how the mutators behave *)
Definition muts_ok (p : path) (m : mut) : Prop :=
  p_keys (fst (p_mut m p)) = keyed m (p_keys p) /\ snd (p_mut m p) = said m (p_keys p) /\ wf_path (fst (p_mut m p)).
Lemma step_ok e p : wf_path p -> (forall m, e = edit_of m -> muts_ok p m) ->
  let '(p', a) := do_edit E ents e p in list_does e (p_keys p) a (p_keys p') /\ wf_path p'.
Proof.
  intros W M. destruct (edit_cases e) as [[m ->]|[[i ->]|[->|[->|[op ->]]]]].
  - rewrite do_mut. destruct (M m eq_refl) as (K & S & W'). destruct (p_mut m p) as [p' r]. cbn [fst snd] in *. subst r. rewrite K. split; [apply mut_does|exact W'].
  - cbn [do_edit]. split; [apply item_does|exact W].
  - cbn [do_edit]. split; [constructor|exact W].
  - cbn [do_edit]. split; [apply name_does|exact W].
  - cbn [do_edit]. rewrite !p_keys_shape. unfold wf_path. rewrite read_shape. split; [constructor|exact W].
Qed.

Lemma base_ok b m : wf_path (PBase b) -> muts_ok (PBase b) m.
Proof. intros W. unfold muts_ok. rewrite base_mut. pose proof (bp_mut_keys m b W) as P. destruct (bp_mut m b) as [b' r]. exact P. Qed.
Lemma base_stays e b : exists b' a, do_edit E ents e (PBase b) = (PBase b', a).
Proof.
  destruct (edit_cases e) as [[m ->]|[[i ->]|[->|[->|[op ->]]]]]; try (cbn [do_edit]; eauto; fail).
  - rewrite do_mut, base_mut. destruct (bp_mut m b). eauto.
  - cbn [do_edit]. pose proof (read_shape op (PBase b)) as R. destruct (fst (do_read E ents op (PBase b))) as [b'|]; [eauto|discriminate].
Qed.
Lemma base_like : forall l b, wf_path (PBase b) -> like_list any_edit l (p_keys (PBase b)) (transcript E ents l (PBase b)).
Proof.
  induction l as [|e l IH]; intros b W; cbn [transcript]; [constructor|].
  pose proof (step_ok e (PBase b) W (fun m _ => base_ok b m W)) as S. destruct (base_stays e b) as (b' & a & D). rewrite D in S |- *. destruct S as [S W'].
  eapply ll_step; [exact I|exact S|]. now apply IH.
Qed.
Lemma C86_lem src p l : source_path E ents (SBase src) = Ok p -> like_list any_edit l [] (transcript E ents l p).
Proof.
  intros H. pose proof (source_path_wf _ _ _ _ H) as W. unfold source_path in H. destruct (bsource_path E ents src) as [b|] eqn:B; [|discriminate]. injection H as <-.
  assert (K : p_keys (PBase b) = []).
  { destruct src as [s|u]; cbn [bsource_path] in B.
    - unfold psource_path in B. destruct (psource_root s); [|discriminate]. now injection B as <-.
    - unfold usource_path in B. destruct (sub_paths (us_srcs u)); [|discriminate]. destruct (umap_make _ _ _ _ _ _) as [ps [v|]]; [|discriminate]. destruct ps; [discriminate|]. now injection B as <-. }
  rewrite <- K. now apply base_like.
Qed.
End B.
Lemma ins_longer i k l a l' : list_does (Ins i k) l a l' -> length l' = S (length l).
Proof. intros H. remember (Ins i k) as e eqn:Q. destruct H; try discriminate. rewrite !app_length. cbn. lia. Qed.
