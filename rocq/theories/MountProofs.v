(** * MountProofs: routing through mounts, and configuration sections. *)
From Verif Require Import PyBase PyStr Source Field Context Fields Shape SpecMount SrcProofs FormProofs.
From Coq Require Import Lia.
Open Scope Z_scope.

(** ** Mounts *)
Section Mount.
Context (E : env) (ents : entries_of).
Definition nkeys (b : bpath) : nat := length (bp_keys b).
Lemma nkeys_shape b : nkeys b = length (fst (bshape b)).
Proof. now destruct b. Qed.
Lemma breads_nkeys {A} (f : bpath -> bpath * A) b : breads f -> nkeys (fst (f b)) = nkeys b.
Proof. intros H. now rewrite !nkeys_shape, H. Qed.
Lemma nkeys_append k b : nkeys (bp_append k b) = S (nkeys b).
Proof. rewrite !nkeys_shape, bp_append_shape. unfold bsh_append. cbn [fst]. rewrite app_length. cbn. lia. Qed.
Lemma length_removelast {A} (l : list A) : length (removelast l) = pred (length l).
Proof. induction l as [|a [|b l] IH]; [reflexivity|reflexivity|]. cbn [removelast length] in *. now rewrite IH. Qed.
Lemma nkeys_pop b : nkeys (fst (bp_pop b)) = pred (nkeys b).
Proof.
  destruct b as [p|u]; unfold bp_pop, on_bp, nkeys.
  - unfold pp_pop. destruct (pp_parts p) as [|q l] eqn:P; cbn [fst bp_keys]; unfold pp_keys; cbn [pp_parts]; rewrite !map_length.
    + rewrite P. reflexivity.
    + rewrite P. now rewrite length_removelast.
  - unfold up_pop. destruct (up_parts u) as [|q l] eqn:P.
    + cbn [fst bp_keys]. unfold up_keys. rewrite !map_length, P. reflexivity.
    + destruct (pop_all (up_paths u)) as [ps r]. cbn [fst bp_keys]. unfold up_keys. cbn [up_parts]. rewrite !map_length, P. now rewrite length_removelast.
Qed.
Lemma len_pp_append k (p : ppath) : length (pp_keys (pp_append k p)) = S (length (pp_keys p)).
Proof. rewrite pp_append_keys, app_length. cbn. lia. Qed.
Lemma len_pp_pop (p : ppath) : length (pp_keys (fst (pp_pop p))) = pred (length (pp_keys p)).
Proof.
  unfold pp_pop. destruct (pp_parts p) as [|q l] eqn:P; cbn [fst]; unfold pp_keys; cbn [pp_parts]; rewrite !map_length, P; [reflexivity|]. now rewrite length_removelast.
Qed.
Lemma keeps_len {A} (f : ppath -> ppath * A) p : ptkeeps f -> length (pp_keys (fst (f p))) = length (pp_keys p).
Proof. intros H. now rewrite (proj1 (H p)). Qed.

Definition put (k : string) (b : bpath) (l : list (string * bpath)) := upd_first (fun _ => b) k l.
Lemma aupdate_put {B} (f : bpath -> bpath * B) l n b : alookup l n = Some b -> aupdate f l n = (put n (fst (f b)) l, Some (snd (f b))).
Proof.
  unfold put. induction l as [|[k a] l IH]; intros H; cbn [alookup aupdate upd_first] in *; [discriminate|]. destruct (String.eqb k n).
  - injection H as ->. now destruct (f b).
  - now rewrite (IH H).
Qed.
Lemma alookup_put n b l m : alookup (put n b l) m = if String.eqb n m then match alookup l n with Some _ => Some b | None => None end else alookup l m.
Proof.
  unfold put. induction l as [|[k a] l IH]; cbn [upd_first alookup]; [now destruct (String.eqb n m)|].
  destruct (String.eqb k n) eqn:KN.
  - apply String.eqb_eq in KN. subst k. cbn [alookup]. now destruct (String.eqb n m).
  - cbn [alookup]. rewrite IH. destruct (String.eqb k m) eqn:KM; [|reflexivity]. destruct (String.eqb n m) eqn:NM; [|reflexivity].
    apply String.eqb_eq in KM, NM. subst. now rewrite String.eqb_refl in KN.
Qed.
Lemma on_mount_has {A} (fb : bpath -> bpath * A) fp m dne l b : alookup l m = Some b ->
  on_mount fb fp (KStr m) dne l = (PMount (Some (KStr m)) dne (put m (fst (fb b)) l), snd (fb b)).
Proof. intros H. unfold on_mount. cbn [mount_has mount_sel]. rewrite H. now rewrite (aupdate_put fb l m b H). Qed.
Lemma on_mount_miss {A} (fb : bpath -> bpath * A) fp k dne l : mount_has k l = false ->
  on_mount fb fp k dne l = (PMount (Some k) (fst (fp dne)) l, snd (fp dne)).
Proof. intros H. unfold on_mount. rewrite H. now destruct (fp dne). Qed.

(** Where the run is, and the lengths of all paths *)
Definition depth_of (cur : option (key * nat)) (j : string) : nat := match cur with Some (KStr k, n) => if String.eqb k j then n else O | _ => O end.
Definition tidy_mount (cur : option (key * nat)) (sel : option key) (dne : ppath) (l : list (string * bpath)) : Prop :=
  sel = option_map fst cur /\ (forall j b, alookup l j = Some b -> nkeys b = depth_of cur j) /\
  length (pp_keys dne) = match cur with Some (k, n) => if mount_has k l then O else n | None => O end.
Lemma mount_has_put k n b l : mount_has k (put n b l) = mount_has k l.
Proof. destruct k as [s|z|v]; try reflexivity. cbn [mount_has]. rewrite alookup_put. destruct (String.eqb n s) eqn:Q; [|reflexivity]. apply String.eqb_eq in Q. subst. now destruct (alookup l s). Qed.
Lemma seen_keys k n dne l : tidy_mount (Some (k, n)) (Some k) dne l -> p_keys (PMount (Some k) dne l) = k :: tl (p_keys (PMount (Some k) dne l)) /\ length (tl (p_keys (PMount (Some k) dne l))) = n.
Proof.
  intros (_ & A & D). split; [reflexivity|]. cbn [p_keys tl]. destruct (mount_has k l) eqn:H; [|exact D]. destruct k as [s|z|v]; try discriminate. cbn [mount_has mount_sel] in *.
  destruct (alookup l s) as [b|] eqn:L; [|discriminate]. specialize (A s b L). cbn [depth_of] in A. now rewrite String.eqb_refl in A.
Qed.

(** One reading step at a selected mount *)
Definition base_act (a : act) := act_base (null_value E ents) E ents a.
Definition reading (a : act) : Prop := match a with Down _ | Up => False | _ => True end.
Lemma base_reads a b : reading a -> nkeys (fst (base_act a b)) = nkeys b.
Proof.
  destruct a; intros []; unfold base_act, act_base, replied; cbn [fst].
  - apply breads_nkeys, breads_value.
  - apply breads_nkeys, breads_exists.
  - unfold null_value. destruct (bp_value E ents b) as [b' r] eqn:V. cbn [fst]. change b' with (fst (b', r)). rewrite <- V. apply breads_nkeys, breads_value.
  - apply breads_nkeys, breads_mapping.
  - apply breads_nkeys, breads_sequence.
  - apply breads_nkeys, breads_primitive.
Qed.
Lemma exists_value b : bp_exists E ents b = let '(b', r) := bp_value E ents b in (b', match r with Ok v => Ok (negb (is_NONE v)) | Exn e => Exn e end).
Proof.
  destruct b as [p|u]; unfold bp_exists, bp_value, on_bp, pp_exists, up_exists.
  - now destruct (pp_value E ents p).
  - now destruct (up_value E ents u).
Qed.
Lemma read_here a m dne l b : reading a -> alookup l m = Some b ->
  act_path E ents a (PMount (Some (KStr m)) dne l) = (PMount (Some (KStr m)) dne (put m (fst (base_act a b)) l), snd (base_act a b)).
Proof.
  intros R H. assert (MH : mount_has (KStr m) l = true) by (cbn [mount_has]; now rewrite H).
  destruct a; try destruct R; unfold act_path, base_act, act_base, replied; cbn [p_value p_exists p_is_null p_mapping p_sequence p_primitive].
  - rewrite (on_mount_has _ _ m dne l b H). reflexivity.
  - rewrite (on_mount_has _ _ m dne l b H), exists_value. now destruct (bp_value E ents b).
  - rewrite (on_mount_has _ _ m dne l b H). unfold null_value. now destruct (bp_value E ents b).
  - rewrite (on_mount_has _ _ m dne l b H). reflexivity.
  - rewrite MH, (on_mount_has _ _ m dne l b H). reflexivity.
  - rewrite MH, (on_mount_has _ _ m dne l b H). reflexivity.
Qed.
Lemma read_gone a k dne l : reading a -> mount_has k l = false ->
  exists dne' r, act_path E ents a (PMount (Some k) dne l) = (PMount (Some k) dne' l, r) /\ length (pp_keys dne') = length (pp_keys dne).
Proof.
  intros R H. destruct a; try destruct R; unfold act_path, replied; cbn [p_value p_exists p_is_null p_mapping p_sequence p_primitive].
  - rewrite (on_mount_miss _ _ k dne l H). eexists _, _. split; [reflexivity|]. apply keeps_len, pt_value.
  - rewrite (on_mount_miss _ _ k dne l H). eexists _, _. split; [reflexivity|]. apply keeps_len, pt_value.
  - rewrite (on_mount_miss _ _ k dne l H). eexists _, _. split; [reflexivity|]. apply keeps_len, pt_value.
  - rewrite (on_mount_miss _ _ k dne l H). eexists _, _. split; [reflexivity|]. apply keeps_len, pt_mapping.
  - rewrite H. eexists dne, _. split; reflexivity.
  - rewrite H. eexists dne, _. split; reflexivity.
Qed.
Lemma read_root a dne l : reading a -> exists r, act_path E ents a (PMount None dne l) = (PMount None dne l, r).
Proof. intros R. destruct a; try destruct R; unfold act_path, replied; cbn [p_value p_exists p_is_null p_mapping p_sequence p_primitive fst]; eauto. Qed.

(** Putting a path of the right length keeps the order *)
Lemma tidy_put m n n' dne l b' : tidy_mount (Some (KStr m, n)) (Some (KStr m)) dne l -> mount_has (KStr m) l = true -> nkeys b' = n' ->
  tidy_mount (Some (KStr m, n')) (Some (KStr m)) dne (put m b' l).
Proof.
  intros (_ & A & D) MH N. split; [reflexivity|]. split.
  - intros j b H. rewrite alookup_put in H. cbn [depth_of]. destruct (String.eqb m j) eqn:Q.
    + apply String.eqb_eq in Q. subst j. destruct (alookup l m); [|discriminate]. injection H as <-. exact N.
    + specialize (A j b H). cbn [depth_of] in A. now rewrite Q in A.
  - rewrite mount_has_put. rewrite MH in *. exact D.
Qed.
Lemma tidy_miss k n n' dne l dne' : tidy_mount (Some (k, n)) (Some k) dne l -> mount_has k l = false -> length (pp_keys dne') = n' -> tidy_mount (Some (k, n')) (Some k) dne' l.
Proof.
  intros (_ & A & D) MH N. split; [reflexivity|]. split; [|now rewrite MH]. intros j b H. rewrite (A j b H). destruct k as [s|z|v]; try reflexivity. cbn [depth_of mount_has] in *.
  destruct (String.eqb s j) eqn:Q; [|reflexivity]. apply String.eqb_eq in Q. subst j. rewrite H in MH. discriminate.
Qed.

Lemma routing m : forall acts cur sel dne l b, tidy_mount cur sel dne l -> alookup l m = Some b ->
  pick m (routed cur acts) (run_acts (act_path E ents) acts (PMount sel dne l)) = run_acts base_act (pick m (routed cur acts) acts) b.
Proof.
  induction acts as [|a acts IH]; intros cur sel dne l b T L; [reflexivity|]. pose proof T as (SEL & A & D). cbn [routed run_acts].
  destruct cur as [[k n]|]; cbn [option_map fst] in SEL; subst sel.
  - destruct (mount_has k l) eqn:MH.
    + (* a mounted source is selected *)
      destruct k as [s|z|v]; try discriminate. pose proof MH as MH'. cbn [mount_has] in MH'. destruct (alookup l s) as [c|] eqn:LS; [|discriminate].
      pose proof (A s c LS) as NC. cbn [depth_of] in NC. rewrite String.eqb_refl in NC.
      assert (NEXT : forall n' a', act_path E ents a' (PMount (Some (KStr s)) dne l) = (PMount (Some (KStr s)) dne (put s (fst (base_act a' c)) l), snd (base_act a' c)) ->
        nkeys (fst (base_act a' c)) = n' ->
        pick m (Some (KStr s) :: routed (Some (KStr s, n')) acts) (let '(p', r) := act_path E ents a' (PMount (Some (KStr s)) dne l) in r :: run_acts (act_path E ents) acts p') =
        run_acts base_act (pick m (Some (KStr s) :: routed (Some (KStr s, n')) acts) (a' :: acts)) b).
      { intros n' a' Q N. rewrite Q. pose proof (tidy_put s n n' dne l _ T MH N) as T'. cbn [pick about]. destruct (String.eqb s m) eqn:SM.
        - apply String.eqb_eq in SM. subst s. rewrite L in LS. injection LS as <-. cbn [run_acts]. destruct (base_act a' b) as [b' r] eqn:BA. cbn [fst snd] in *. f_equal.
          apply IH; [exact T'|]. now rewrite alookup_put, String.eqb_refl, L.
        - apply IH; [exact T'|]. now rewrite alookup_put, SM. }
      destruct a as [k'| | | | | | |t].
      * apply NEXT; [|cbn [base_act act_base fst]; unfold base_act, act_base; cbn [fst]; now rewrite nkeys_append, NC].
        cbn [act_path p_append]. rewrite (on_mount_has _ _ s dne l c LS). reflexivity.
      * destruct (seen_keys _ _ _ _ T) as [SK SL]. destruct n as [|n].
        -- (* back at the root *) assert (P : act_path E ents Up (PMount (Some (KStr s)) dne l) = (PMount None dne l, RUnit (Ok tt))).
           { cbn [act_path p_pop]. rewrite SK. destruct (tl (p_keys (PMount (Some (KStr s)) dne l))); [reflexivity|discriminate]. }
           rewrite P. cbn [pick about]. apply IH; [|exact L]. split; [reflexivity|]. split; [|exact D]. intros j c' H. rewrite (A j c' H). cbn [depth_of]. now destruct (String.eqb s j).
        -- apply NEXT; [|unfold base_act, act_base, replied; cbn [fst]; now rewrite nkeys_pop, NC].
           cbn [act_path]. unfold replied. cbn [p_pop]. rewrite SK. destruct (tl (p_keys (PMount (Some (KStr s)) dne l))); [discriminate|]. rewrite (on_mount_has _ _ s dne l c LS). reflexivity.
      * apply (NEXT n Val); [now apply read_here|now rewrite base_reads].
      * apply (NEXT n Here); [now apply read_here|now rewrite base_reads].
      * apply (NEXT n Null); [now apply read_here|now rewrite base_reads].
      * apply (NEXT n Names); [now apply read_here|now rewrite base_reads].
      * apply (NEXT n Count); [now apply read_here|now rewrite base_reads].
      * apply (NEXT n (Get t)); [now apply read_here|now rewrite base_reads].
    + (* nothing is mounted there *)
      assert (AB : about m (Some k) = false).
      { cbn [about]. destruct k as [s|z|v]; try reflexivity. cbn [mount_has] in MH. destruct (String.eqb s m) eqn:Q; [|reflexivity]. apply String.eqb_eq in Q. subst. rewrite L in MH. discriminate. }
      assert (NEXT : forall n' a' dne' r, act_path E ents a' (PMount (Some k) dne l) = (PMount (Some k) dne' l, r) -> length (pp_keys dne') = n' ->
        pick m (Some k :: routed (Some (k, n')) acts) (let '(p', r) := act_path E ents a' (PMount (Some k) dne l) in r :: run_acts (act_path E ents) acts p') =
        run_acts base_act (pick m (Some k :: routed (Some (k, n')) acts) (a' :: acts)) b).
      { intros n' a' dne' r Q N. rewrite Q. cbn [pick]. rewrite AB. apply IH; [|exact L]. exact (tidy_miss k n n' dne l dne' T MH N). }
      assert (RN : forall a', reading a' -> 
        pick m (Some k :: routed (Some (k, n)) acts) (let '(p', r) := act_path E ents a' (PMount (Some k) dne l) in r :: run_acts (act_path E ents) acts p') =
        run_acts base_act (pick m (Some k :: routed (Some (k, n)) acts) (a' :: acts)) b).
      { intros a' R. destruct (read_gone a' k dne l R MH) as (dne' & r & Q & N). eapply NEXT; [exact Q|]. now rewrite N. }
      destruct a as [k'| | | | | | |t]; [| |exact (RN Val I)|exact (RN Here I)|exact (RN Null I)|exact (RN Names I)|exact (RN Count I)|exact (RN (Get t) I)].
      * eapply NEXT; [cbn [act_path p_append]; rewrite (on_mount_miss _ _ k dne l MH); reflexivity|]. cbn [fst]. now rewrite len_pp_append, D.
      * destruct (seen_keys _ _ _ _ T) as [SK SL]. destruct n as [|n].
        -- assert (P : act_path E ents Up (PMount (Some k) dne l) = (PMount None dne l, RUnit (Ok tt))).
           { cbn [act_path p_pop]. rewrite SK. destruct (tl (p_keys (PMount (Some k) dne l))); [reflexivity|discriminate]. }
           rewrite P. cbn [pick about]. apply IH; [|exact L]. split; [reflexivity|]. split; [|exact D]. intros j c' H. rewrite (A j c' H). destruct k as [s|z|v]; try reflexivity. cbn [depth_of]. now destruct (String.eqb s j).
        -- eapply NEXT; [cbn [act_path]; unfold replied; cbn [p_pop]; rewrite SK; destruct (tl (p_keys (PMount (Some k) dne l))); [discriminate|]; rewrite (on_mount_miss _ _ k dne l MH); reflexivity|].
           cbn [fst]. now rewrite len_pp_pop, D.
  - (* at the root *)
    assert (RN : forall a', reading a' -> pick m (None :: routed None acts) (let '(p', r) := act_path E ents a' (PMount None dne l) in r :: run_acts (act_path E ents) acts p') =
      run_acts base_act (pick m (None :: routed None acts) (a' :: acts)) b).
    { intros a' R. destruct (read_root a' dne l R) as (r & Q). rewrite Q. cbn [pick about]. now apply IH. }
    destruct a as [k'| | | | | | |t]; [| |exact (RN Val I)|exact (RN Here I)|exact (RN Null I)|exact (RN Names I)|exact (RN Count I)|exact (RN (Get t) I)].
    + cbn [act_path p_append pick about]. apply IH; [|exact L]. split; [reflexivity|]. split.
      * intros j c H. rewrite (A j c H). cbn [depth_of]. destruct k' as [s|z|v]; try reflexivity. now destruct (String.eqb s j).
      * rewrite D. now destruct (mount_has k' l).
    + cbn [act_path p_pop]. unfold replied. cbn [fst snd pick about]. now apply IH.
Qed.
Lemma mount_paths_lookup l ps m b pb : mount_paths E ents l = Ok ps -> alookup l m = Some b -> bsource_path E ents b = Ok pb -> alookup ps m = Some pb.
Proof.
  revert ps. induction l as [|[k c] l IH]; intros ps H L P; [discriminate|]. cbn [mount_paths alookup] in *. destruct (bsource_path E ents c) as [q|e] eqn:BC; [|discriminate].
  destruct (mount_paths E ents l) as [qs|e]; [|discriminate]. injection H as <-. cbn [alookup]. destruct (String.eqb k m); [|now apply IH]. injection L as ->. rewrite P in BC. now injection BC as ->.
Qed.
Lemma fresh_nkeys b p : bsource_path E ents b = Ok p -> nkeys p = O.
Proof.
  destruct b as [s|u]; cbn [bsource_path].
  - unfold psource_path. destruct (psource_root s); [|discriminate]. intros H. injection H as <-. reflexivity.
  - unfold usource_path. destruct (sub_paths (us_srcs u)) as [ps|]; [|discriminate]. destruct (umap_make E ents u ps (seq 0 (length ps)) (Some MCombine)) as [ps' [v|e]]; [|discriminate]. destruct ps'; [discriminate|].
    intros H. injection H as <-. reflexivity.
Qed.
Lemma mount_paths_fresh : forall l ps m q, mount_paths E ents l = Ok ps -> alookup ps m = Some q -> nkeys q = O.
Proof.
  induction l as [|[k c] l IH]; intros ps m q H L; cbn [mount_paths] in H; [injection H as <-; discriminate|]. destruct (bsource_path E ents c) as [p|e] eqn:BC; [|discriminate].
  destruct (mount_paths E ents l) as [qs|e]; [|discriminate]. injection H as <-. cbn [alookup] in L. destruct (String.eqb k m); [injection L as <-; exact (fresh_nkeys c p BC)|exact (IH qs m q eq_refl L)].
Qed.
Lemma C61_lem l p m b pb acts : source_path E ents (SMount l) = Ok p -> alookup l m = Some b -> bsource_path E ents b = Ok pb ->
  pick m (routed None acts) (run_acts (act_path E ents) acts p) = run_acts (act_base (null_value E ents) E ents) (pick m (routed None acts) acts) pb.
Proof.
  intros SP L P. cbn [source_path] in SP. destruct (py3 E); [discriminate|]. destruct (mount_paths E ents l) as [ps|e] eqn:MP; [|discriminate]. injection SP as <-.
  apply routing; [|exact (mount_paths_lookup l ps m b pb MP L P)]. split; [reflexivity|]. split; [|reflexivity]. intros j c H. exact (mount_paths_fresh l ps j c MP H).
Qed.
(** A plain source is null where its value is [None]. *)
Lemma plain_null : forall acts p, run_acts (act_base (null_value E ents) E ents) acts (BP p) = run_acts (act_base (bp_is_null E ents) E ents) acts (BP p).
Proof.
  assert (K : forall a p, act_base (null_value E ents) E ents a (BP p) = act_base (bp_is_null E ents) E ents a (BP p) /\ exists q, fst (act_base (bp_is_null E ents) E ents a (BP p)) = BP q).
  { intros a p. split.
    - destruct a; try reflexivity. unfold act_base, replied, null_value, bp_is_null, bp_value, on_bp, pp_is_null. now destruct (pp_value E ents p).
    - destruct a; unfold act_base, replied, bp_pop, bp_value, bp_exists, bp_is_null, bp_mapping, bp_sequence, bp_primitive, on_bp; cbn [fst bp_append]; eauto;
        match goal with |- context [let '(_, _) := ?x in _] => destruct x end; cbn [fst]; eauto. }
  induction acts as [|a acts IH]; intros p; [reflexivity|]. cbn [run_acts]. destruct (K a p) as [-> (q & Q)]. destruct (act_base (bp_is_null E ents) E ents a (BP p)) as [b r]. cbn [fst] in Q. subst b. f_equal. apply IH.
Qed.
Lemma C61_plain_lem l p m src pb acts : source_path E ents (SMount l) = Ok p -> alookup l m = Some (BPlain src) -> bsource_path E ents (BPlain src) = Ok pb ->
  pick m (routed None acts) (run_acts (act_path E ents) acts p) = run_acts (act_base (bp_is_null E ents) E ents) (pick m (routed None acts) acts) pb.
Proof.
  intros SP L P. rewrite (C61_lem l p m (BPlain src) pb acts SP L P). cbn [bsource_path] in P. destruct (psource_path src) as [q|e]; [|discriminate]. injection P as <-. apply plain_null.
Qed.

(** ** At the root, and where nothing is mounted *)
Lemma put_names n b : forall l, map fst (put n b l) = map fst l.
Proof. unfold put. induction l as [|[k a] l IH]; cbn [upd_first map]; [reflexivity|]. destruct (String.eqb k n); cbn [map fst]; [reflexivity|]. now rewrite IH. Qed.
Definition of_empty (p : ppath) : Prop := pp_src p = pp_src empty_path /\ pp_root p = VDict [].
Definition placed (names : list string) (cur : option (key * nat)) (p : path) : Prop :=
  exists sel dne l, p = PMount sel dne l /\ tidy_mount cur sel dne l /\ map fst l = names /\ of_empty dne.
Lemma read_gone_empty a k dne l : reading a -> mount_has k l = false -> of_empty dne ->
  exists dne' r, act_path E ents a (PMount (Some k) dne l) = (PMount (Some k) dne' l, r) /\ of_empty dne' /\ length (pp_keys dne') = length (pp_keys dne).
Proof.
  intros R H OE.
  assert (V : of_empty (fst (pp_value E ents dne)) /\ length (pp_keys (fst (pp_value E ents dne))) = length (pp_keys dne)).
  { split; [|apply keeps_len, pt_value]. unfold pp_value. destruct (last_cached (rev (pp_parts dne))) as [o|e]; [|exact OE].
    destruct (match o with Some (n, v) => (n, v) | None => (length (pp_parts dne), pp_root dne) end) as [n c].
    destruct (walk_parts _ _ _) as [rest r]. exact OE. }
  assert (MV : fst (pp_mapping E ents dne) = fst (pp_value E ents dne)) by (unfold pp_mapping; now destruct (pp_value E ents dne)).
  destruct a; try destruct R; unfold act_path, replied; cbn [p_value p_exists p_is_null p_mapping p_sequence p_primitive].
  - rewrite (on_mount_miss _ _ k dne l H). eexists _, _. split; [reflexivity|]. exact V.
  - rewrite (on_mount_miss _ _ k dne l H). eexists _, _. split; [reflexivity|]. exact V.
  - rewrite (on_mount_miss _ _ k dne l H). eexists _, _. split; [reflexivity|]. exact V.
  - rewrite (on_mount_miss _ _ k dne l H). eexists _, _. split; [reflexivity|]. now rewrite MV.
  - rewrite H. eexists dne, _. split; [reflexivity|]. now split.
  - rewrite H. eexists dne, _. split; [reflexivity|]. now split.
Qed.
Lemma went_reading cur a : reading a -> went cur a = cur.
Proof. destruct cur as [[k [|n]]|], a; intros []; reflexivity. Qed.
Lemma placed_step names cur a p : placed names cur p -> placed names (went cur a) (fst (act_path E ents a p)).
Proof.
  intros (sel & dne & l & -> & T & N & OE). pose proof T as (SEL & A & D).
  destruct cur as [[k n]|]; cbn [option_map fst] in SEL; subst sel.
  - destruct (seen_keys _ _ _ _ T) as [SK SL]. destruct (mount_has k l) eqn:MH.
    + destruct k as [s|z|v]; try discriminate. pose proof MH as MH'. cbn [mount_has] in MH'. destruct (alookup l s) as [c|] eqn:LS; [|discriminate].
      pose proof (A s c LS) as NC. cbn [depth_of] in NC. rewrite String.eqb_refl in NC.
      assert (NEXT : forall n' a', fst (act_path E ents a' (PMount (Some (KStr s)) dne l)) = PMount (Some (KStr s)) dne (put s (fst (base_act a' c)) l) ->
        nkeys (fst (base_act a' c)) = n' -> placed names (Some (KStr s, n')) (fst (act_path E ents a' (PMount (Some (KStr s)) dne l)))).
      { intros n' a' Q NK. rewrite Q. eexists _, _, _. split; [reflexivity|]. split; [exact (tidy_put s n n' dne l _ T MH NK)|]. rewrite put_names. now split. }
      destruct a as [k'| | | | | | |t]; try (rewrite went_reading by exact I; match goal with |- context [act_path E ents ?a' _] => apply NEXT; [now rewrite (read_here a' s dne l c I LS)|now rewrite base_reads] end).
      * replace (went (Some (KStr s, n)) (Down k')) with (Some (KStr s, S n)) by (now destruct n).
        apply NEXT; [|unfold base_act, act_base; cbn [fst]; now rewrite nkeys_append, NC].
        cbn [act_path p_append fst]. rewrite (on_mount_has _ _ s dne l c LS). reflexivity.
      * destruct n as [|n]; cbn [went].
        -- assert (P : act_path E ents Up (PMount (Some (KStr s)) dne l) = (PMount None dne l, RUnit (Ok tt))).
           { cbn [act_path p_pop]. rewrite SK. destruct (tl (p_keys (PMount (Some (KStr s)) dne l))); [reflexivity|discriminate]. }
           rewrite P. cbn [fst]. eexists _, _, _. split; [reflexivity|]. split; [|now split]. split; [reflexivity|]. split; [|exact D]. intros j c' H. rewrite (A j c' H). cbn [depth_of]. now destruct (String.eqb s j).
        -- apply NEXT; [|unfold base_act, act_base, replied; cbn [fst]; now rewrite nkeys_pop, NC].
           cbn [act_path]. unfold replied. cbn [p_pop]. rewrite SK. destruct (tl (p_keys (PMount (Some (KStr s)) dne l))); [discriminate|]. rewrite (on_mount_has _ _ s dne l c LS). reflexivity.
    + assert (NEXT : forall n' a' dne', fst (act_path E ents a' (PMount (Some k) dne l)) = PMount (Some k) dne' l -> of_empty dne' -> length (pp_keys dne') = n' ->
        placed names (Some (k, n')) (fst (act_path E ents a' (PMount (Some k) dne l)))).
      { intros n' a' dne' Q OE' NK. rewrite Q. eexists _, _, _. split; [reflexivity|]. split; [exact (tidy_miss k n n' dne l dne' T MH NK)|]. now split. }
      destruct a as [k'| | | | | | |t];
        try (rewrite went_reading by exact I;
             match goal with |- context [act_path E ents ?a' _] => destruct (read_gone_empty a' k dne l I MH OE) as (dne' & r & Q & OE' & NK) end;
             eapply NEXT; [now rewrite Q|exact OE'|now rewrite NK]).
      * replace (went (Some (k, n)) (Down k')) with (Some (k, S n)) by (now destruct n).
        eapply NEXT; [cbn [act_path p_append fst]; rewrite (on_mount_miss _ _ k dne l MH); reflexivity|exact OE|]. cbn [fst]. now rewrite len_pp_append, D.
      * destruct n as [|n]; cbn [went].
        -- assert (P : act_path E ents Up (PMount (Some k) dne l) = (PMount None dne l, RUnit (Ok tt))).
           { cbn [act_path p_pop]. rewrite SK. destruct (tl (p_keys (PMount (Some k) dne l))); [reflexivity|discriminate]. }
           rewrite P. cbn [fst]. eexists _, _, _. split; [reflexivity|]. split; [|now split]. split; [reflexivity|]. split; [|exact D]. intros j c' H. rewrite (A j c' H). destruct k as [s|z|v]; try reflexivity. cbn [depth_of]. now destruct (String.eqb s j).
        -- eapply NEXT; [cbn [act_path]; unfold replied; cbn [p_pop]; rewrite SK; destruct (tl (p_keys (PMount (Some k) dne l))); [discriminate|]; rewrite (on_mount_miss _ _ k dne l MH); reflexivity| |].
           ++ unfold pp_pop. destruct (pp_parts dne); exact OE.
           ++ cbn [fst]. now rewrite len_pp_pop, D.
  - destruct a as [k'| | | | | | |t]; try (rewrite went_reading by exact I;
      match goal with |- context [act_path E ents ?a' _] => destruct (read_root a' dne l I) as (r & Q) end; rewrite Q; cbn [fst]; eexists _, _, _; split; [reflexivity|]; split; [exact T|now split]).
    + cbn [act_path p_append fst went]. eexists _, _, _. split; [reflexivity|]. split; [|now split]. split; [reflexivity|]. split.
      * intros j c H. rewrite (A j c H). cbn [depth_of]. destruct k' as [s|z|v]; try reflexivity. now destruct (String.eqb s j).
      * rewrite D. now destruct (mount_has k' l).
    + cbn [act_path p_pop went]. unfold replied. cbn [fst]. eexists _, _, _. split; [reflexivity|]. split; [exact T|now split].
Qed.
Lemma placed_run names : forall acts cur p, placed names cur p ->
  exists q, placed names (fold_left went acts cur) q /\ forall a, run_acts (act_path E ents) (acts ++ [a]) p = run_acts (act_path E ents) acts p ++ [snd (act_path E ents a q)].
Proof.
  induction acts as [|a acts IH]; intros cur p P; cbn [fold_left app run_acts].
  - exists p. split; [exact P|]. intros a. now destruct (act_path E ents a p).
  - pose proof (placed_step names cur a p P) as P'. destruct (act_path E ents a p) as [p' r]. cbn [fst] in P'. destruct (IH _ _ P') as (q & Q & R). exists q. split; [exact Q|]. intros b. cbn [app]. now rewrite (R b).
Qed.
Lemma placed_start l p : source_path E ents (SMount l) = Ok p -> placed (map fst l) None p.
Proof.
  intros SP. cbn [source_path] in SP. destruct (py3 E); [discriminate|]. destruct (mount_paths E ents l) as [ps|e] eqn:MP; [|discriminate]. injection SP as <-.
  eexists _, _, _. split; [reflexivity|]. split; [split; [reflexivity|]; split; [|reflexivity]; intros j c H; exact (mount_paths_fresh l ps j c MP H)|]. split; [|now split].
  clear - MP. revert ps MP. induction l as [|[k c] l IH]; intros ps H; cbn [mount_paths] in H; [now injection H as <-|]. destruct (bsource_path E ents c) as [q|e]; [|discriminate].
  destruct (mount_paths E ents l) as [qs|e]; [|discriminate]. injection H as <-. cbn [map fst]. now rewrite (IH qs eq_refl).
Qed.
Lemma C61_root_lem l p acts a : source_path E ents (SMount l) = Ok p -> spot_after acts = None ->
  exists r, run_acts (act_path E ents) (acts ++ [a]) p = run_acts (act_path E ents) acts p ++ [r] /\ root_says (map fst l) a r.
Proof.
  intros SP SA. destruct (placed_run (map fst l) acts None p (placed_start l p SP)) as (q & (sel & dne & ps & -> & (SEL & _) & N & _) & R). unfold spot_after in SA. rewrite SA in SEL. cbn [option_map] in SEL. subst sel.
  eexists. split; [apply R|]. rewrite <- N. destruct a; cbn [act_path p_append p_pop p_value p_exists p_is_null p_mapping p_sequence p_primitive]; unfold replied; cbn [snd]; try constructor.
  rewrite <- (map_map fst VStr). constructor.
Qed.
Lemma no_mount names k l : map fst l = names -> ~ mounted_at names k -> mount_has k l = false.
Proof.
  intros <- NM. destruct k as [s|z|v]; try reflexivity. cbn [mount_has]. destruct (alookup l s) as [b|] eqn:L; [|reflexivity]. exfalso. apply NM. exists s. split; [reflexivity|]. clear NM.
  induction l as [|[k c] l IH]; [discriminate|]. cbn [alookup map fst] in *. destruct (String.eqb k s) eqn:Q; [apply String.eqb_eq in Q; now left|right; now apply IH].
Qed.
Lemma C61_nothing_lem l p acts a k : source_path E ents (SMount l) = Ok p -> spot_after acts = Some (k, O) -> ~ mounted_at (map fst l) k ->
  exists r, run_acts (act_path E ents) (acts ++ [a]) p = run_acts (act_path E ents) acts p ++ [r] /\ nothing_says a r.
Proof.
  intros SP SA NM. destruct (placed_run (map fst l) acts None p (placed_start l p SP)) as (q & (sel & dne & ps & -> & (SEL & _ & D) & N & OE) & R). unfold spot_after in SA. rewrite SA in SEL, D. cbn [option_map fst] in SEL. subst sel.
  pose proof (no_mount _ k ps N NM) as MH. rewrite MH in D. eexists. split; [apply R|]. clear R.
  destruct dne as [sr rt pts]. destruct OE as [S1 S2]. cbn [pp_src pp_root pp_keys pp_parts] in *. subst sr rt. unfold pp_keys in D. cbn [pp_parts] in D. destruct pts; [|discriminate].
  destruct a; cbn [act_path p_append p_pop p_value p_exists p_is_null p_mapping p_sequence p_primitive p_keys]; unfold replied; rewrite ?(on_mount_miss _ _ k _ ps MH), ?MH; cbn [snd]; try constructor.
Qed.
End Mount.

(** ** Configuration sections *)
Lemma take_all f : forall a c r, Forall (fun x => f x = true) a -> f c = false -> take_while f (a ++ c :: r) = (a, c :: r).
Proof.
  induction a as [|x a IH]; intros c r F N; cbn [app take_while]; [now rewrite N|]. inversion F as [|? ? FX FA]; subst. rewrite FX. now rewrite (IH c r FA N).
Qed.
Lemma take_split f : forall l a b, take_while f l = (a, b) -> l = a ++ b /\ Forall (fun x => f x = true) a.
Proof.
  induction l as [|x l IH]; intros a b H; cbn [take_while] in H; [injection H as <- <-; auto|]. destruct (f x) eqn:FX; [|injection H as <- <-; auto].
  destruct (take_while f l) as [a' b']. injection H as <- <-. destruct (IH a' b' eq_refl) as [-> FA]. split; [reflexivity|]. now constructor.
Qed.
Lemma keychar_iff c : is_keychar c = true <-> key_char c.
Proof. unfold is_keychar, key_char. rewrite !orb_true_iff, !Ascii.eqb_eq. tauto. Qed.
Lemma sub_option_iff o n k : sub_option o = Some (n, k) <-> names_sub o n k.
Proof.
  unfold sub_option, names_sub. split.
  - destruct (take_while is_word (chars o)) as [w r] eqn:T1. destruct (take_split _ _ _ _ T1) as [Q1 F1]. destruct w as [|w0 w]; [discriminate|]. destruct r as [|c r']; [discriminate|].
    destruct (Ascii.eqb c "[") eqn:CE; [|discriminate]. apply Ascii.eqb_eq in CE. subst c. destruct (take_while is_keychar r') as [x r2] eqn:T2. destruct (take_split _ _ _ _ T2) as [Q2 F2].
    destruct x as [|x0 x]; [discriminate|]. destruct r2 as [|d r3]; [discriminate|]. destruct (Ascii.eqb d "]") eqn:DE; [|discriminate]. apply Ascii.eqb_eq in DE. subst d. intros H. injection H as <- <-.
    exists (of_chars r3). split.
    { apply chars_inj. rewrite !chars_app. cbn [chars]. change (String w0 (of_chars w)) with (of_chars (w0 :: w)). change (String x0 (of_chars x)) with (of_chars (x0 :: x)). rewrite !chars_of, Q1, Q2. reflexivity. }
    split; [discriminate|]. split; [change (String w0 (of_chars w)) with (of_chars (w0 :: w)); now rewrite chars_of|]. split; [discriminate|].
    change (String x0 (of_chars x)) with (of_chars (x0 :: x)). rewrite chars_of. eapply Forall_impl; [|exact F2]. intros c. apply keychar_iff.
  - intros (rest & -> & NN & FN & NK & FK). rewrite !chars_app. cbn [chars app]. rewrite (take_all is_word (chars n) "[" _ FN eq_refl).
    destruct n as [|n0 n]; [congruence|]. destruct k as [|k0 k]; [congruence|]. cbn [chars] in *. 
    rewrite Ascii.eqb_refl. change (k0 :: chars k) with (chars (String k0 k)) in *. 
    rewrite (take_all is_keychar (chars (String k0 k)) "]" (chars rest)); [|eapply Forall_impl; [|exact FK]; intros c; apply keychar_iff|reflexivity]. cbn [chars]. rewrite Ascii.eqb_refl.
    change (n0 :: chars n) with (chars (String n0 n)). change (k0 :: chars k) with (chars (String k0 k)). now rewrite !of_chars_chars.
Qed.

(** The table of the bracketed options *)
Definition add_sub (acc : list (val * val)) (ov : string * string) : list (val * val) :=
  match sub_option (fst ov) with
  | None => acc
  | Some (n, k) =>
      let d := match dict_get acc (VStr n) with Some (VDict d) => d | _ => [] end in
      dict_set acc (VStr n) (VDict (dict_set d (VStr k) (VStr (snd ov))))
  end.
Definition table_ok (opts : list (string * string)) (acc : list (val * val)) : Prop :=
  forall n, match dict_get acc (VStr n) with
            | None => ~ has_sub opts n
            | Some v => has_sub opts n /\ exists d f, v = VDict d /\ (forall k, dict_get d (VStr k) = option_map VStr (f k)) /\ (forall k, last_sub opts n k (f k))
            end.
Lemma names_sub_fun o n k n' k' : names_sub o n k -> names_sub o n' k' -> n = n' /\ k = k'.
Proof. intros H H'. apply sub_option_iff in H, H'. rewrite H in H'. now injection H' as -> ->. Qed.
Lemma last_sub_miss opts o v n k w : last_sub opts n k w -> ~ names_sub o n k -> last_sub (opts ++ [(o, v)]) n k w.
Proof.
  intros H N. destruct w as [w|]; cbn [last_sub] in *.
  - destruct H as (pre & o' & post & -> & NS & LA). exists pre, o', (post ++ [(o, v)]). split; [now rewrite <- app_assoc|]. split; [exact NS|]. intros o2 w2 I. apply in_app_or in I. destruct I as [I|[I|[]]]; [exact (LA _ _ I)|]. now injection I as <- <-.
  - intros o2 w2 I. apply in_app_or in I. destruct I as [I|[I|[]]]; [exact (H _ _ I)|]. now injection I as <- <-.
Qed.
Lemma has_sub_app opts o v n : has_sub (opts ++ [(o, v)]) n <-> has_sub opts n \/ exists k, names_sub o n k.
Proof.
  unfold has_sub. split.
  - intros (o' & w & k & I & NS). apply in_app_or in I. destruct I as [I|[I|[]]]; [left; eauto|]. injection I as <- <-. right. eauto.
  - intros [(o' & w & k & I & NS)|(k & NS)]; [exists o', w, k; split; [apply in_or_app; now left|exact NS]|exists o, v, k; split; [apply in_or_app; right; now left|exact NS]].
Qed.
Lemma table_step opts acc o v : table_ok opts acc -> table_ok (opts ++ [(o, v)]) (add_sub acc (o, v)).
Proof.
  intros T n. specialize (T n) as TN. unfold add_sub. cbn [fst snd]. destruct (sub_option o) as [[n0 k0]|] eqn:SO.
  - apply sub_option_iff in SO. rewrite dict_get_set. cbn [py_eq]. destruct (String.eqb n0 n) eqn:NE.
    + apply String.eqb_eq in NE. subst n0. split; [apply has_sub_app; right; eauto|]. 
      assert (OLD : exists f, (forall k, dict_get match dict_get acc (VStr n) with Some (VDict d) => d | _ => [] end (VStr k) = option_map VStr (f k)) /\ forall k, last_sub opts n k (f k)).
      { destruct (dict_get acc (VStr n)) as [x|]; [destruct TN as (_ & d & f & -> & G & LS); eauto|]. exists (fun _ => None). split; [reflexivity|]. intros k o' w I NS. apply TN. exists o', w, k. auto. }
      destruct OLD as (f & G & LS). eexists _, (fun k => if String.eqb k0 k then Some v else f k). split; [reflexivity|]. split.
      * intros k. rewrite dict_get_set. cbn [py_eq]. destruct (String.eqb k0 k); [reflexivity|exact (G k)].
      * intros k. destruct (String.eqb k0 k) eqn:KE.
        -- apply String.eqb_eq in KE. subst k0. exists opts, o, []. split; [reflexivity|]. split; [exact SO|]. intros ? ? [].
        -- apply last_sub_miss; [apply LS|]. intros NS. destruct (names_sub_fun _ _ _ _ _ SO NS) as [_ ->]. now rewrite String.eqb_refl in KE.
    + assert (NM : forall k, ~ names_sub o n k) by (intros k NS; destruct (names_sub_fun _ _ _ _ _ SO NS) as [-> _]; now rewrite String.eqb_refl in NE).
      destruct (dict_get acc (VStr n)) as [x|].
      * destruct TN as (HS & d & f & -> & G & LS). split; [apply has_sub_app; now left|]. exists d, f. split; [reflexivity|]. split; [exact G|]. intros k. apply last_sub_miss; auto.
      * rewrite has_sub_app. intros [HS|(k & NS)]; [auto|exact (NM k NS)].
  - assert (NM : forall n k, ~ names_sub o n k) by (intros n' k NS; apply sub_option_iff in NS; congruence).
    destruct (dict_get acc (VStr n)) as [x|].
    + destruct TN as (HS & d & f & -> & G & LS). split; [apply has_sub_app; now left|]. exists d, f. split; [reflexivity|]. split; [exact G|]. intros k. apply last_sub_miss; auto.
    + rewrite has_sub_app. intros [HS|(k & NS)]; [auto|exact (NM n k NS)].
Qed.
Lemma sub_mappings_ok opts : table_ok opts (sub_mappings opts).
Proof.
  unfold sub_mappings. change (table_ok opts (fold_left add_sub opts [])).
  assert (A : forall l pre acc, table_ok pre acc -> table_ok (pre ++ l) (fold_left add_sub l acc)).
  { induction l as [|[o v] l IH]; intros pre acc T; cbn [fold_left]; [now rewrite app_nil_r|]. specialize (IH (pre ++ [(o, v)]) (add_sub acc (o, v)) (table_step pre acc o v T)). now rewrite <- app_assoc in IH. }
  apply (A opts [] []). intros n. cbn. intros (o & w & k & [] & _).
Qed.
Lemma section_value opts d s : exists v, or_NONE (section_getitem opts d (KStr s)) = Ok v /\ config_value opts d s v.
Proof.
  unfold section_getitem. pose proof (sub_mappings_ok opts s) as T. destruct (dict_get (sub_mappings opts) (VStr s)) as [x|].
  - destruct T as (HS & m & f & -> & G & LS). eexists. split; [reflexivity|]. econstructor; eauto.
  - destruct (alookup opts (lower s)) as [w|] eqn:AL; [eexists; split; [reflexivity|]; now constructor|].
    assert (N : (forall l, d = VDict l -> dict_get l (VStr s) = None) -> config_value opts d s (VConst NONE)) by (intros H; now constructor).
    destruct d; cbn [or_NONE is_lookup_or_type]; try (eexists; split; [reflexivity|]; apply N; intros ? Q; discriminate).
    destruct (dict_get l (VStr s)) as [w|] eqn:DG; [eexists; split; [reflexivity|]; eapply cv_default; eauto|]. eexists. split; [reflexivity|]. apply N. intros l' Q. now injection Q as <-.
Qed.
Lemma C63_lem E ents cfg sec opts d loc p s : sec <> ""%string -> alookup cfg sec = Some opts -> psource_path (SConfig cfg (Some sec) d loc) = Ok p ->
  exists q v, pp_value E ents (pp_append (KStr s) p) = (q, Ok v) /\ config_value opts d s v.
Proof.
  intros NE L P. unfold psource_path, psource_root, opt_str in P. destruct (String.eqb sec "") eqn:Q; [apply String.eqb_eq in Q; congruence|]. rewrite L in P. injection P as <-.
  destruct (section_value opts d s) as (v & SV & CV).
  unfold pp_value, pp_append. cbn [pp_parts pp_src pp_root app rev last_cached pk pc length skipn firstn walk_parts psource_resolve config_resolve py_getitem Nat.sub].
  exists (Source.PPath (SConfig cfg (Some sec) d loc) (VCfgSec opts d) [Part (KStr s) (Some v)]), v. split; [|exact CV].
  rewrite SV. now destruct (is_NONE v).
Qed.

(** ** Python 3 *)
Lemma C61_python3_lem W fuel id l tags u m s : py3 (w_env W) = true -> (exists c, lookup "src" (stk s) = Some c) ->
  exists x s', Form_map W fuel id (ASrc (SMount l)) tags false u m s = (Exn (EAttr x), s') /\
    stk s' = stk s /\ forms s' = forms s /\ paths s' = paths s /\ forall j e, nth_error (errs s) j = Some e -> nth_error (errs s') j = Some e.
Proof.
  intros P (c & Hc). unfold Form_map, form_map, bind.
  assert (ET : exists t', effective_tags tags s = (Ok t', s)).
  { unfold effective_tags. destruct tags as [|g tags]; [|eexists; reflexivity].
    unfold bind, ctx_get_opt, get. destruct (lookup "tags" (stk s)) as [[]|]; eexists; reflexivity. }
  destruct ET as (t' & ->). unfold form_type, get. destruct (nth_error (forms s) id) as [[t ents]|] eqn:T;
  cbn [ret]; unfold ctx_get, ctx_get_opt, get, bind; rewrite Hc; cbn [ret is_anone andb];
  unfold root_map, bind, form_type, get, lift; rewrite T; cbn [root_source];
  unfold new_errs, with_ctx, closing, push; cbn [alookup String.eqb Ascii.eqb Bool.eqb];
  unfold bind; cbn [source_path]; rewrite P; do 2 eexists; (split; [reflexivity|]); cbn; repeat split; auto;
  intros j e H; rewrite nth_error_app1; auto; apply nth_error_Some; congruence.
Qed.
