(** * EditValue: what a path reads after its keys were edited. *)
From Verif Require Import PyBase PyStr Source Field Shape SpecSrc PathEdit SpecEdit EditProofs.
From Coq Require Import Lia.
Open Scope Z_scope.

Section V.
Context (E : env) (ents : entries_of).

(** ** A path nobody has read *)
Lemma never_read_step src root e ks : no_look e -> exists ks' a, do_edit E ents e (untouched src root ks) = (untouched src root ks', a).
Proof.
  intros N. destruct (edit_cases e) as [[m ->]|[[i ->]|[->|[->|[op ->]]]]]; try (cbn [do_edit]; eauto; fail); [|contradiction].
  rewrite do_mut. unfold untouched. rewrite base_mut. unfold bp_mut, on_bp, pp_mut. cbn [pp_parts].
  change (fun k : key => Part k None) with fresh. rewrite (mut_map fresh (fun k => k) fresh m ks (fun _ => eq_refl)).
  destruct (mut_list (fun k => k) m ks) as [l|e]; cbn [map_res with_parts pp_src pp_root]; eauto.
Qed.
Lemma untouched_keys src root ks : p_keys (untouched src root ks) = ks.
Proof. unfold untouched. cbn [p_keys bp_keys]. unfold pp_keys. cbn [pp_parts]. rewrite map_map. apply map_id. Qed.
Lemma raw_blocks ks v : In (KRaw v) ks -> forall rps, map pk rps = ks -> Forall (fun q => pc q = None) rps -> last_cached rps = Exn (EAttr "no attribute 'value'").
Proof.
  revert v. induction ks as [|k ks IH]; intros v I rps M F; [destruct I|]. destruct rps as [|[k' c] rps]; [discriminate|].
  cbn [map pk] in M. injection M as -> M. inversion F as [|? ? C F']; subst. cbn [pc] in C. subst c. cbn [last_cached pk pc].
  destruct I as [->|I]; [reflexivity|]. rewrite (IH v I rps eq_refl F'). now destruct k.
Qed.
Lemma C87_odd_lem src root ks v : In (KRaw v) ks -> p_value E ents (untouched src root ks) = (untouched src root ks, Exn (EAttr "no attribute 'value'")).
Proof.
  intros I. unfold untouched, p_value, bp_value, on_bp, pp_value. cbn [pp_parts].
  rewrite (raw_blocks (rev ks) v (proj1 (in_rev _ _) I)); [reflexivity| |].
  - rewrite map_rev, map_map. cbn [pk]. now rewrite map_id.
  - apply Forall_rev. apply Forall_forall. intros q Q. apply in_map_iff in Q. destruct Q as (k & <- & _). reflexivity.
Qed.
Lemma C87_never_lem src root : forall l ks, Forall no_look l -> do_edits E ents l (untouched src root ks) = untouched src root (p_keys (do_edits E ents l (untouched src root ks))).
Proof.
  induction l as [|e l IH]; intros ks F; cbn [do_edits]; [now rewrite untouched_keys|]. inversion F as [|? ? N F']; subst.
  destruct (never_read_step src root e ks N) as (ks' & a & D). rewrite D. cbn [fst]. now apply IH.
Qed.

(** ** The last part remembers its value *)
Definition remembers (v : val) (ps : list part) : Prop := exists pre k, ps = pre ++ [Part k (Some v)] /\ plain_key k.
Lemma remembers_cached v ps : remembers v ps -> last_cached (rev ps) = Ok (Some (O, v)).
Proof. intros (pre & k & -> & P). rewrite rev_app_distr. cbn. destruct k; [reflexivity|reflexivity|contradiction]. Qed.
Lemma pp_again v p : remembers v (pp_parts p) -> pp_value E ents p = (p, Ok v).
Proof.
  intros R. unfold pp_value. rewrite (remembers_cached v _ R). rewrite Nat.sub_0_r, skipn_all, firstn_all. cbn [walk_parts]. rewrite app_nil_r. destruct p; reflexivity.
Qed.
Lemma up_again v u : remembers v (up_parts u) -> up_value E ents u = (u, Ok v).
Proof.
  intros R. unfold up_value. rewrite (remembers_cached v _ R). rewrite Nat.sub_0_r, skipn_all, firstn_all. cbn [union_walk]. rewrite app_nil_r. destruct u; reflexivity.
Qed.
Lemma last_cached_plain : forall rps o, last_cached rps = Ok o -> forall q rest, rps = q :: rest -> plain_key (pk q).
Proof. intros rps o H q rest ->. cbn in H. destruct (pk q); [exact I|exact I|discriminate]. Qed.
Lemma last_cached_hit : forall rps v, last_cached rps = Ok (Some (O, v)) -> exists k rest, rps = Part k (Some v) :: rest /\ plain_key k.
Proof.
  intros [|q rps] v H; cbn in H; [discriminate|]. destruct q as [k c]. cbn [pk pc] in H. destruct k as [s|z|w]; [| |discriminate].
  - destruct c as [w|]; [injection H as ->; exists (KStr s), rps; now split|]. destruct (last_cached rps) as [[[n w]|]|]; discriminate.
  - destruct c as [w|]; [injection H as ->; exists (KInt z), rps; now split|]. destruct (last_cached rps) as [[[n w]|]|]; discriminate.
Qed.
Lemma last_cached_len : forall rps n v, last_cached rps = Ok (Some (n, v)) -> (n < length rps)%nat.
Proof.
  induction rps as [|q rps IH]; intros n v H; cbn in H; [discriminate|]. destruct q as [k c]. cbn [pk pc] in H.
  assert (G : match c with Some v0 => Ok (Some (O, v0)) | None => match last_cached rps with Ok (Some (n0, v0)) => Ok (Some (S n0, v0)) | r => r end end = Ok (Some (n, v)) -> (n < S (length rps))%nat).
  { destruct c as [w|]; [intros G; injection G as <- _; lia|]. destruct (last_cached rps) as [[[n0 w]|]|]; [|discriminate|discriminate]. intros G. injection G as <- ->. specialize (IH n0 v eq_refl). lia. }
  destruct k; [exact (G H)|exact (G H)|discriminate].
Qed.
Lemma skipn_last {A} (l : list A) pre q n : l = pre ++ [q] -> (0 < n <= length l)%nat -> exists m, skipn (length l - n) l = m ++ [q].
Proof. intros -> L. rewrite app_length in *. cbn [length] in *. exists (skipn (length pre + 1 - n) pre). rewrite skipn_app. replace (length pre + 1 - n - length pre)%nat with O by lia. reflexivity. Qed.
Lemma walk_last (f : val -> key -> res val) : forall m q c ps v, walk_parts f c (m ++ [q]) = (ps, Ok v) -> is_NONE v = false -> exists m', ps = m' ++ [Part (pk q) (Some v)].
Proof.
  induction m as [|a m IH]; intros q c ps v H N; cbn [app walk_parts] in H.
  - destruct (f c (pk q)) as [w|e]; [|discriminate]. destruct (is_NONE w) eqn:NW; cbn in H; injection H as <- <-; [exists []; reflexivity|exists []; reflexivity].
  - destruct (f c (pk a)) as [w|e]; [|discriminate]. destruct (is_NONE w) eqn:NW; [injection H as <- <-; congruence|].
    destruct (walk_parts f w (m ++ [q])) as [rest r] eqn:W. injection H as <- ->. destruct (IH _ _ _ _ W N) as (m' & ->). now exists (Part (pk a) (Some w) :: m').
Qed.
Lemma uwalk_last : forall m q ps0 c ps1 ps v, union_walk E ents ps0 c (m ++ [q]) = (ps1, (ps, Ok v)) -> is_NONE v = false -> exists m', ps = m' ++ [Part (pk q) (Some v)].
Proof.
  induction m as [|a m IH]; intros q ps0 c ps1 ps v H N; cbn [app union_walk] in H.
  - destruct (union_resolve E ents ps0 c (pk q)) as [pr [w|e]]; [|discriminate]. destruct (is_NONE w) eqn:NW; injection H as <- <- <-; [exists []; reflexivity|exists []; reflexivity].
  - destruct (union_resolve E ents ps0 c (pk a)) as [pr [w|e]]; [|discriminate]. destruct (is_NONE w) eqn:NW; [injection H as <- <- <-; congruence|].
    destruct (union_walk E ents pr w (m ++ [q])) as [pr2 [rest r]] eqn:W. injection H as <- <- ->. destruct (IH _ _ _ _ _ _ W N) as (m' & ->). now exists (Part (pk a) (Some w) :: m').
Qed.
Lemma no_parts_left {A} (l : list A) n : skipn (length l - n) l = [] -> (n <= length l)%nat -> n = O.
Proof. intros H L. apply (f_equal (@length _)) in H. rewrite skipn_length in H. cbn in H. lia. Qed.

Lemma bp_value_remembers b b' v : bp_value E ents b = (b', Ok v) -> is_NONE v = false -> bp_keys b <> [] ->
  match b' with BP p => remembers v (pp_parts p) | BU u => remembers v (up_parts u) end.
Proof.
  intros H N K.
  assert (C : forall ps, ps <> [] -> forall o, last_cached (rev ps) = Ok o -> exists pre q, ps = pre ++ [q] /\ plain_key (pk q) /\
    (match o with Some (O, w) => q = Part (pk q) (Some w) | _ => True end)).
  { intros ps P o L. destruct (exists_last P) as (pre & q & ->). exists pre, q. split; [reflexivity|]. rewrite rev_app_distr in L. split; [exact (last_cached_plain _ _ L _ _ eq_refl)|].
    destruct o as [[[|n] w]|]; [|exact I|exact I]. destruct (last_cached_hit _ _ L) as (k & rest & Q & _). cbn in Q. injection Q as -> _. reflexivity. }
  destruct b as [p|u]; unfold bp_value, on_bp in H.
  - destruct (pp_value E ents p) as [p' r] eqn:V. injection H as <- ->. unfold pp_value in V.
    assert (P : pp_parts p <> []) by (intros Q; apply K; cbn; unfold pp_keys; now rewrite Q).
    destruct (last_cached (rev (pp_parts p))) as [o|] eqn:L; [|discriminate]. destruct (C _ P o L) as (pre & q & Q & PK & HQ).
    destruct o as [[[|n] w]|].
    + rewrite Nat.sub_0_r, skipn_all, firstn_all in V. cbn [walk_parts] in V. rewrite app_nil_r in V. injection V as <- <-. cbn [pp_parts]. exists pre, (pk q). split; [now rewrite Q, HQ|exact PK].
    + apply last_cached_len in L. rewrite rev_length in L. destruct (skipn_last (pp_parts p) pre q (S n) Q ltac:(lia)) as (m & M). rewrite M in V.
      destruct (walk_parts _ w (m ++ [q])) as [rest r] eqn:W. injection V as <- ->. destruct (walk_last _ _ _ _ _ _ W N) as (m' & ->). cbn [pp_parts].
      exists (firstn (length (pp_parts p) - S n) (pp_parts p) ++ m'), (pk q). split; [now rewrite app_assoc|exact PK].
    + rewrite Nat.sub_diag in V. cbn [skipn firstn app] in V. rewrite Q in V. destruct (walk_parts _ (pp_root p) (pre ++ [q])) as [rest r] eqn:W. injection V as <- ->.
      destruct (walk_last _ _ _ _ _ _ W N) as (m' & ->). cbn [pp_parts]. exists m', (pk q). now split.
  - destruct (up_value E ents u) as [u' r] eqn:V. injection H as <- ->. unfold up_value in V.
    assert (P : up_parts u <> []) by (intros Q; apply K; cbn; unfold up_keys; now rewrite Q).
    destruct (last_cached (rev (up_parts u))) as [o|] eqn:L; [|discriminate]. destruct (C _ P o L) as (pre & q & Q & PK & HQ).
    destruct o as [[[|n] w]|].
    + rewrite Nat.sub_0_r, skipn_all, firstn_all in V. cbn [union_walk] in V. rewrite app_nil_r in V. injection V as <- <-. cbn [up_parts]. exists pre, (pk q). split; [now rewrite Q, HQ|exact PK].
    + apply last_cached_len in L. rewrite rev_length in L. destruct (skipn_last (up_parts u) pre q (S n) Q ltac:(lia)) as (m & M). rewrite M in V.
      destruct (union_walk E ents (up_paths u) w (m ++ [q])) as [ps1 [rest r]] eqn:W. injection V as <- ->. destruct (uwalk_last _ _ _ _ _ _ _ W N) as (m' & ->). cbn [up_parts].
      exists (firstn (length (up_parts u) - S n) (up_parts u) ++ m'), (pk q). split; [now rewrite app_assoc|exact PK].
    + rewrite Nat.sub_diag in V. cbn [skipn firstn app] in V. rewrite Q in V. destruct (union_walk E ents (up_paths u) (up_root u) (pre ++ [q])) as [ps1 [rest r]] eqn:W. injection V as <- ->.
      destruct (uwalk_last _ _ _ _ _ _ _ W N) as (m' & ->). cbn [up_parts]. exists m', (pk q). now split.
Qed.

(** An edit before the last part keeps it. *)
Lemma index_at {A} (pre : list A) n i post : denotes i pre post -> n = (length pre + S (length post))%nat -> list_index n i = Some (length pre).
Proof.
  intros D ->. unfold list_index. destruct (i <? 0) eqn:B; [apply Z.ltb_lt in B|apply Z.ltb_ge in B].
  - destruct (_ <? 0) eqn:C; [apply Z.ltb_lt in C; unfold denotes in D; lia|]. destruct (_ <=? _) eqn:F; [apply Z.leb_le in F; unfold denotes in D; lia|]. cbn. f_equal. unfold denotes in D. lia.
  - destruct (i <? 0) eqn:C; [apply Z.ltb_lt in C; lia|]. destruct (_ <=? _) eqn:F; [apply Z.leb_le in F; unfold denotes in D; lia|]. cbn. f_equal. unfold denotes in D. lia.
Qed.
Lemma gap_index {A} (pre : list A) n i post : denotes_gap i pre post -> n = (length pre + length post)%nat -> insert_index n i = length pre.
Proof.
  intros D ->. unfold insert_index. destruct (i <? 0) eqn:B; [apply Z.ltb_lt in B|apply Z.ltb_ge in B]; unfold denotes_gap in D; destruct D as [D|[D|[[-> D]|[-> D]]]]; cbn [length] in *; lia.
Qed.
Lemma firstn_front {A} (pre0 : list A) q j : (j <= length pre0)%nat -> firstn j (pre0 ++ [q]) = firstn j pre0.
Proof. intros L. rewrite firstn_app. replace (j - length pre0)%nat with O by lia. cbn. apply app_nil_r. Qed.
Lemma skipn_front {A} (pre0 : list A) q j : (j <= length pre0)%nat -> skipn j (pre0 ++ [q]) = skipn j pre0 ++ [q].
Proof. intros L. rewrite skipn_app. replace (j - length pre0)%nat with O by lia. reflexivity. Qed.
Lemma keeps_last m pre0 (q : part) : before_last (edit_of m) (map pk (pre0 ++ [q])) -> exists pre1, mut_list fresh m (pre0 ++ [q]) = Ok (pre1 ++ [q]).
Proof.
  intros B.
  assert (LM : forall (l : list key), map pk (pre0 ++ [q]) = l -> length l = S (length pre0)) by (intros l <-; rewrite map_length, app_length; cbn; lia).
  assert (LL : length (pre0 ++ [q]) = S (length pre0)) by (rewrite app_length; cbn; lia).
  destruct m as [i k|i|i k]; cbn [edit_of before_last mut_list] in *.
  - destruct B as (pre & x & y & post & Q & D). apply LM in Q. rewrite app_length in Q. cbn [length] in Q.
    unfold list_setitem. rewrite (index_at pre _ i (y :: post) D) by (rewrite LL; cbn [length]; lia).
    rewrite firstn_front, skipn_front by lia. rewrite app_comm_cons, app_assoc. eauto.
  - destruct B as (pre & x & y & post & Q & D). apply LM in Q. rewrite app_length in Q. cbn [length] in Q.
    unfold list_delitem. rewrite (index_at pre _ i (y :: post) D) by (rewrite LL; cbn [length]; lia).
    rewrite firstn_front, skipn_front by lia. rewrite app_assoc. eauto.
  - destruct B as (pre & y & post & Q & D). apply LM in Q. rewrite app_length in Q. cbn [length] in Q.
    unfold list_insert. rewrite (gap_index pre _ i (y :: post) D) by (rewrite LL; cbn [length]; lia).
    rewrite firstn_front, skipn_front by lia. rewrite app_comm_cons, app_assoc. eauto.
Qed.
Definition holds (v : val) (b : bpath) : Prop := match b with BP p => remembers v (pp_parts p) | BU u => remembers v (up_parts u) end.
Lemma holds_value v b : holds v b -> bp_value E ents b = (b, Ok v).
Proof. destruct b as [p|u]; intros H; unfold bp_value, on_bp; [now rewrite (pp_again v p H)|now rewrite (up_again v u H)]. Qed.
Lemma holds_mut v m b : level (bshape b) -> holds v b -> before_last (edit_of m) (bp_keys b) -> holds v (fst (bp_mut m b)).
Proof.
  destruct b as [p|u]; intros V (pre & k & Q & P) B; unfold bp_mut, on_bp; cbn [bp_keys] in B.
  - unfold pp_keys in B. rewrite Q in B. destruct (keeps_last m pre _ B) as (pre1 & M). unfold pp_mut. rewrite Q, M. cbn. exists pre1, k. now split.
  - unfold up_keys in B. rewrite Q in B. destruct (keeps_last m pre _ B) as (pre1 & M). unfold up_mut, up_edit. rewrite Q, M. destruct (each_path (pp_mut m) (up_paths u)). cbn. exists pre1, k. now split.
Qed.
Lemma plain_look op p v : remembers v (pp_parts p) -> fst (do_read E ents op (PBase (BP p))) = PBase (BP p).
Proof.
  intros R. pose proof (pp_again v p R) as V.
  destruct op; cbn [do_read p_value p_exists p_is_null p_primitive p_sequence p_mapping]; unfold bp_value, bp_exists, bp_is_null, bp_primitive, bp_sequence, bp_mapping, on_bp, pp_exists, pp_is_null, pp_primitive, pp_sequence, pp_mapping; now rewrite V.
Qed.
Definition of_kind (src : bsource) (b : bpath) : Prop := match src, b with BPlain _, BP _ => True | BUnion _, BU _ => True | _, _ => False end.
Lemma kind_stays src e b b' a : of_kind src b -> do_edit E ents e (PBase b) = (PBase b', a) -> of_kind src b'.
Proof.
  intros K D. destruct (edit_cases e) as [[m ->]|[[i ->]|[->|[->|[op ->]]]]].
  - rewrite do_mut, base_mut in D. unfold bp_mut, on_bp in D. destruct b as [p|u]; [destruct (pp_mut m p)|destruct (up_mut m u)]; injection D as <- _; exact K.
  - cbn [do_edit] in D. injection D as <- _. exact K.
  - cbn [do_edit] in D. injection D as <- _. exact K.
  - cbn [do_edit] in D. injection D as <- _. exact K.
  - cbn [do_edit] in D. injection D as D _. pose proof (read_shape E ents op (PBase b)) as R. rewrite D in R. cbn [pshape] in R. injection R as R.
    destruct src, b, b'; cbn in *; try exact I; try contradiction; discriminate.
Qed.
Lemma holds_step src v e b b' a : of_kind src b -> wf_path (PBase b) -> holds v b -> peeks src e -> before_last e (bp_keys b) -> do_edit E ents e (PBase b) = (PBase b', a) -> holds v b'.
Proof.
  intros K W H P B D. destruct (edit_cases e) as [[m ->]|[[i ->]|[->|[->|[op ->]]]]].
  - rewrite do_mut, base_mut in D. pose proof (holds_mut v m b W H B) as H'. destruct (bp_mut m b) as [b1 r]. injection D as <- _. exact H'.
  - cbn [do_edit] in D. injection D as <- _. exact H.
  - cbn [do_edit] in D. injection D as <- _. exact H.
  - cbn [do_edit] in D. injection D as <- _. exact H.
  - destruct src; [|contradiction]. destruct b as [p|]; [|contradiction]. cbn [do_edit] in D. rewrite (plain_look op p v H) in D. injection D as <- _. exact H.
Qed.
Lemma holds_edits src v : forall l b, of_kind src b -> wf_path (PBase b) -> holds v b -> Forall (peeks src) l -> all_before_last l (bp_keys b) ->
  exists b', do_edits E ents l (PBase b) = PBase b' /\ holds v b'.
Proof.
  induction l as [|e l IH]; intros b K W H F B; cbn [do_edits]; [eauto|]. inversion F as [|? ? P F']; subst. inversion B as [|? ? ? B1 B2]; subst.
  pose proof (step_ok E ents e (PBase b) W (fun m _ => base_ok b m W)) as S. destruct (base_stays E ents e b) as (b1 & a & D). rewrite D in S |- *. destruct S as [S W1]. cbn [fst].
  apply IH; [exact (kind_stays src e b b1 a K D)|exact W1|exact (holds_step src v e b b1 a K W H P B1 D)|exact F'|exact (B2 a _ S)].
Qed.

Lemma base_edits : forall l b, wf_path (PBase b) -> exists b', do_edits E ents l (PBase b) = PBase b' /\ wf_path (PBase b').
Proof.
  induction l as [|e l IH]; intros b W; cbn [do_edits]; [eauto|].
  pose proof (step_ok E ents e (PBase b) W (fun m _ => base_ok b m W)) as S. destruct (base_stays E ents e b) as (b1 & a & D). rewrite D in S |- *. apply IH. exact (proj2 S).
Qed.
Lemma kind_edits src : forall l b, of_kind src b -> forall b', do_edits E ents l (PBase b) = PBase b' -> of_kind src b'.
Proof.
  induction l as [|e l IH]; intros b K b' D; cbn [do_edits] in D; [injection D as <-; exact K|].
  destruct (base_stays E ents e b) as (b1 & a & D1). rewrite D1 in D. exact (IH b1 (kind_stays src e b b1 a K D1) b' D).
Qed.
Lemma C87_ignored_lem src p0 before p p1 v l : source_path E ents (SBase src) = Ok p0 -> p = do_edits E ents before p0 -> p_value E ents p = (p1, Ok v) -> v <> VConst NONE -> p_keys p <> [] ->
  Forall (peeks src) l -> all_before_last l (p_keys p) -> snd (p_value E ents (do_edits E ents l p1)) = Ok v.
Proof.
  intros SP -> V N K F B. pose proof (source_path_wf _ _ _ _ SP) as W0. unfold source_path in SP. destruct (bsource_path E ents src) as [b0|] eqn:SB; [|discriminate]. injection SP as <-.
  assert (K0 : of_kind src b0).
  { destruct src as [s|u]; cbn [bsource_path] in SB; [destruct (psource_path s)|destruct (usource_path E ents u)]; try discriminate; injection SB as <-; exact I. }
  destruct (base_edits before b0 W0) as (b & D & W). rewrite D in *. pose proof (kind_edits src before b0 K0 b D) as KB.
  cbn [p_value] in V. destruct (bp_value E ents b) as [b1 r] eqn:BV. injection V as <- ->.
  assert (NN : is_NONE v = false) by (destruct v as []; try reflexivity; match goal with c : const |- _ => destruct c end; [congruence|reflexivity|reflexivity]).
  pose proof (bp_value_remembers b b1 v BV NN K) as H1.
  pose proof (read_shape E ents OpValue (PBase b)) as RS. cbn [do_read p_value] in RS. rewrite BV in RS. cbn [fst pshape] in RS. injection RS as RS.
  assert (W1 : wf_path (PBase b1)) by (unfold wf_path in *; cbn [pshape] in *; now rewrite RS).
  assert (K1 : of_kind src b1) by (destruct src, b, b1; cbn in *; try exact I; try contradiction; discriminate).
  assert (KK : bp_keys b1 = bp_keys b) by (destruct b, b1; cbn in RS; injection RS as RS _; exact RS).
  change (p_keys (PBase b)) with (bp_keys b) in B. rewrite <- KK in B.
  destruct (holds_edits src v l b1 K1 W1 H1 F B) as (b2 & D2 & H2). rewrite D2. cbn [p_value]. now rewrite (holds_value v b2 H2).
Qed.

(** ** Edits at the end *)
Definition at_end (n : nat) (i : Z) : Prop := i = -1 \/ i = Z.of_nat n - 1.
Lemma last_index n i : (0 < n)%nat -> at_end n i -> list_index n i = Some (pred n).
Proof.
  intros H [->| ->].
  2: { unfold list_index. destruct (Z.of_nat n - 1 <? 0) eqn:A; [apply Z.ltb_lt in A; lia|]. rewrite A. destruct (Z.of_nat n <=? Z.of_nat n - 1) eqn:B; [apply Z.leb_le in B; lia|]. cbn. f_equal. lia. }
  unfold list_index. cbn [Z.ltb Z.compare]. destruct (Z.of_nat n + -1 <? 0) eqn:A; [apply Z.ltb_lt in A; lia|]. destruct (Z.of_nat n <=? Z.of_nat n + -1) eqn:B; [apply Z.leb_le in B; lia|].
  cbn. f_equal. lia.
Qed.
Lemma removelast_firstn_len' {A} (l : list A) : removelast l = firstn (pred (length l)) l.
Proof. apply removelast_firstn_len. Qed.
Lemma set_last p k i : pp_parts p <> [] -> at_end (length (pp_parts p)) i -> pp_setitem i k p = (pp_append k (fst (pp_pop p)), Ok tt).
Proof.
  intros P AE. unfold pp_setitem, list_setitem. assert (L : (0 < length (pp_parts p))%nat) by (destruct (pp_parts p); [congruence|cbn; lia]).
  rewrite (last_index _ _ L AE). rewrite skipn_all2 by lia. cbn [with_parts]. unfold pp_pop. destruct (pp_parts p) as [|q l] eqn:Q; [congruence|]. rewrite <- Q in *. cbn [fst]. unfold pp_append. cbn [pp_src pp_root pp_parts].
  now rewrite removelast_firstn_len'.
Qed.
Lemma del_last p i : pp_parts p <> [] -> at_end (length (pp_parts p)) i -> pp_delitem i p = pp_pop p.
Proof.
  intros P AE. unfold pp_delitem, list_delitem, pp_pop. destruct (pp_parts p) as [|q l] eqn:Q; [congruence|]. rewrite <- Q in *. assert (L : (0 < length (pp_parts p))%nat) by (rewrite Q; cbn; lia).
  rewrite (last_index _ _ L AE). rewrite skipn_all2 by lia. cbn [with_parts]. now rewrite app_nil_r, removelast_firstn_len'.
Qed.
Lemma ins_end {A} (l : list A) x : list_insert (Z.of_nat (length l)) x l = l ++ [x].
Proof.
  unfold list_insert. assert (I : insert_index (length l) (Z.of_nat (length l)) = length l) by (unfold insert_index; destruct (_ <? 0) eqn:B; [apply Z.ltb_lt in B|]; lia).
  rewrite I, firstn_all, skipn_all. reflexivity.
Qed.
Lemma ins_last p k n : length (pp_parts p) = n -> pp_insert (Z.of_nat n) k p = (pp_append k p, Ok tt).
Proof. intros <-. unfold pp_insert. now rewrite ins_end. Qed.
Lemma pop_some p : pp_parts p <> [] -> snd (pp_pop p) = Ok tt.
Proof. intros P. unfold pp_pop. now destruct (pp_parts p). Qed.

Lemma each_same f g (P : ppath -> Prop) : (forall p, P p -> f p = g p) -> forall ps, Forall P ps -> each_path f ps = each_path g ps.
Proof. intros H ps F. induction F as [|p ps Hp F IH]; [reflexivity|]. cbn [each_path]. now rewrite (H p Hp), IH. Qed.
Lemma each_pop ps : each_path pp_pop ps = pop_all ps.
Proof. induction ps as [|p ps IH]; [reflexivity|]. cbn [each_path pop_all]. destruct (pp_pop p) as [p' [[]|e]]; [|reflexivity]. now rewrite IH. Qed.
Lemma each_ok f (g : ppath -> ppath) (P : ppath -> Prop) : (forall p, P p -> f p = (g p, Ok tt)) -> forall ps, Forall P ps -> each_path f ps = (map g ps, Ok tt).
Proof. intros H ps F. induction F as [|p ps Hp F IH]; [reflexivity|]. cbn [each_path map]. now rewrite (H p Hp), IH. Qed.
Lemma nonempty_len {A} (l : list A) n : length l = n -> (0 < n)%nat -> l <> [].
Proof. intros L P Q. subst l. cbn in L. lia. Qed.

Lemma bp_set_last b k i : level (bshape b) -> bp_keys b <> [] -> at_end (length (bp_keys b)) i -> bp_setitem i k b = (bp_append k (fst (bp_pop b)), Ok tt).
Proof.
  intros V K AE. destruct b as [p|u]; cbn [bp_keys] in *; unfold bp_setitem, bp_pop, on_bp.
  - unfold pp_keys in *. rewrite map_length in AE. assert (P : pp_parts p <> []) by (intros Q; rewrite Q in K; contradiction). rewrite (set_last p k i P AE). now destruct (pp_pop p).
  - apply level_up in V. unfold up_keys in *. rewrite map_length in AE. assert (P : up_parts u <> []) by (intros Q; rewrite Q in K; contradiction).
    assert (L : (0 < length (up_parts u))%nat) by (destruct (up_parts u); [congruence|cbn; lia]).
    unfold up_setitem, up_edit, list_setitem. rewrite (last_index _ _ L AE). rewrite skipn_all2 by lia.
    rewrite (each_ok _ (fun p => pp_append k (fst (pp_pop p))) (fun p => length (pp_parts p) = length (up_parts u)));
      [|intros p Lp; apply set_last; [exact (nonempty_len _ _ Lp L)|now rewrite Lp]|exact V].
    unfold up_pop. destruct (up_parts u) as [|q l] eqn:Q; [congruence|]. rewrite <- Q in *.
    assert (PA : pop_all (up_paths u) = (map (fun p => fst (pp_pop p)) (up_paths u), Ok tt)).
    { rewrite <- each_pop. apply (each_ok _ _ (fun p => length (pp_parts p) = length (up_parts u))); [|exact V]. intros p Lp. pose proof (pop_some p (nonempty_len _ _ Lp L)) as S. destruct (pp_pop p). cbn in *. now rewrite S. }
    rewrite PA. cbn [fst bp_append]. unfold up_append. cbn [up_src up_root up_parts up_paths]. now rewrite map_map, removelast_firstn_len'.
Qed.
Lemma bp_del_last b i : level (bshape b) -> bp_keys b <> [] -> at_end (length (bp_keys b)) i -> bp_delitem i b = bp_pop b.
Proof.
  intros V K AE. destruct b as [p|u]; cbn [bp_keys] in *; unfold bp_delitem, bp_pop, on_bp.
  - unfold pp_keys in *. rewrite map_length in AE. assert (P : pp_parts p <> []) by (intros Q; rewrite Q in K; contradiction). now rewrite (del_last p i P AE).
  - apply level_up in V. unfold up_keys in *. rewrite map_length in AE. assert (P : up_parts u <> []) by (intros Q; rewrite Q in K; contradiction).
    assert (L : (0 < length (up_parts u))%nat) by (destruct (up_parts u); [congruence|cbn; lia]).
    unfold up_delitem, up_edit, list_delitem. rewrite (last_index _ _ L AE). rewrite skipn_all2 by lia. rewrite app_nil_r.
    rewrite (each_same _ pp_pop (fun p => length (pp_parts p) = length (up_parts u))); [|intros p Lp; apply del_last; [exact (nonempty_len _ _ Lp L)|now rewrite Lp]|exact V].
    rewrite each_pop. unfold up_pop. destruct (up_parts u) as [|q l] eqn:Q; [congruence|]. rewrite <- Q in *. destruct (pop_all (up_paths u)). now rewrite removelast_firstn_len'.
Qed.
Lemma bp_ins_last b k : level (bshape b) -> bp_insert (Z.of_nat (length (bp_keys b))) k b = (bp_append k b, Ok tt).
Proof.
  intros V. destruct b as [p|u]; cbn [bp_keys] in *; unfold bp_insert, on_bp.
  - unfold pp_keys. rewrite map_length. now rewrite (ins_last p k _ eq_refl).
  - apply level_up in V. unfold up_keys. rewrite map_length. unfold up_insert, up_edit. rewrite ins_end.
    rewrite (each_ok _ (pp_append k) (fun p => length (pp_parts p) = length (up_parts u))); [|intros p Lp; now apply ins_last|exact V]. reflexivity.
Qed.
Lemma C87_end_lem src p0 before p k : source_path E ents (SBase src) = Ok p0 -> p = do_edits E ents before p0 ->
  p_insert (Z.of_nat (p_len p)) k p = (p_append k p, Ok tt) /\ (p_keys p <> [] -> p_delitem (-1) p = p_pop p /\ p_setitem (-1) k p = (p_append k (fst (p_pop p)), Ok tt)).
Proof.
  intros SP ->. pose proof (source_path_wf _ _ _ _ SP) as W0. unfold source_path in SP. destruct (bsource_path E ents src) as [b0|] eqn:SB; [|discriminate]. injection SP as <-.
  destruct (base_edits before b0 W0) as (b & D & W). rewrite D. unfold p_len. cbn [p_keys p_insert p_delitem p_setitem p_append p_pop].
  split; [now rewrite (bp_ins_last b k W)|]. intros K. rewrite (bp_del_last b (-1) W K (or_introl eq_refl)), (bp_set_last b k (-1) W K (or_introl eq_refl)). split; [reflexivity|]. now destruct (bp_pop b).
Qed.
End V.
