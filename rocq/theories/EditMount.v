(** * EditMount: mount paths under edits that leave the first key alone. *)
From Verif Require Import PyBase PyStr Source Field Shape SpecSrc PathEdit SpecEdit MountProofs EditProofs.
From Coq Require Import Lia.
Open Scope Z_scope.

Lemma named_put m b l : named_shapes (put m b l) = upd_first (fun _ => bshape b) m (named_shapes l).
Proof. unfold put. induction l as [|[k a] l IH]; [reflexivity|]. cbn [upd_first named_shapes map fst snd]. destruct (String.eqb k m); [reflexivity|]. cbn [map fst snd]. f_equal. exact IH. Qed.
Lemma alookup_in {A} (l : list (string * A)) n a : alookup l n = Some a -> In (n, a) l.
Proof. induction l as [|[k b] l IH]; cbn; [discriminate|]. destruct (String.eqb k n) eqn:Q; [|auto]. intros H. injection H as ->. apply String.eqb_eq in Q. subst. now left. Qed.
Definition inner (m : key) (dne : ppath) (l : list (string * bpath)) : list key := tl (p_keys (PMount (Some m) dne l)).
Lemma inner_keys m dne l : p_keys (PMount (Some m) dne l) = m :: inner m dne l.
Proof. reflexivity. Qed.

Lemma on_mount_mut mu m dne l : wf_path (PMount (Some m) dne l) ->
  let o := on_mount (bp_mut mu) (pp_mut mu) m dne l in
  p_keys (fst o) = m :: keyed mu (inner m dne l) /\ snd o = said mu (inner m dne l) /\ wf_path (fst o).
Proof.
  intros W. cbv zeta. unfold wf_path in W. cbn [pshape wf_shape] in W. destruct W as [WL WI]. rewrite has_name_shapes in WI.
  unfold inner. cbn [p_keys tl]. destruct (mount_has m l) eqn:H.
  - destruct m as [s|z|v]; try discriminate. cbn [mount_has mount_sel] in *. destruct (alookup l s) as [b|] eqn:A; [|discriminate].
    rewrite (on_mount_has _ _ s dne l b A). cbn [fst snd].
    assert (LB : level (bshape b)).
    { rewrite Forall_forall in WL. apply (WL (s, bshape b)). apply alookup_in. rewrite named_shapes_lookup, A. reflexivity. }
    destruct (bp_mut_keys mu b LB) as (K & S & L'). split; [|split; [exact S|]].
    + cbn [p_keys]. rewrite mount_has_put. cbn [mount_has mount_sel]. rewrite A, alookup_put, String.eqb_refl, A, K. reflexivity.
    + unfold wf_path. cbn [pshape wf_shape]. rewrite named_put. split; [apply Forall_upd_first; [intros; exact L'|exact WL]|].
      rewrite has_name_upd, has_name_shapes. cbn [mount_has mount_sel]. rewrite A. rewrite drop_upd_first. exact WI.
  - rewrite (on_mount_miss _ _ m dne l H). cbn [fst snd]. destruct (pp_mut_keys mu dne) as [K S]. split; [|split; [exact S|]].
    + cbn [p_keys]. now rewrite H, K.
    + unfold wf_path. cbn [pshape wf_shape]. rewrite has_name_shapes, H. split; [exact WL|exact WI].
Qed.

(** With only the first key left, nothing is open below any mount. *)
Lemma only_first m dne l : wf_path (PMount (Some m) dne l) -> inner m dne l = [] -> wf_path (PMount None dne l).
Proof.
  intros W I. unfold wf_path in *. cbn [pshape wf_shape] in *. destruct W as [WL WI]. split; [exact WL|]. rewrite has_name_shapes in WI. unfold inner in I. cbn [p_keys tl] in I.
  destruct (mount_has m l) eqn:H.
  - destruct WI as [D J]. split; [exact D|]. destruct m as [s|z|v]; try discriminate. cbn [mount_has mount_sel] in *. destruct (alookup l s) as [b|] eqn:A; [|discriminate].
    eapply Forall_drop_back; [rewrite named_shapes_lookup, A; reflexivity| |exact J]. unfold idle. cbn [snd]. destruct b; exact I.
  - split; [exact I|exact WI].
Qed.
Lemma none_then k dne l : wf_path (PMount None dne l) -> p_keys (PMount (Some k) dne l) = [k] /\ wf_path (PMount (Some k) dne l).
Proof.
  intros W. split.
  - unfold wf_path in W. cbn [pshape wf_shape] in W. destruct W as (_ & D & J). cbn [fst] in D. cbn [p_keys]. f_equal. destruct (mount_has k l) eqn:H; [|exact D].
    destruct k as [s|z|v]; try discriminate. cbn [mount_has mount_sel] in *. destruct (alookup l s) as [b|] eqn:A; [|discriminate].
    unfold all_idle in J. rewrite Forall_forall in J. specialize (J (s, bshape b)). unfold idle in J. cbn [snd] in J.
    assert (Q : fst (bshape b) = []) by (apply J, alookup_in; now rewrite named_shapes_lookup, A). now destruct b.
  - unfold wf_path. pose proof (p_append_shape k (PMount None dne l)) as P. cbn [p_append] in P. rewrite P. now apply wf_append.
Qed.

(** Indices below the first key *)
Lemma index_cons n i : let j := if i <? 0 then Z.of_nat (S n) + i else i in 0 < j -> list_index (S n) i = option_map S (list_index n (j - 1)).
Proof.
  cbv zeta. intros J. unfold list_index. set (j := if i <? 0 then Z.of_nat (S n) + i else i) in *.
  destruct (j - 1 <? 0) eqn:B; [apply Z.ltb_lt in B; lia|]. destruct (j <? 0) eqn:C; [apply Z.ltb_lt in C; lia|]. rewrite B. cbn [orb].
  destruct (Z.of_nat (S n) <=? j) eqn:D; [apply Z.leb_le in D|apply Z.leb_gt in D].
  - destruct (Z.of_nat n <=? j - 1) eqn:F; [reflexivity|apply Z.leb_gt in F; lia].
  - destruct (Z.of_nat n <=? j - 1) eqn:F; [apply Z.leb_le in F; lia|]. cbn [option_map]. f_equal. lia.
Qed.
Lemma insert_cons n i : let j := if i <? 0 then Z.of_nat (S n) + i else i in 0 < j -> insert_index (S n) i = S (insert_index n (j - 1)).
Proof.
  cbv zeta. intros J. unfold insert_index. set (j := if i <? 0 then Z.of_nat (S n) + i else i) in *.
  destruct (j - 1 <? 0) eqn:B; [apply Z.ltb_lt in B; lia|]. replace (Z.to_nat j) with (S (Z.to_nat (j - 1))) by lia. reflexivity.
Qed.
Definition at_index (i : Z) (m : mut) : mut := match m with MS _ k => MS i k | MD _ => MD i | MI _ k => MI i k end.
Definition index_of (m : mut) : Z := match m with MS i _ | MD i | MI i _ => i end.
Lemma keyed_cons mu k ks : let i := index_of mu in let j := if i <? 0 then Z.of_nat (S (length ks)) + i else i in 0 < j ->
  keyed mu (k :: ks) = k :: keyed (at_index (j - 1) mu) ks /\ said mu (k :: ks) = said (at_index (j - 1) mu) ks.
Proof.
  cbv zeta. intros J. unfold keyed, said. destruct mu as [i x|i|i x]; cbn [index_of at_index mut_list] in *.
  - unfold list_setitem. cbn [length]. rewrite (index_cons _ _ J). destruct (list_index (length ks) _); cbn [option_map map_res]; [|auto]. split; [|reflexivity]. reflexivity.
  - unfold list_delitem. cbn [length]. rewrite (index_cons _ _ J). destruct (list_index (length ks) _); cbn [option_map map_res]; [|auto]. split; [|reflexivity]. reflexivity.
  - unfold list_insert. cbn [length]. rewrite (insert_cons _ _ J). auto.
Qed.

(** Where a fair edit falls *)
Lemma fair_index mu k ks : leaves_first (edit_of mu) (k :: ks) -> let i := index_of mu in let j := if i <? 0 then Z.of_nat (S (length ks)) + i else i in
  0 < j \/ (j = 0 /\ ks = [] /\ match mu with MI _ _ => False | _ => True end).
Proof.
  cbv zeta. intros F.
  assert (G : forall i pre (x : key) post, k :: ks = pre ++ x :: post -> denotes i pre post -> pre <> [] \/ post = [] ->
    0 < (if i <? 0 then Z.of_nat (S (length ks)) + i else i) \/ (if i <? 0 then Z.of_nat (S (length ks)) + i else i) = 0 /\ ks = [] /\ True).
  { intros i pre x post Q D C. pose proof (f_equal (@length _) Q) as L. rewrite app_length in L. cbn [length] in L.
    destruct pre as [|p0 pre].
    - destruct C as [C|C]; [congruence|]. subst post. cbn in Q. injection Q as _ ->. right. cbn [length] in *. destruct D as [D|D]; subst i; cbn; auto.
    - left. unfold denotes in D. cbn [length] in *. destruct D as [->| ->].
      + destruct (Z.of_nat (S (length pre)) <? 0) eqn:B; [apply Z.ltb_lt in B|]; lia.
      + destruct (- Z.of_nat (S (length post)) <? 0) eqn:B; [|apply Z.ltb_ge in B]; lia. }
  destruct mu as [i x|i|i x]; cbn [edit_of leaves_first index_of] in *.
  - destruct F as (pre & y & post & Q & D & C). exact (G i pre y post Q D C).
  - destruct F as (pre & y & post & Q & D & C). exact (G i pre y post Q D C).
  - destruct F as (pre & post & Q & D & C). left. destruct pre as [|p0 pre].
    + destruct C as [C|[C _]]; [congruence|]. subst post. discriminate.
    + pose proof (f_equal (@length _) Q) as L. rewrite app_length in L. cbn [length] in L. unfold denotes_gap in D. cbn [length] in D.
      destruct (i <? 0) eqn:B; [apply Z.ltb_lt in B|apply Z.ltb_ge in B].
      * destruct D as [D|[D|[D|D]]]; [lia|lia| |]; [destruct D; lia|destruct D; discriminate].
      * destruct D as [D|[D|[D|D]]]; [lia|lia| |]; [destruct D; lia|destruct D; discriminate].
Qed.

Lemma mount_ok sel dne l mu : wf_path (PMount sel dne l) -> leaves_first (edit_of mu) (p_keys (PMount sel dne l)) -> muts_ok (PMount sel dne l) mu.
Proof.
  intros W F. unfold muts_ok. destruct sel as [m|].
  - pose proof (fair_index mu m (inner m dne l) F) as J. cbv zeta in J.
    set (j := if index_of mu <? 0 then Z.of_nat (S (length (inner m dne l))) + index_of mu else index_of mu) in *.
    assert (FS : from_start (index_of mu) (PMount (Some m) dne l) = j) by reflexivity.
    destruct J as [J|(J & I & NM)].
    + destruct (keyed_cons mu m (inner m dne l) J) as [K S]. fold j in K, S.
      pose proof (on_mount_mut (at_index (j - 1) mu) m dne l W) as O. cbv zeta in O. rewrite inner_keys, K, S.
      assert (PM : p_mut mu (PMount (Some m) dne l) = on_mount (bp_mut (at_index (j - 1) mu)) (pp_mut (at_index (j - 1) mu)) m dne l).
      { destruct mu as [i x|i|i x]; cbn [p_mut p_setitem p_delitem p_insert index_of at_index] in *; rewrite FS; (destruct (j =? 0) eqn:Z0; [apply Z.eqb_eq in Z0; lia|]); reflexivity. }
      rewrite PM. exact O.
    + pose proof (only_first m dne l W I) as W0. rewrite inner_keys, I. destruct mu as [i x|i|i x]; [| |contradiction]; cbn [index_of] in *.
      * assert (PM : p_mut (MS i x) (PMount (Some m) dne l) = (PMount (Some x) dne l, Ok tt)) by (cbn [p_mut p_setitem]; rewrite FS, J; reflexivity).
        rewrite PM. cbn [fst snd]. destruct (none_then x dne l W0) as [K W1]. rewrite K. unfold j in J. rewrite I in J. cbn [length] in J.
        assert (IX : list_index 1 i = Some O).
        { unfold list_index. change (Z.of_nat 1) with 1 in *. rewrite J. reflexivity. }
        unfold keyed, said. cbn [mut_list]. unfold list_setitem. cbn [length]. rewrite IX. auto.
      * assert (PM : p_mut (MD i) (PMount (Some m) dne l) = (PMount None dne l, Ok tt)).
        { cbn [p_mut p_delitem]. rewrite FS, J, inner_keys, I. reflexivity. }
        rewrite PM. cbn [fst snd]. unfold j in J. rewrite I in J. cbn [length] in J.
        assert (IX : list_index 1 i = Some O).
        { unfold list_index. change (Z.of_nat 1) with 1 in *. rewrite J. reflexivity. }
        unfold keyed, said. cbn [mut_list]. unfold list_delitem. cbn [length]. rewrite IX. auto.
  - destruct mu as [i x|i|i x]; cbn [edit_of leaves_first p_keys] in F.
    + destruct F as ([|] & y & post & Q & _); discriminate.
    + destruct F as ([|] & y & post & Q & _); discriminate.
    + destruct F as (pre & post & Q & D & C). destruct pre; [|discriminate]. destruct C as [C|[_ ->]]; [congruence|].
      destruct (none_then x dne l W) as [K W1]. cbn [p_mut p_insert]. unfold from_start. cbn. split; [exact K|]. split; [reflexivity|exact W1].
Qed.

Section M.
Context (E : env) (ents : entries_of).
Lemma mount_stays e sel dne l : exists sel' dne' l' a, do_edit E ents e (PMount sel dne l) = (PMount sel' dne' l', a).
Proof.
  assert (OM : forall A (fb : bpath -> bpath * A) fp m d q, exists sel' dne' l' a, on_mount fb fp m d q = (PMount sel' dne' l', a)).
  { intros A fb fp m d q. unfold on_mount. destruct (fp d) as [d' a']. destruct (mount_has m q); [|eauto 6]. destruct (aupdate fb q (mount_sel m)) as [q' [a|]]; eauto 6. }
  destruct (edit_cases e) as [[m ->]|[[i ->]|[->|[->|[op ->]]]]]; try (cbn [do_edit]; eauto 6; fail).
  - assert (PM : exists sel' dne' l' a, p_mut m (PMount sel dne l) = (PMount sel' dne' l', a)).
    { destruct m as [i k|i|i k]; cbn [p_mut p_setitem p_delitem p_insert].
      - destruct (_ =? 0); [eauto 6|]. destruct sel; [apply OM|eauto 6].
      - destruct sel; [|eauto 6]. destruct (_ =? 0); [|apply OM]. destruct (p_keys _) as [|? [|? ?]]; eauto 6.
      - destruct (_ =? 0); [eauto 6|]. destruct sel; [apply OM|eauto 6]. }
    destruct PM as (s' & d' & l' & a & PM). rewrite do_mut, PM. eauto 6.
  - cbn [do_edit]. pose proof (read_shape E ents op (PMount sel dne l)) as R. destruct (fst (do_read E ents op (PMount sel dne l))) as [b'|s' d' l']; [discriminate|eauto 6].
Qed.
Lemma fair_dec e ks : leaves_first e ks \/ ~ leaves_first e ks.
Proof.
  assert (SP : forall i (R : list key -> list key -> Prop), (forall a b, R a b \/ ~ R a b) ->
    (exists pre x post, ks = pre ++ x :: post /\ denotes i pre post /\ R pre post) \/ ~ exists pre x post, ks = pre ++ x :: post /\ denotes i pre post /\ R pre post).
  { intros i R RD. assert (U : forall pre x post pre' x' post', ks = pre ++ x :: post -> ks = pre' ++ x' :: post' -> denotes i pre post -> denotes i pre' post' -> pre = pre' /\ post = post').
    { intros pre x post pre' x' post' Q Q' D D'. pose proof (f_equal (@length _) Q) as L. pose proof (f_equal (@length _) Q') as L'. rewrite app_length in L, L'. cbn [length] in *.
      assert (LP : length pre = length pre') by (unfold denotes in *; lia). rewrite Q in Q'. split.
      - apply (f_equal (firstn (length pre))) in Q'. rewrite firstn_app, Nat.sub_diag, firstn_all, app_nil_r in Q'. rewrite LP, firstn_app, Nat.sub_diag, firstn_all, app_nil_r in Q'. exact Q'.
      - apply (f_equal (skipn (S (length pre)))) in Q'. rewrite skipn_app in Q'. rewrite (skipn_all2 pre) in Q' by lia. replace (S (length pre) - length pre)%nat with 1%nat in Q' by lia.
        rewrite LP, skipn_app in Q'. rewrite (skipn_all2 pre') in Q' by lia. replace (S (length pre') - length pre')%nat with 1%nat in Q' by lia. cbn in Q'. exact Q'. }
    destruct (list_index (length ks) i) as [j|] eqn:J.
    - destruct (denotes_at ks i j J) as (x & Q & D). destruct (RD (firstn j ks) (skipn (S j) ks)) as [Y|N]; [left; eauto 8|]. right. intros (pre & y & post & Q' & D' & R').
      destruct (U _ _ _ _ _ _ Q Q' D D') as [<- <-]. contradiction.
    - right. intros (pre & y & post & Q' & D' & R'). apply index_none in J. unfold outside in J. pose proof (f_equal (@length _) Q') as L. rewrite app_length in L. cbn [length] in L. unfold denotes in D'. lia. }
  assert (ND : forall a b : list key, (a <> [] \/ b = []) \/ ~ (a <> [] \/ b = [])).
  { intros [|a0 a] b; [|left; left; discriminate]. destruct b; [left; now right|]. right. intros [C|C]; congruence. }
  destruct e as [i k|i|i k|i| | |op]; cbn [leaves_first]; try (now left).
  - apply SP, ND.
  - apply SP, ND.
  - destruct ks as [|k0 ks].
    + destruct (Z.eq_dec i 0) as [->|N].
      * left. exists [], []. repeat split; [|now right]. left. cbn. lia.
      * right. intros (pre & post & Q & D & C). destruct pre; [|discriminate]. destruct post; [|discriminate]. destruct C as [C|[_ C]]; congruence.
    + destruct (insert_index (length (k0 :: ks)) i) as [|n] eqn:N.
      * right. intros (pre & post & Q & D & C). pose proof (f_equal (@length _) Q) as L. rewrite app_length in L. destruct pre as [|p0 pre].
        -- destruct C as [C|[C _]]; [congruence|]. subst post. discriminate.
        -- unfold insert_index in N. rewrite L in N. cbn [length] in *. unfold denotes_gap in D. cbn [length] in D.
           assert (Z.to_nat (if i <? 0 then Z.of_nat (S (length pre) + length post) + i else i) = O) by lia.
           destruct (i <? 0) eqn:B; [apply Z.ltb_lt in B|apply Z.ltb_ge in B]; destruct D as [D|[D|[[D1 D2]|[D1 D2]]]]; try discriminate; try lia; subst post; cbn [length] in *; lia.
      * left. exists (firstn (S n) (k0 :: ks)), (skipn (S n) (k0 :: ks)). split; [symmetry; apply firstn_skipn|]. split; [rewrite <- N; apply gap_at|]. left. discriminate.
Qed.
Lemma mount_like : forall acts sel dne l, wf_path (PMount sel dne l) -> like_list leaves_first acts (p_keys (PMount sel dne l)) (transcript E ents acts (PMount sel dne l)).
Proof.
  induction acts as [|e acts IH]; intros sel dne l W; cbn [transcript]; [constructor|].
  destruct (fair_dec e (p_keys (PMount sel dne l))) as [F|F].
  - pose proof (step_ok E ents e (PMount sel dne l) W) as S. destruct (mount_stays e sel dne l) as (s' & d' & l' & a & D). rewrite D in S |- *.
    destruct S as [S W']; [intros m ->; now apply mount_ok|]. eapply ll_step; [exact F|exact S|]. now apply IH.
  - destruct (do_edit E ents e (PMount sel dne l)) as [p' a]. now apply ll_unfair.
Qed.
Lemma C86_mount_lem srcs p acts : source_path E ents (SMount srcs) = Ok p -> like_list leaves_first acts [] (transcript E ents acts p).
Proof.
  intros H. pose proof (source_path_wf _ _ _ _ H) as W. unfold source_path in H. destruct (py3 E); [discriminate|]. destruct (mount_paths E ents srcs) as [ps|]; [|discriminate]. injection H as <-.
  exact (mount_like acts None empty_path ps W).
Qed.
End M.
