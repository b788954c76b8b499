(** * Why: how the code behaves, for all inputs, where a claim about it is false (C36, C50, C62, C65, C68, C70). *)
From Verif Require Import PyBase PyStr Source Field Context Fields SpecUnion SpecWhy.
From Coq Require Import Lia.
Open Scope Z_scope.

(** ** C70: two keys at once below a location of a union *)
Definition union_view (v : val) : Prop := match v with VJoin _ | VUMap _ | VUSeq _ | VConst NONE => True | _ => False end.
Definition closed_view (v : val) : Prop := match v with VJoin _ | VConst NONE => True | _ => False end.
Definition part_view (q : part) : Prop := named (pk q) /\ match pc q with Some v => union_view v | None => True end.

Lemma resolve_view E ents paths c k : union_view c -> exists paths' v, union_resolve E ents paths c k = (paths', Ok v) /\ closed_view v /\ (closed_view c -> v = VConst NONE).
Proof.
  intros V. destruct c; try contradiction; unfold union_resolve.
  - destruct c; try contradiction. do 2 eexists. split; [reflexivity|]. split; [exact I|reflexivity].
  - do 2 eexists. split; [reflexivity|]. split; [exact I|reflexivity].
  - unfold umap_getitem. destruct (map fst _) as [|i l]; cbn [or_NONE]; do 2 eexists; (split; [reflexivity|split; [exact I|contradiction]]).
  - unfold useq_getitem. destruct k as [x|z|x]; try (do 2 eexists; split; [reflexivity|split; [exact I|contradiction]]).
    destruct (useq_find _ _ _) as [[i off]|]; [|do 2 eexists; split; [reflexivity|split; [exact I|contradiction]]].
    destruct (nth_error paths i) as [p|]; [|do 2 eexists; split; [reflexivity|split; [exact I|contradiction]]].
    unfold shift_last. destruct (rev (pp_parts p)) as [|q r]; [do 2 eexists; split; [reflexivity|split; [exact I|contradiction]]|].
    destruct (pk q); do 2 eexists; (split; [reflexivity|split; [exact I|contradiction]]).
Qed.
Lemma closed_union v : closed_view v -> union_view v.
Proof. destruct v; try contradiction; exact (fun H => H). Qed.
Lemma walk_view E ents : forall ps paths cur, union_view cur -> Forall part_view ps -> exists paths' ps' v,
  union_walk E ents paths cur ps = (paths', (ps', Ok v)) /\ Forall part_view ps' /\ union_view v /\ map pk ps' = map pk ps /\
  match ps with [] => v = cur | [_] => closed_view v /\ (closed_view cur -> v = VConst NONE) | _ => v = VConst NONE end.
Proof.
  induction ps as [|q ps IH]; intros paths cur V F; cbn [union_walk].
  - do 3 eexists. split; [reflexivity|]. auto.
  - inversion F as [|? ? PQ F']; subst. destruct (resolve_view E ents paths cur (pk q) V) as (paths1 & v & R & C & N). rewrite R.
    assert (PV : part_view (Part (pk q) (Some v))) by (split; [exact (proj1 PQ)|exact (closed_union v C)]).
    destruct (is_NONE v) eqn:Q.
    + assert (v = VConst NONE) as -> by (destruct v; try discriminate; destruct c; try discriminate; reflexivity).
      do 3 eexists. split; [reflexivity|]. split; [constructor; [exact PV|exact F']|]. split; [exact I|]. split; [reflexivity|]. destruct ps; [split; [exact I|reflexivity]|reflexivity].
    + destruct (IH paths1 v (closed_union v C) F') as (paths2 & ps' & w & W & FV & VW & KS & L). rewrite W.
      do 3 eexists. split; [reflexivity|]. split; [constructor; auto|]. split; [exact VW|]. split; [cbn [map pk]; now rewrite KS|].
      destruct ps as [|q2 [|q3 ps]]; [subst w; auto|exact (proj2 L C)|exact L].
Qed.

Definition upath_view (p : upath) : Prop := union_view (up_root p) /\ Forall part_view (up_parts p).
Lemma cached_view rp : Forall part_view rp -> exists o, last_cached rp = Ok o /\ match o with Some (n, v) => union_view v /\ (n < length rp)%nat | None => True end.
Proof.
  induction rp as [|q rp IH]; intros F; cbn [last_cached]; [eexists; split; [reflexivity|exact I]|].
  inversion F as [|? ? [NK PV] F']; subst. destruct (IH F') as (o & R & H). rewrite R. destruct (pk q) eqn:K; try contradiction;
  (destruct (pc q) as [v|]; [eexists; split; [reflexivity|split; [exact PV|cbn; lia]]|destruct o as [[n v]|]; eexists; (split; [reflexivity|cbn in *; intuition lia])]).
Qed.
Lemma value_view E ents p : upath_view p -> exists q v, up_value E ents p = (q, Ok v) /\ upath_view q /\ union_view v.
Proof.
  intros [VR FV]. unfold up_value. destruct (cached_view (rev (up_parts p))) as (o & R & H).
  { apply Forall_rev. exact FV. }
  rewrite R. destruct o as [[n v]|].
  - destruct (walk_view E ents (skipn (length (up_parts p) - n) (up_parts p)) (up_paths p) v (proj1 H)) as (a & b & w & W & FB & VW & _ & _).
    { rewrite <- (firstn_skipn (length (up_parts p) - n)%nat) in FV. apply Forall_app in FV. tauto. }
    rewrite W. do 2 eexists. split; [reflexivity|]. split; [split; [exact VR|apply Forall_app; split; [|exact FB]]|exact VW].
    rewrite <- (firstn_skipn (length (up_parts p) - n)%nat) in FV. apply Forall_app in FV. tauto.
  - destruct (walk_view E ents (skipn (length (up_parts p) - length (up_parts p)) (up_parts p)) (up_paths p) (up_root p) VR) as (a & b & w & W & FB & VW & _ & _).
    { rewrite Nat.sub_diag. exact FV. }
    rewrite W. do 2 eexists. split; [reflexivity|]. split; [split; [exact VR|apply Forall_app; split; [|exact FB]]|exact VW].
    rewrite Nat.sub_diag. constructor.
Qed.
Lemma append_view k p : named k -> upath_view p -> upath_view (up_append k p).
Proof. intros NK [VR FV]. split; [exact VR|]. apply Forall_app. split; [exact FV|]. constructor; [split; [exact NK|exact I]|constructor]. Qed.
Lemma set_view v p : union_view v -> upath_view p -> upath_view (up_set_value v p).
Proof.
  intros V [VR FV]. unfold up_set_value. destruct (up_parts p) as [|q l] eqn:Q; [split; [exact V|constructor]|]. split; [exact VR|]. cbn [up_parts]. unfold set_last_cache.
  rewrite <- Q in *. assert (FR := Forall_rev FV). destruct (rev (up_parts p)) as [|r rest]; [constructor|]. inversion FR as [|? ? [NK _] FR']; subst.
  apply Forall_app. split; [now apply Forall_rev|]. constructor; [split; [exact NK|exact V]|constructor].
Qed.
Lemma removelast_forall {A} (P : A -> Prop) l : Forall P l -> Forall P (removelast l).
Proof.
  induction 1 as [|a l Pa F IH]; [constructor|]. cbn [removelast]. destruct l; [constructor|]. constructor; [exact Pa|exact IH].
Qed.
Lemma pop_view p : upath_view p -> upath_view (fst (up_pop p)).
Proof.
  intros [VR FV]. unfold up_pop. destruct (up_parts p) as [|q l] eqn:Q; [split; [exact VR|cbn [fst]; rewrite Q; constructor]|]. destruct (pop_all (up_paths p)) as [a b]. split; [exact VR|]. cbn [fst up_parts]. apply removelast_forall. exact FV.
Qed.
Lemma umap_is E ents src paths idx m paths' v : umap_make E ents src paths idx m = (paths', Ok v) -> union_view v.
Proof.
  unfold umap_make. destruct (umap_merge src (length idx) m); try discriminate; destruct (umap_loop _ _ _ _ _ _) as [a [b|e]]; intros [= <- <-]; exact I.
Qed.
Lemma useq_is E ents src paths idx paths' v : useq_make E ents src paths idx = (paths', Ok v) -> union_view v.
Proof. unfold useq_make. destruct (useq_loop _ _ _ _ _ _ _) as [a [b|e]]; intros [= <- <-]; exact I. Qed.
Lemma op_view E ents o p : browses o -> upath_view p -> upath_view (snd (do_op E ents o p)).
Proof.
  intros B V. destruct o as [k| | | | | |t]; cbn [do_op browses] in *; try contradiction.
  - unfold up_exists. destruct (value_view E ents _ (append_view k p B V)) as (q & v & R & VQ & _). rewrite R. exact VQ.
  - pose proof (pop_view p V) as H. destruct (up_pop p). exact H.
  - unfold up_exists. destruct (value_view E ents p V) as (q & v & R & VQ & _). rewrite R. exact VQ.
  - unfold up_is_null. destruct (value_view E ents p V) as (q & v & R & VQ & _). rewrite R. exact VQ.
  - unfold up_mapping. destruct (value_view E ents p V) as (q & v & R & VQ & _). rewrite R. destruct v; try exact VQ.
    destruct (umap_make _ _ _ _ _ _) as [paths' [w|e]] eqn:U; [|exact VQ]. pose proof (umap_is _ _ _ _ _ _ _ _ U) as UV. destruct w; try exact VQ. apply set_view; [exact UV|exact VQ].
  - unfold up_sequence. destruct (value_view E ents p V) as (q & v & R & VQ & _). rewrite R. destruct v; try exact VQ.
    destruct (useq_make _ _ _ _ _) as [paths' [w|e]] eqn:U; [|exact VQ]. pose proof (useq_is _ _ _ _ _ _ _ U) as UV. destruct w; try exact VQ. apply set_view; [exact UV|exact VQ].
Qed.
Lemma ops_view E ents os : forall p, Forall browses os -> upath_view p -> upath_view (snd (do_ops E ents os p)).
Proof.
  induction os as [|o os IH]; intros p B V; [exact V|]. inversion B; subst. cbn [do_ops]. pose proof (op_view E ents o p H1 V) as VO. destruct (do_op E ents o p) as [x p'].
  specialize (IH p' H2 VO). destruct (do_ops E ents os p'). exact IH.
Qed.
Lemma root_view E ents u p : usource_path E ents u = Ok p -> upath_view p.
Proof.
  unfold usource_path. destruct (sub_paths _) as [ps|]; [|discriminate]. destruct (umap_make _ _ _ _ _ _) as [ps' [v|e]] eqn:U; [|discriminate]. destruct ps'; [discriminate|].
  intros [= <-]. split; [exact (umap_is _ _ _ _ _ _ _ _ U)|constructor].
Qed.
Lemma last_two k1 k2 parts : Forall part_view parts -> named k1 -> named k2 ->
  exists o, last_cached (rev ((parts ++ [Part k1 None]) ++ [Part k2 None])) = Ok o /\
    match o with Some (n, v) => union_view v /\ (2 <= n < length parts + 2)%nat | None => True end.
Proof.
  intros F N1 N2. rewrite !rev_app_distr. cbn [rev app last_cached pk pc]. destruct (cached_view (rev parts) (Forall_rev F)) as (o & R & H). rewrite R.
  destruct k1, k2; try contradiction; (destruct o as [[n v]|]; eexists; (split; [reflexivity|]); [rewrite rev_length in H; intuition lia|exact I]).
Qed.
Lemma C70_two_lem E ents u p os k1 k2 : usource_path E ents u = Ok p -> Forall browses os -> named k1 -> named k2 ->
  snd (up_exists E ents (up_append k2 (up_append k1 (snd (do_ops E ents os p))))) = Ok false.
Proof.
  intros U B N1 N2. pose proof (ops_view E ents os p B (root_view _ _ _ _ U)) as V. set (q := snd (do_ops E ents os p)) in *. destruct V as [VR FV].
  unfold up_exists, up_value, up_append. cbn [up_src up_root up_parts up_paths].
  destruct (last_two k1 k2 (up_parts q) FV N1 N2) as (o & R & H). rewrite R. set (parts := (up_parts q ++ [Part k1 None]) ++ [Part k2 None]) in *.
  assert (FP : Forall part_view parts) by (unfold parts; repeat (apply Forall_app; split); auto; constructor; try constructor; auto; exact I).
  assert (LP : length parts = (length (up_parts q) + 2)%nat) by (unfold parts; rewrite !app_length; cbn; lia).
  assert (G : forall n cur, union_view cur -> (2 <= n <= length parts)%nat -> forall paths, exists a b, union_walk E ents paths cur (skipn (length parts - n) parts) = (a, (b, Ok (VConst NONE)))).
  { intros n cur VC LN paths. destruct (walk_view E ents (skipn (length parts - n) parts) paths cur VC) as (a & b & v & W & _ & _ & _ & L).
    { rewrite <- (firstn_skipn (length parts - n)%nat) in FP. apply Forall_app in FP. tauto. }
    assert (LS : length (skipn (length parts - n) parts) = n) by (rewrite skipn_length; lia).
    destruct (skipn (length parts - n) parts) as [|x [|y l]]; cbn in LS; try lia. subst v. eauto. }
  destruct o as [[n v]|].
  - destruct (G n v (proj1 H)) with (paths := map (pp_append k2) (map (pp_append k1) (up_paths q))) as (a & b & W); [rewrite LP; lia|]. rewrite W. reflexivity.
  - destruct (G (length parts) (up_root q) VR) with (paths := map (pp_append k2) (map (pp_append k1) (up_paths q))) as (a & b & W); [rewrite LP; lia|]. rewrite W. reflexivity.
Qed.

(** ** C65: what a field with [attach_parent] can map to *)
Lemma C65_only_lem W n f v s w s' : o_attach_parent (f_opts f) = true -> field_map W n f v s = (Ok w, s') ->
  ignored w = true \/ (exists i, w = VForm i) \/ (exists c k, w = VObj c k).
Proof.
  intros A. destruct n as [|n]; [discriminate|]. cbn [field_map]. unfold field_map_body, bind. rewrite A.
  destruct (with_ctx W _ _ s) as [[x|e] s1]; [|discriminate]. destruct (ignored x) eqn:I; cbn [andb negb].
  - intros [= <- <-]. auto.
  - unfold set_parent. destruct x; try discriminate; cbn [ret].
    + destruct (form_setattr _ _ _ s1) as [[u|e] s2]; [|discriminate]. intros [= <- <-]. right. left. eauto.
    + intros [= <- <-]. right. right. eauto.
Qed.
