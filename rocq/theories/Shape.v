(** * Shape: what path operations can and cannot change.

    The shape of a path is what is left when cached values are forgotten: its
    visible keys, the source of a plain path, and for unions the lengths of the
    sub-paths (whose last key a read may renumber, union.py:231). *)
From Verif Require Import PyBase PyStr Source.
From Coq Require Import Lia.

Definition bsh := (list key * (list nat + psource))%type.
Definition bshape (b : bpath) : bsh :=
  match b with
  | BP p => (pp_keys p, inr (pp_src p))
  | BU u => (up_keys u, inl (map (fun p => length (pp_parts p)) (up_paths u)))
  end.

Inductive shape :=
| ShBase (b : bsh)
| ShMount (sel : option key) (dne : list key * psource) (l : list (string * bsh)).

Definition named_shapes (l : list (string * bpath)) : list (string * bsh) :=
  map (fun kb => (fst kb, bshape (snd kb))) l.
Definition pshape (p : path) : shape :=
  match p with
  | PBase b => ShBase (bshape b)
  | PMount sel dne l => ShMount sel (pp_keys dne, pp_src dne) (named_shapes l)
  end.

(** Sub-paths of a union are as long as the union path itself. *)
Definition lens (s : bsh) : list nat := match snd s with inl l => l | inr _ => [] end.
Definition level (s : bsh) : Prop := Forall (fun n => n = length (fst s)) (lens s).
Definition idle (s : bsh) : Prop := fst s = [].

Fixpoint drop_first {A} (n : string) (l : list (string * A)) : list (string * A) :=
  match l with
  | [] => []
  | (k, a) :: l' => if String.eqb k n then l' else (k, a) :: drop_first n l'
  end.
Definition has_name {A} (k : key) (l : list (string * A)) : bool :=
  match k with
  | KStr s => match alookup l s with Some _ => true | None => false end
  | _ => false
  end.

(** A mount path that selects nothing has descended nowhere, and one that selects a
    mount has descended only there. *)
Definition all_idle (l : list (string * bsh)) : Prop := Forall (fun kb => idle (snd kb)) l.
Definition wf_shape (s : shape) : Prop :=
  match s with
  | ShBase b => level b
  | ShMount sel dne l =>
      Forall (fun kb => level (snd kb)) l /\
      match sel with
      | None => fst dne = [] /\ all_idle l
      | Some k => if has_name k l then fst dne = [] /\ all_idle (drop_first (mount_sel k) l)
                  else all_idle l
      end
  end.
Definition wf_path (p : path) : Prop := wf_shape (pshape p).

(** ** Plain paths: reads keep the keys *)

Lemma walk_parts_keys resolve cur ps :
  map pk (fst (walk_parts resolve cur ps)) = map pk ps.
Proof.
  revert cur; induction ps as [|p ps IH]; intros cur; cbn [walk_parts]; [reflexivity|].
  destruct (resolve cur (pk p)) as [v|e]; [|reflexivity].
  destruct (is_NONE v); [reflexivity|].
  specialize (IH v). destruct (walk_parts resolve v ps) as [rest r].
  cbn in IH |- *. now rewrite IH.
Qed.

Lemma pp_value_keys E ents p p' r : pp_value E ents p = (p', r) ->
  pp_keys p' = pp_keys p /\ pp_src p' = pp_src p /\ pp_root p' = pp_root p.
Proof.
  unfold pp_value. intros H.
  destruct (last_cached (rev (pp_parts p))) as [o|e]; [|inversion H; auto].
  destruct (match o with Some (n, v) => (n, v) | None => (length (pp_parts p), pp_root p) end)
    as [n cur].
  set (i := (length (pp_parts p) - n)%nat) in *.
  pose proof (walk_parts_keys (psource_resolve E ents (pp_src p) (pp_keys p)) cur
                              (skipn i (pp_parts p))) as K.
  destruct (walk_parts _ cur (skipn i (pp_parts p))) as [rest r0].
  inversion H; subst; clear H. unfold pp_keys at 1. cbn [pp_parts pp_src pp_root].
  cbn [fst] in K. split; [|split; reflexivity].
  rewrite map_app, K, <- map_app, firstn_skipn. reflexivity.
Qed.

(** An operation on a plain path that only reads. *)
Definition reads {A} (op : ppath -> ppath * A) : Prop :=
  forall p, pp_keys (fst (op p)) = pp_keys p.

Lemma reads_value E ents : reads (pp_value E ents).
Proof.
  intros p. destruct (pp_value E ents p) as [p' r] eqn:H.
  exact (proj1 (pp_value_keys _ _ _ _ _ H)).
Qed.
Lemma reads_map {A B} (op : ppath -> ppath * A) (g : ppath -> A -> B) :
  reads op -> reads (fun p => let '(p', r) := op p in (p', g p r)).
Proof. intros H p. specialize (H p). cbn. destruct (op p); exact H. Qed.
Lemma reads_exists E ents : reads (pp_exists E ents).
Proof. exact (reads_map _ (fun _ r => _) (reads_value E ents)). Qed.
Lemma reads_is_null E ents : reads (pp_is_null E ents).
Proof. exact (reads_map _ (fun _ r => _) (reads_value E ents)). Qed.
Lemma reads_primitive E ents t : reads (pp_primitive E ents t).
Proof. exact (reads_map _ (fun p r => _) (reads_value E ents)). Qed.
Lemma reads_sequence E ents : reads (pp_sequence E ents).
Proof. exact (reads_map _ (fun p r => _) (reads_value E ents)). Qed.
Lemma reads_mapping E ents : reads (pp_mapping E ents).
Proof. exact (reads_map _ (fun p r => _) (reads_value E ents)). Qed.

(** It keeps the source as well. *)
Definition ptkeeps {A} (op : ppath -> ppath * A) : Prop :=
  forall p, pp_keys (fst (op p)) = pp_keys p /\ pp_src (fst (op p)) = pp_src p.

Lemma pt_value E ents : ptkeeps (pp_value E ents).
Proof.
  intros p. destruct (pp_value E ents p) as [p' r] eqn:H.
  destruct (pp_value_keys _ _ _ _ _ H) as (A & B & _). auto.
Qed.
Lemma pt_map {A B} (op : ppath -> ppath * A) (g : ppath -> A -> B) :
  ptkeeps op -> ptkeeps (fun p => let '(p', r) := op p in (p', g p r)).
Proof. intros H p. specialize (H p). cbn. destruct (op p); exact H. Qed.
Lemma pt_exists E ents : ptkeeps (pp_exists E ents).
Proof. exact (pt_map _ (fun _ r => _) (pt_value E ents)). Qed.
Lemma pt_is_null E ents : ptkeeps (pp_is_null E ents).
Proof. exact (pt_map _ (fun _ r => _) (pt_value E ents)). Qed.
Lemma pt_primitive E ents t : ptkeeps (pp_primitive E ents t).
Proof. exact (pt_map _ (fun p r => _) (pt_value E ents)). Qed.
Lemma pt_sequence E ents : ptkeeps (pp_sequence E ents).
Proof. exact (pt_map _ (fun p r => _) (pt_value E ents)). Qed.
Lemma pt_mapping E ents : ptkeeps (pp_mapping E ents).
Proof. exact (pt_map _ (fun p r => _) (pt_value E ents)). Qed.

Lemma keys_len p q : pp_keys p = pp_keys q -> length (pp_parts p) = length (pp_parts q).
Proof. unfold pp_keys. intros H. rewrite <- (map_length pk), H, map_length. reflexivity. Qed.

(** ** Union paths *)

Definition plens (ps : list ppath) : list nat := map (fun p => length (pp_parts p)) ps.

Lemma replace_nth_map {A B} (f : A -> B) i x l y :
  nth_error l i = Some y -> f x = f y -> map f (replace_nth i x l) = map f l.
Proof.
  unfold replace_nth. intros H Hf. rewrite H.
  rewrite map_app. cbn [map]. rewrite Hf.
  rewrite <- (firstn_skipn i l) at 3. rewrite map_app. f_equal.
  enough (S : skipn i l = y :: skipn (S i) l) by (rewrite S; reflexivity).
  clear Hf x f. revert l H; induction i as [|i IH]; intros [|a l] H; try discriminate.
  - inversion H; reflexivity.
  - cbn. cbn in H. exact (IH l H).
Qed.

Lemma umap_step_len E ents m i p acc :
  length (pp_parts (fst (umap_step E ents m i p acc))) = length (pp_parts p).
Proof.
  apply keys_len. unfold umap_step.
  pose proof (reads_exists E ents p) as H1.
  destruct (pp_exists E ents p) as [p1 [[|]|e]]; cbn [fst] in *; try exact H1.
  pose proof (reads_is_null E ents p1) as H2.
  destruct (pp_is_null E ents p1) as [p2 [[|]|e]]; cbn [fst] in *; try congruence.
  pose proof (reads_mapping E ents p2) as H3.
  destruct (pp_mapping E ents p2) as [p3 [[ks|e]|e]]; cbn [fst] in *; congruence.
Qed.

Lemma umap_loop_len E ents m idx : forall ps acc,
  plens (fst (umap_loop E ents m idx ps acc)) = plens ps.
Proof.
  induction idx as [|i idx IH]; intros ps acc; cbn [umap_loop]; [reflexivity|].
  destruct (nth_error ps i) as [p|] eqn:Hi; [|reflexivity].
  pose proof (umap_step_len E ents m i p acc) as L.
  destruct (umap_step E ents m i p acc) as [p' r]. cbn [fst] in L.
  assert (Q : plens (replace_nth i p' ps) = plens ps)
    by (unfold plens; eapply replace_nth_map; eauto).
  destruct r as [[a|a]|e]; cbn [fst]; rewrite ?IH; exact Q.
Qed.

Lemma umap_make_len E ents src ps idx m : plens (fst (umap_make E ents src ps idx m)) = plens ps.
Proof.
  unfold umap_make. destruct (umap_merge src (length idx) m) as [| | |s]; try reflexivity;
  match goal with |- context [umap_loop _ _ ?mg _ _ _] =>
    pose proof (umap_loop_len E ents mg idx ps []) as L;
    destruct (umap_loop E ents mg idx ps []); exact L end.
Qed.

Lemma useq_step_len E ents src m i p acc :
  length (pp_parts (fst (useq_step E ents src m i p acc))) = length (pp_parts p).
Proof.
  apply keys_len. unfold useq_step.
  pose proof (reads_exists E ents p) as H1.
  destruct (pp_exists E ents p) as [p1 [[|]|e]]; cbn [fst] in *; try exact H1.
  pose proof (reads_is_null E ents p1) as H2.
  destruct (pp_is_null E ents p1) as [p2 [[|]|e]]; cbn [fst] in *; try congruence.
  pose proof (reads_sequence E ents p2) as H3.
  destruct (pp_sequence E ents p2) as [p3 [n|e]]; cbn [fst] in *; [|congruence].
  destruct acc; cbn [fst]; congruence.
Qed.

Lemma useq_loop_len E ents src idx : forall m ps acc,
  plens (fst (useq_loop E ents src m idx ps acc)) = plens ps.
Proof.
  induction idx as [|i idx IH]; intros m ps acc; cbn [useq_loop]; [reflexivity|].
  destruct (nth_error ps i) as [p|] eqn:Hi; [|reflexivity].
  pose proof (useq_step_len E ents src m i p acc) as L.
  destruct (useq_step E ents src m i p acc) as [p' r]. cbn [fst] in L.
  assert (Q : plens (replace_nth i p' ps) = plens ps)
    by (unfold plens; eapply replace_nth_map; eauto).
  destruct r as [[m' a]|e]; cbn [fst]; rewrite ?IH; exact Q.
Qed.

Lemma useq_make_len E ents src ps idx : plens (fst (useq_make E ents src ps idx)) = plens ps.
Proof.
  unfold useq_make. pose proof (useq_loop_len E ents src idx None ps []) as L.
  destruct (useq_loop E ents src None idx ps []); exact L.
Qed.

Lemma shift_last_len off p p' : shift_last off p = Ok p' -> length (pp_parts p') = length (pp_parts p).
Proof.
  unfold shift_last. destruct (rev (pp_parts p)) as [|q rest] eqn:R; [discriminate|].
  destruct (pk q) as [s|z|v]; try discriminate. intros H; inversion H; subst; clear H.
  cbn [pp_parts]. rewrite app_length, rev_length. cbn [length].
  rewrite <- (rev_length (pp_parts p)), R. cbn [length]. lia.
Qed.

Lemma useq_getitem_len ps ss k : plens (fst (useq_getitem ps ss k)) = plens ps.
Proof.
  unfold useq_getitem. destruct k as [s|z|v]; try reflexivity.
  destruct (useq_find ss 0 z) as [[i off]|]; [|reflexivity].
  destruct (nth_error ps i) as [p|] eqn:Hi; [|reflexivity].
  destruct (shift_last off p) as [p'|e] eqn:Hs; [|reflexivity].
  cbn [fst]. unfold plens. eapply replace_nth_map; eauto. exact (shift_last_len _ _ _ Hs).
Qed.

Lemma union_resolve_len E ents ps c k : plens (fst (union_resolve E ents ps c k)) = plens ps.
Proof.
  unfold union_resolve. destruct c; try reflexivity.
  pose proof (useq_getitem_len ps ss k) as L. destruct (useq_getitem ps ss k); exact L.
Qed.

Lemma union_walk_spec E ents parts : forall ps cur,
  plens (fst (union_walk E ents ps cur parts)) = plens ps /\
  map pk (fst (snd (union_walk E ents ps cur parts))) = map pk parts.
Proof.
  induction parts as [|p parts IH]; intros ps cur; cbn [union_walk]; [split; reflexivity|].
  pose proof (union_resolve_len E ents ps cur (pk p)) as L.
  destruct (union_resolve E ents ps cur (pk p)) as [ps1 [v|e]]; cbn [fst] in L; [|split; [exact L|reflexivity]].
  destruct (is_NONE v); [split; [exact L|reflexivity]|].
  specialize (IH ps1 v). destruct (union_walk E ents ps1 v parts) as [ps2 [rest r]].
  cbn [fst snd] in *. destruct IH as [I1 I2]. split; [congruence|]. cbn. now rewrite I2.
Qed.

Definition ureads {A} (op : upath -> upath * A) : Prop :=
  forall u, up_keys (fst (op u)) = up_keys u /\ plens (up_paths (fst (op u))) = plens (up_paths u).

Lemma ureads_value E ents : ureads (up_value E ents).
Proof.
  intros p. unfold up_value.
  destruct (last_cached (rev (up_parts p))) as [o|e]; [|split; reflexivity].
  destruct (match o with Some (n, v) => (n, v) | None => (length (up_parts p), up_root p) end)
    as [n cur].
  set (i := (length (up_parts p) - n)%nat) in *.
  pose proof (union_walk_spec E ents (skipn i (up_parts p)) (up_paths p) cur) as K.
  destruct (union_walk E ents (up_paths p) cur (skipn i (up_parts p))) as [ps [rest r]].
  cbn [fst snd] in *. destruct K as [K1 K2].
  split; [|exact K1]. unfold up_keys. cbn [up_parts].
  rewrite map_app, K2, <- map_app, firstn_skipn. reflexivity.
Qed.

Lemma up_set_value_spec v u :
  up_keys (up_set_value v u) = up_keys u /\ up_paths (up_set_value v u) = up_paths u.
Proof.
  unfold up_set_value, up_keys. destruct (up_parts u) as [|q l] eqn:P; cbn [up_parts up_paths]; [now rewrite ?P|].
  split; [|reflexivity]. unfold set_last_cache.
  destruct (rev (q :: l)) as [|x xs] eqn:R.
  - apply (f_equal (@length part)) in R. rewrite rev_length in R. discriminate.
  - rewrite map_app. cbn [map pk].
    change (map pk (rev xs) ++ [pk x]) with (map pk (rev xs) ++ map pk [x]).
    rewrite <- map_app. change (rev xs ++ [x]) with (rev (x :: xs)). rewrite <- R, rev_involutive.
    reflexivity.
Qed.

Lemma ureads_exists E ents : ureads (up_exists E ents).
Proof. intros u. unfold up_exists. pose proof (ureads_value E ents u). now destruct (up_value E ents u). Qed.
Lemma ureads_is_null E ents : ureads (up_is_null E ents).
Proof. intros u. unfold up_is_null. pose proof (ureads_value E ents u). now destruct (up_value E ents u). Qed.

Lemma ureads_mapping E ents : ureads (up_mapping E ents).
Proof.
  intros u. unfold up_mapping. pose proof (ureads_value E ents u) as H.
  destruct (up_value E ents u) as [p1 r]. cbn [fst] in H. destruct H as [H1 H2].
  destruct r as [v|e]; [|split; assumption].
  destruct v; try (split; assumption).
  pose proof (umap_make_len E ents (up_src p1) (up_paths p1) idx None) as L.
  destruct (umap_make E ents (up_src p1) (up_paths p1) idx None) as [ps r]. cbn [fst] in L.
  destruct r as [v|e]; [|(split; [exact H1|cbn [fst up_paths]; congruence])].
  destruct v; try ((split; [exact H1|cbn [fst up_paths]; congruence])).
  cbn [fst]. match goal with |- context [up_set_value ?v ?u] =>
    destruct (up_set_value_spec v u) as [S1 S2]; rewrite S1, S2 end.
  (split; [exact H1|cbn [fst up_paths]; congruence]).
Qed.

Lemma ureads_sequence E ents : ureads (up_sequence E ents).
Proof.
  intros u. unfold up_sequence. pose proof (ureads_value E ents u) as H.
  destruct (up_value E ents u) as [p1 r]. cbn [fst] in H. destruct H as [H1 H2].
  destruct r as [v|e]; [|split; assumption].
  destruct v; try (split; assumption).
  pose proof (useq_make_len E ents (up_src p1) (up_paths p1) idx) as L.
  destruct (useq_make E ents (up_src p1) (up_paths p1) idx) as [ps r]. cbn [fst] in L.
  destruct r as [v|e]; [|(split; [exact H1|cbn [fst up_paths]; congruence])].
  destruct v; try ((split; [exact H1|cbn [fst up_paths]; congruence])).
  cbn [fst]. match goal with |- context [up_set_value ?v ?u] =>
    destruct (up_set_value_spec v u) as [S1 S2]; rewrite S1, S2 end.
  (split; [exact H1|cbn [fst up_paths]; congruence]).
Qed.

Lemma ureads_primitive E ents t : ureads (up_primitive E ents t).
Proof.
  intros u. unfold up_primitive. pose proof (ureads_value E ents u) as H.
  destruct (up_value E ents u) as [p1 r]. cbn [fst] in H. destruct H as [H1 H2].
  destruct r as [v|e]; [|split; assumption].
  destruct v as [| | | | | | | | | | | | | | | idx | | | |]; try (split; assumption).
  destruct idx as [|i idx].
  - cbn [fst]. destruct (up_set_value_spec (VConst NONE) p1) as [S1 S2]. rewrite S1, S2. auto.
  - destruct (nth_error (up_paths p1) i) as [q|] eqn:Hi; [|split; assumption].
    pose proof (reads_primitive E ents t q) as R.
    destruct (pp_primitive E ents t q) as [q' r]. cbn [fst] in R.
    assert (Q : plens (replace_nth i q' (up_paths p1)) = plens (up_paths p1))
      by (unfold plens; eapply replace_nth_map; eauto using keys_len).
    destruct r as [v|e]; cbn [fst].
    + match goal with |- context [up_set_value ?v ?u] =>
        destruct (up_set_value_spec v u) as [S1 S2]; rewrite S1, S2 end.
      (split; [exact H1|cbn [fst up_paths]; congruence]).
    + (split; [exact H1|cbn [fst up_paths]; congruence]).
Qed.

(** ** Any path: read operations keep the shape *)

Definition breads {A} (op : bpath -> bpath * A) : Prop := forall b, bshape (fst (op b)) = bshape b.

Lemma breads_on {A} (fp : ppath -> ppath * A) (fu : upath -> upath * A) :
  ptkeeps fp -> ureads fu -> breads (on_bp fp fu).
Proof.
  intros Hp Hu [p|u]; unfold on_bp.
  - specialize (Hp p). destruct (fp p) as [p' a]. cbn in *. destruct Hp as [-> ->]. reflexivity.
  - specialize (Hu u). destruct (fu u) as [u' a]. cbn in *. destruct Hu as [H1 H2].
    rewrite H1. unfold plens in H2. now rewrite H2.
Qed.

Definition preads {A} (op : path -> path * A) : Prop := forall p, pshape (fst (op p)) = pshape p.

Lemma aupdate_shape {B} (f : bpath -> bpath * B) l n l' o :
  breads f -> aupdate f l n = (l', o) -> named_shapes l' = named_shapes l.
Proof.
  intros Hf. revert l' o. induction l as [|[k b] l IH]; intros l' o H; cbn [aupdate] in H.
  - inversion H; reflexivity.
  - destruct (String.eqb k n).
    + specialize (Hf b). destruct (f b) as [b' x]. inversion H; subst. cbn in *. now rewrite Hf.
    + destruct (aupdate f l n) as [l2 o2]. inversion H; subst. cbn. f_equal. eapply IH; reflexivity.
Qed.

Lemma on_mount_shape {A} (fb : bpath -> bpath * A) fp k dne l :
  breads fb -> ptkeeps fp ->
  pshape (fst (on_mount fb fp k dne l)) = pshape (PMount (Some k) dne l).
Proof.
  intros Hb Hp. unfold on_mount.
  assert (D : forall q, pshape (fst (let '(d', a) := fp dne in (PMount (Some k) d' q, a)))
              = pshape (PMount (Some k) dne q)).
  { intros q. specialize (Hp dne). destruct (fp dne) as [d' a]. cbn in *. destruct Hp as [-> ->]. reflexivity. }
  destruct (mount_has k l); [|apply D].
  destruct (aupdate fb l (mount_sel k)) as [l' [a|]] eqn:Hu; [|apply D].
  cbn. now rewrite (aupdate_shape _ _ _ _ _ Hb Hu).
Qed.

Lemma base_preads {A} (op : bpath -> bpath * A) b :
  breads op -> pshape (fst (let '(b', r) := op b in (PBase b', r))) = pshape (PBase b).
Proof. intros H. specialize (H b). destruct (op b). cbn in *. now rewrite H. Qed.

Lemma breads_value E ents : breads (bp_value E ents).
Proof. apply breads_on; [apply pt_value|apply ureads_value]. Qed.
Lemma breads_exists E ents : breads (bp_exists E ents).
Proof. apply breads_on; [apply pt_exists|apply ureads_exists]. Qed.
Lemma breads_is_null E ents : breads (bp_is_null E ents).
Proof. apply breads_on; [apply pt_is_null|apply ureads_is_null]. Qed.
Lemma breads_mapping E ents : breads (bp_mapping E ents).
Proof. apply breads_on; [apply pt_mapping|apply ureads_mapping]. Qed.
Lemma breads_sequence E ents : breads (bp_sequence E ents).
Proof. apply breads_on; [apply pt_sequence|apply ureads_sequence]. Qed.
Lemma breads_primitive E ents t : breads (bp_primitive E ents t).
Proof. apply breads_on; [apply pt_primitive|apply ureads_primitive]. Qed.

Lemma preads_value E ents : preads (p_value E ents).
Proof.
  intros [b|[k|] dne l]; cbn [p_value].
  - apply base_preads, breads_value.
  - apply on_mount_shape; [apply breads_value|apply pt_value].
  - reflexivity.
Qed.
Lemma preads_map {A B} (op : path -> path * A) (g : A -> B) :
  preads op -> preads (fun p => let '(p', r) := op p in (p', g r)).
Proof. intros H p. specialize (H p). now destruct (op p). Qed.
Lemma preads_exists E ents : preads (p_exists E ents).
Proof.
  intros [b|[k|] dne l]; cbn [p_exists].
  - apply base_preads, breads_exists.
  - exact (preads_map _ (fun r => match r with Ok v => Ok (negb (is_NONE v)) | Exn e => Exn e end)
             (preads_value E ents) (PMount (Some k) dne l)).
  - reflexivity.
Qed.
Lemma preads_is_null E ents : preads (p_is_null E ents).
Proof.
  intros [b|[k|] dne l]; cbn [p_is_null].
  - apply base_preads, breads_is_null.
  - exact (preads_map _ (fun r => match r with Ok v => Ok (is_None v) | Exn e => Exn e end)
             (preads_value E ents) (PMount (Some k) dne l)).
  - reflexivity.
Qed.
Lemma preads_primitive E ents t : preads (p_primitive E ents t).
Proof.
  intros [b|[k|] dne l]; cbn [p_primitive].
  - apply base_preads, breads_primitive.
  - destruct (mount_has k l); [|reflexivity].
    apply on_mount_shape; [apply breads_primitive|apply pt_primitive].
  - reflexivity.
Qed.
Lemma preads_sequence E ents : preads (p_sequence E ents).
Proof.
  intros [b|[k|] dne l]; cbn [p_sequence].
  - apply base_preads, breads_sequence.
  - destruct (mount_has k l); [|reflexivity].
    apply on_mount_shape; [apply breads_sequence|apply pt_sequence].
  - reflexivity.
Qed.
Lemma preads_mapping E ents : preads (p_mapping E ents).
Proof.
  intros [b|[k|] dne l]; cbn [p_mapping].
  - apply base_preads, breads_mapping.
  - apply on_mount_shape; [apply breads_mapping|apply pt_mapping].
  - reflexivity.
Qed.

(** ** Descending and coming back *)

Definition bsh_append (k : key) (s : bsh) : bsh := (fst s ++ [k], match snd s with inl l => inl (map S l) | inr p => inr p end).
Fixpoint upd_first {A} (f : A -> A) (n : string) (l : list (string * A)) : list (string * A) :=
  match l with
  | [] => []
  | (k, a) :: l' => if String.eqb k n then (k, f a) :: l' else (k, a) :: upd_first f n l'
  end.
Definition sh_append (k : key) (s : shape) : shape :=
  match s with
  | ShBase b => ShBase (bsh_append k b)
  | ShMount None dne l => ShMount (Some k) dne l
  | ShMount (Some m) dne l =>
      if has_name m l then ShMount (Some m) dne (upd_first (bsh_append k) (mount_sel m) l)
      else ShMount (Some m) (fst dne ++ [k], snd dne) l
  end.

Lemma pp_append_keys k p : pp_keys (pp_append k p) = pp_keys p ++ [k].
Proof. unfold pp_keys, pp_append. cbn. now rewrite map_app. Qed.
Lemma bp_append_shape k b : bshape (bp_append k b) = bsh_append k (bshape b).
Proof.
  destruct b as [p|u]; cbn [bp_append bshape].
  - unfold bsh_append. cbn [fst snd map]. now rewrite pp_append_keys.
  - unfold bsh_append, up_keys, up_append. cbn. rewrite map_app, !map_map. f_equal. f_equal.
    apply map_ext. intros p. cbn. rewrite app_length. cbn. lia.
Qed.

Lemma named_shapes_lookup l n :
  alookup (named_shapes l) n = option_map bshape (alookup l n).
Proof.
  induction l as [|[k b] l IH]; [reflexivity|]. cbn. destruct (String.eqb k n); [reflexivity|exact IH].
Qed.
Lemma has_name_shapes k l : has_name k (named_shapes l) = mount_has k l.
Proof.
  destruct k as [s|z|v]; try reflexivity. cbn. rewrite named_shapes_lookup.
  now destruct (alookup l s).
Qed.

Lemma aupdate_total {A B} (f : A -> A * B) l n :
  (exists b, alookup l n = Some b) -> exists l' x, aupdate f l n = (l', Some x).
Proof.
  induction l as [|[k a] l IH]; intros [b Hb]; [discriminate|]. cbn in *.
  destruct (String.eqb k n).
  - destruct (f a) as [a' x]. eauto.
  - destruct (IH (ex_intro _ b Hb)) as (l' & x & H). rewrite H. eauto.
Qed.

Lemma p_append_shape k p : pshape (p_append k p) = sh_append k (pshape p).
Proof.
  destruct p as [b|[m|] dne l]; cbn [p_append].
  - cbn. now rewrite bp_append_shape.
  - cbn [pshape sh_append]. rewrite has_name_shapes. unfold on_mount.
    destruct (mount_has m l) eqn:Hm.
    + destruct (aupdate_total (fun b => (bp_append k b, tt)) l (mount_sel m)) as (l' & x & Hu).
      { destruct m as [s|z|v]; try discriminate. cbn in *. destruct (alookup l s); [eauto|discriminate]. }
      rewrite Hu. cbn. f_equal.
      clear Hm. revert l' Hu. induction l as [|[k' b] l IH]; intros l' Hu; cbn in *.
      * discriminate.
      * destruct (String.eqb k' (mount_sel m)).
        -- inversion Hu; subst. cbn. now rewrite bp_append_shape.
        -- destruct (aupdate (fun b => (bp_append k b, tt)) l (mount_sel m)) as [l2 o2].
           inversion Hu; subst. cbn. f_equal. now apply IH.
    + cbn [fst pshape]. now rewrite pp_append_keys.
  - reflexivity.
Qed.

Lemma level_append k s : level s -> level (bsh_append k s).
Proof.
  destruct s as [ks [l|src]]; unfold level, bsh_append, lens; cbn; intros H; rewrite app_length; cbn; [|constructor].
  rewrite Forall_map. eapply Forall_impl; [|exact H]. cbn. intros n Hn. lia.
Qed.

Lemma Forall_upd_first {A} (P : string * A -> Prop) f n l :
  (forall k a, P (k, a) -> P (k, f a)) -> Forall P l -> Forall P (upd_first f n l).
Proof.
  intros HP H. induction H as [|[k a] l Hk Hl IH]; cbn; [constructor|].
  destruct (String.eqb k n); constructor; auto.
Qed.
Lemma drop_upd_first {A} (f : A -> A) n l : drop_first n (upd_first f n l) = drop_first n l.
Proof.
  induction l as [|[k a] l IH]; [reflexivity|]. cbn. destruct (String.eqb k n) eqn:Hk; cbn; rewrite Hk.
  - reflexivity. - now rewrite IH.
Qed.
Lemma alookup_upd_first {A} (f : A -> A) n m l :
  alookup (upd_first f n l) m =
  if String.eqb n m then option_map f (alookup l m) else alookup l m.
Proof.
  induction l as [|[k a] l IH]; cbn; [now destruct (String.eqb n m)|].
  destruct (String.eqb k n) eqn:Hk; cbn.
  - apply String.eqb_eq in Hk; subst. destruct (String.eqb n m) eqn:Hm; [reflexivity|].
    reflexivity.
  - rewrite IH. destruct (String.eqb k m) eqn:Hm; [|reflexivity].
    destruct (String.eqb n m) eqn:Hn; [|reflexivity].
    apply String.eqb_eq in Hm, Hn; subst. now rewrite String.eqb_refl in Hk.
Qed.
Lemma has_name_upd {A} (f : A -> A) n m l : has_name m (upd_first f n l) = has_name m l.
Proof.
  destruct m as [s|z|v]; try reflexivity. cbn. rewrite alookup_upd_first.
  destruct (String.eqb n s); [|reflexivity]. now destruct (alookup l s).
Qed.

Lemma Forall_drop_first {A} (P : string * A -> Prop) n l : Forall P l -> Forall P (drop_first n l).
Proof.
  intros H. induction H as [|[k a] l Hk Hl IH]; cbn; [constructor|].
  destruct (String.eqb k n); [exact Hl|constructor; auto].
Qed.
Lemma Forall_drop_back {A} (P : string * A -> Prop) n l a :
  alookup l n = Some a -> P (n, a) -> Forall P (drop_first n l) -> Forall P l.
Proof.
  induction l as [|[k b] l IH]; cbn; intros Hl HP H; [discriminate|].
  destruct (String.eqb k n) eqn:Hk.
  - inversion Hl; subst. apply String.eqb_eq in Hk; subst. constructor; auto.
  - inversion H; subst. constructor; auto.
Qed.

Lemma wf_append k s : wf_shape s -> wf_shape (sh_append k s).
Proof.
  destruct s as [b|[m|] dne l]; cbn [sh_append wf_shape].
  - apply level_append.
  - intros [HL HI]. destruct (has_name m l) eqn:Hm; cbn [wf_shape].
    + split; [apply Forall_upd_first; [intros; now apply level_append|exact HL]|].
      rewrite has_name_upd, Hm, drop_upd_first. exact HI.
    + split; [exact HL|]. now rewrite Hm.
  - intros (HL & Hd & HI). split; [exact HL|].
    destruct (has_name k l); [|exact HI]. split; [exact Hd|]. unfold all_idle. now apply Forall_drop_first.
Qed.

(** [pop] undoes [append] on the shape, whatever was read in between. *)
Lemma removelast_snoc {A} (l : list A) x : removelast (l ++ [x]) = l.
Proof. apply removelast_last. Qed.

Lemma map_removelast {A B} (f : A -> B) (l : list A) : map f (removelast l) = removelast (map f l).
Proof. induction l as [|x [|y l] IH]; [reflexivity|reflexivity|]. cbn in *. now rewrite IH. Qed.

Lemma snoc_not_nil {A} (l : list A) x : l ++ [x] <> [].
Proof. now destruct l. Qed.

Lemma pp_pop_back ks k p : pp_keys p = ks ++ [k] ->
  exists p', pp_pop p = (p', Ok tt) /\ pp_keys p' = ks /\ pp_src p' = pp_src p.
Proof.
  intros H. unfold pp_pop. destruct (pp_parts p) as [|q l] eqn:P.
  - unfold pp_keys in H. rewrite P in H. symmetry in H. now apply snoc_not_nil in H.
  - eexists; split; [reflexivity|]. split; [|reflexivity]. unfold pp_keys in *. cbn [pp_parts].
    rewrite P in H. now rewrite map_removelast, H, removelast_snoc.
Qed.

Lemma pop_all_back : forall ps ns, plens ps = map S ns ->
  exists ps', pop_all ps = (ps', Ok tt) /\ plens ps' = ns.
Proof.
  induction ps as [|p ps IH]; intros [|n ns] H; try discriminate; cbn in *.
  - eauto.
  - injection H as H1 H2. unfold pp_pop. destruct (pp_parts p) as [|q l] eqn:P; [discriminate|].
    destruct (IH ns H2) as (ps' & E1 & E2). rewrite E1. eexists; split; [reflexivity|].
    cbn [plens map pp_parts]. unfold plens in E2. rewrite E2. f_equal.
    cbn [length] in H1. injection H1 as H1. rewrite <- H1. clear.
    revert q; induction l as [|x l IH]; intros q; [reflexivity|]. cbn in *. now rewrite IH.
Qed.

Lemma bp_pop_back s k b : bshape b = bsh_append k s ->
  exists b', bp_pop b = (b', Ok tt) /\ bshape b' = s.
Proof.
  destruct s as [ks ns]. unfold bsh_append. cbn. destruct b as [p|u]; cbn; intros H.
  - injection H as H1 H2. destruct ns as [ns|src]; [discriminate|]. injection H2 as H2.
    destruct (pp_pop_back ks k p H1) as (p' & E1 & E2 & E3).
    unfold bp_pop, on_bp. rewrite E1. eexists; split; [reflexivity|]. cbn. now rewrite E2, E3, H2.
  - injection H as H1 H2. destruct ns as [ns|src]; [|discriminate]. injection H2 as H2. unfold bp_pop, on_bp, up_pop.
    destruct (up_parts u) as [|q l] eqn:P.
    + unfold up_keys in H1. rewrite P in H1. symmetry in H1. now apply snoc_not_nil in H1.
    + destruct (pop_all_back (up_paths u) ns H2) as (ps' & E1 & E2). rewrite E1.
      eexists; split; [reflexivity|]. cbn [bshape up_paths]. unfold plens in E2. rewrite E2. f_equal.
      unfold up_keys in *. cbn [up_parts]. rewrite P in H1.
      now rewrite map_removelast, H1, removelast_snoc.
Qed.

Definition sh_keys (s : shape) : list key :=
  match s with
  | ShBase b => fst b
  | ShMount None _ _ => []
  | ShMount (Some k) dne l =>
      k :: (if has_name k l
            then match alookup l (mount_sel k) with Some b => fst b | None => [] end
            else fst dne)
  end.
Lemma p_keys_shape p : p_keys p = sh_keys (pshape p).
Proof.
  destruct p as [[p|u]|[k|] dne l]; try reflexivity.
  cbn. rewrite has_name_shapes, named_shapes_lookup.
  destruct (mount_has k l); [|reflexivity]. destruct (alookup l (mount_sel k)) as [[p|u]|]; reflexivity.
Qed.

Lemma aupdate_pop l n s k : alookup (named_shapes l) n = Some (bsh_append k s) ->
  exists l', aupdate bp_pop l n = (l', Some (Ok tt)) /\
             named_shapes l' = upd_first (fun _ => s) n (named_shapes l).
Proof.
  induction l as [|[m b] l IH]; cbn; intros H; [discriminate|].
  destruct (String.eqb m n).
  - injection H as H. destruct (bp_pop_back s k b H) as (b' & E1 & E2). rewrite E1.
    eexists; split; [reflexivity|]. cbn. now rewrite E2.
  - destruct (IH H) as (l' & E1 & E2). rewrite E1. eexists; split; [reflexivity|].
    cbn. unfold named_shapes in E2; now rewrite E2.
Qed.

Lemma upd_first_undo {A} (f : A -> A) n l a :
  alookup l n = Some a -> upd_first (fun _ => a) n (upd_first f n l) = l.
Proof.
  induction l as [|[k b] l IH]; cbn; intros H; [discriminate|].
  destruct (String.eqb k n) eqn:Hk; cbn; rewrite Hk.
  - now inversion H.
  - now rewrite IH.
Qed.

Lemma pop_append k s p : wf_shape s -> pshape p = sh_append k s ->
  exists p', p_pop p = (p', Ok tt) /\ pshape p' = s.
Proof.
  intros WF H. destruct s as [b|[m|] dne l]; cbn [sh_append] in H.
  - destruct p as [b0|? ? ?]; [|discriminate]. cbn in H. injection H as H.
    destruct (bp_pop_back _ _ _ H) as (b' & E1 & E2). cbn [p_pop]. rewrite E1.
    eexists; split; [reflexivity|]. cbn. now rewrite E2.
  - destruct (has_name m l) eqn:Hm.
    + destruct p as [b0|sel d ps]; [discriminate|]. cbn in H. injection H as H1 H2 H3. subst sel.
      destruct m as [n|z|v]; try discriminate. cbn [has_name mount_sel] in *.
      destruct (alookup l n) as [b|] eqn:Hl; [|discriminate].
      assert (L : alookup (named_shapes ps) n = Some (bsh_append k b)).
      { rewrite H3, alookup_upd_first, String.eqb_refl, Hl. reflexivity. }
      assert (K : p_keys (PMount (Some (KStr n)) d ps) = KStr n :: (fst b ++ [k])).
      { rewrite p_keys_shape. cbn [pshape sh_keys has_name mount_sel]. rewrite L. reflexivity. }
      assert (MH : mount_has (KStr n) ps = true).
      { rewrite <- has_name_shapes. cbn. now rewrite L. }
      destruct (aupdate_pop _ _ _ _ L) as (ps' & E1 & E2).
      unfold p_pop. rewrite K. unfold on_mount. rewrite MH. cbn [mount_sel]. rewrite E1.
      exists (PMount (Some (KStr n)) d ps'). split.
      { destruct (fst b ++ [k]) eqn:Z; [now apply snoc_not_nil in Z|reflexivity]. }
      cbn. rewrite E2, H3, H2. f_equal. now apply upd_first_undo.
    + destruct p as [b0|sel d ps]; [discriminate|]. cbn in H. destruct dne as [dk ds]. cbn [fst snd] in H. injection H as H1 H2 H2s H3. subst sel. destruct (pp_pop_back _ _ _ H2) as (d' & E1 & E2 & E3).
      assert (MH : mount_has m ps = false) by now rewrite <- has_name_shapes, H3.
      assert (K : p_keys (PMount (Some m) d ps) = m :: dk ++ [k]).
      { rewrite p_keys_shape. cbn [pshape sh_keys]. rewrite H3, Hm. now rewrite H2. }
      unfold p_pop. rewrite K. unfold on_mount. rewrite MH, E1.
      exists (PMount (Some m) d' ps). split.
      { destruct (dk ++ [k]) eqn:Z; [now apply snoc_not_nil in Z|reflexivity]. }
      cbn. now rewrite E2, E3, H3, H2s.
  - destruct p as [b0|sel d ps]; [discriminate|]. cbn in H. destruct dne as [dk ds]. injection H as H1 H2 H2s H3. subst sel.
    cbn in WF. destruct WF as (HL & Hd & HI). subst dk.
    assert (K : p_keys (PMount (Some k) d ps) = [k]).
    { rewrite p_keys_shape. cbn [pshape sh_keys]. rewrite H3, H2. destruct (has_name k l); [|reflexivity].
      destruct (alookup l (mount_sel k)) as [b|] eqn:Hb; [|reflexivity].
      f_equal. clear - HI Hb. induction HI as [|[n x] l Hx Hl IH]; [discriminate|]. cbn in Hb.
      destruct (String.eqb n (mount_sel k)); [inversion Hb; subst; exact Hx|auto]. }
    unfold p_pop. rewrite K. eexists; split; [reflexivity|]. cbn. now rewrite H2, H2s, H3.
Qed.


(** ** Freshly made paths *)

Lemma bsource_path_shape E ents b p : bsource_path E ents b = Ok p ->
  fst (bshape p) = [] /\ level (bshape p).
Proof.
  destruct b as [s|u]; cbn.
  - unfold psource_path. destruct (psource_root s); [|discriminate]. intros H; inversion H; subst.
    cbn. split; [reflexivity|constructor].
  - unfold usource_path. destruct (sub_paths (us_srcs u)) as [ps|e] eqn:Hs; [|discriminate].
    assert (Z : Forall (fun n => n = O) (plens ps)).
    { clear - Hs. revert ps Hs. induction (us_srcs u) as [|s l IH]; cbn; intros ps Hs.
      - inversion Hs; constructor.
      - unfold psource_path in Hs. destruct (psource_root s); [|discriminate].
        destruct (sub_paths l) as [ps'|e]; [|discriminate]. inversion Hs; subst.
        constructor; [reflexivity|apply IH; reflexivity]. }
    pose proof (umap_make_len E ents u ps (seq 0 (length ps)) (Some MCombine)) as L.
    destruct (umap_make E ents u ps (seq 0 (length ps)) (Some MCombine)) as [ps' [v|e]]; [|discriminate].
    cbn [fst] in L. destruct ps' as [|q ps']; [discriminate|].
    intros H; inversion H; subst; clear H. cbn [bshape up_keys up_parts up_paths map fst].
    split; [reflexivity|]. unfold level. cbn [fst snd length]. fold (plens (q :: ps')).
    change (length (pp_parts q) :: map (fun p : ppath => length (pp_parts p)) ps') with (plens (q :: ps')).
    rewrite L. exact Z.
Qed.

Lemma source_path_wf E ents s p : source_path E ents s = Ok p -> wf_path p.
Proof.
  destruct s as [b|l]; cbn.
  - destruct (bsource_path E ents b) as [q|e] eqn:H; [|discriminate]. intros H'; inversion H'; subst.
    exact (proj2 (bsource_path_shape _ _ _ _ H)).
  - destruct (py3 E); [discriminate|].
    destruct (mount_paths E ents l) as [ps|e] eqn:Hs; [|discriminate]. intros H'; inversion H'; subst.
    unfold wf_path. cbn.
    assert (A : Forall (fun kb => level (snd kb)) (named_shapes ps) /\ all_idle (named_shapes ps)).
    { clear - Hs. revert ps Hs. induction l as [|[k b] l IH]; cbn; intros ps Hs.
      - inversion Hs; split; constructor.
      - destruct (bsource_path E ents b) as [q|e] eqn:H; [|discriminate].
        destruct (mount_paths E ents l) as [ps'|e]; [|discriminate]. inversion Hs; subst.
        destruct (IH ps' eq_refl) as [I1 I2]. destruct (bsource_path_shape _ _ _ _ H) as [K1 K2].
        split; constructor; auto. }
    destruct A as [A1 A2]. split; [exact A1|]. split; [reflexivity|exact A2].
Qed.
