(** Proofs about type tables, hooks and clones. *)
From Coq Require Import Lia Permutation Sorted.
From Verif Require Import PyBase PyStr Meta SpecMeta Balance MetaProofs.

(** ** New fields come last *)
Lemma sorted_before {A} (key : A -> nat) l x y : StronglySorted (fun a b => (key a <= key b)%nat) l ->
  In x l -> In y l -> (key x < key y)%nat -> before x y l.
Proof.
  induction 1 as [|a l S IH F]; intros X Y L; [easy|]. rewrite Forall_forall in F. destruct X as [->|X], Y as [Y|Y].
  - subst. lia.
  - apply in_split in Y. destruct Y as (l1 & l2 & ->). now exists [], l1, l2.
  - subst a. specialize (F x X). lia.
  - destruct (IH X Y L) as (l1 & l2 & l3 & ->). now exists (a :: l1), l2, l3.
Qed.
Lemma inherited_count s bases mro dict g b m : mro_ok s -> (forall b, In b mro -> (b < length (m_classes s))%nat) -> bases_attached mro s ->
  In b mro -> class_attr s b m = Some (MField g) -> count_of (define_class bases mro dict s) g = count_of s g.
Proof.
  intros OK LT BA B H. destruct (define_lem s bases mro dict OK LT BA) as (_ & _ & _ & _ & _ & _ & L & X).
  unfold count_of. destruct (nth_error (m_fields s) g) as [o|] eqn:G.
  - destruct (X g o G) as [[E _]|(P & _)]; [now rewrite E|]. pose proof (BA b m g B H) as A. unfold is_attached in A. rewrite G, P in A. discriminate.
  - apply nth_error_None in G. rewrite <- L in G. apply nth_error_None in G. now rewrite G.
Qed.

(** ** The type table *)
Lemma set_identity_get l v c w : alookup (set_identity l v c) w = if String.eqb v w then Some c else alookup l w.
Proof.
  induction l as [|[x d] l IH]; cbn [set_identity alookup]; [now destruct (String.eqb v w)|].
  destruct (String.eqb x v) eqn:XV; cbn [alookup].
  - apply String.eqb_eq in XV as ->. destruct (String.eqb v w); reflexivity.
  - rewrite IH. destruct (String.eqb x w) eqn:XW; [|reflexivity]. apply String.eqb_eq in XW as ->. now rewrite String.eqb_sym, XV.
Qed.
Lemma fold_identity vs c : forall l w, alookup (fold_left (fun acc v => set_identity acc v c) vs l) w =
  if in_dec string_dec w vs then Some c else alookup l w.
Proof.
  induction vs as [|v vs IH]; intros l w; cbn [fold_left]; [now destruct (in_dec string_dec w [])|]. rewrite IH, set_identity_get.
  destruct (in_dec string_dec w vs) as [I|I], (in_dec string_dec w (v :: vs)) as [J|J]; try reflexivity.
  - exfalso. apply J. now right.
  - destruct J as [->|J]; [now rewrite String.eqb_refl|contradiction].
  - destruct (String.eqb v w) eqn:E; [|reflexivity]. apply String.eqb_eq in E as ->. exfalso. apply J. now left.
Qed.
Lemma choices_lists s c n v : In v (choices_of s c n) <-> lists s n c v.
Proof.
  unfold choices_of, lists. split.
  - destruct (class_attr s c n) as [[f|]|] eqn:A; [|easy|easy]. destruct (nth_error (m_fields s) f) as [o|] eqn:O; [|easy].
    destruct (fo_choices o) as [l|] eqn:L; [|easy]. intros I. now exists f, o, l.
  - intros (f & o & l & A & O & L & I). now rewrite A, O, L.
Qed.
Lemma subclasses_in s c d : In d (subclasses s c) <-> exists k, nth_error (m_classes s) d = Some k /\ In c (c_bases k).
Proof.
  unfold subclasses. rewrite filter_In, in_seq. split.
  - intros [_ H]. destruct (nth_error (m_classes s) d) as [k|] eqn:K; [|discriminate]. exists k. split; [reflexivity|].
    apply existsb_exists in H. destruct H as (x & X & E). apply Nat.eqb_eq in E. now subst.
  - intros (k & K & I). rewrite K. split.
    + split; [lia|]. cbn. apply nth_error_Some. congruence.
    + apply existsb_exists. exists c. split; [exact I|apply Nat.eqb_refl].
Qed.
Lemma walk_sound n s name : forall c tbl v d, alookup (types_walk n s name c tbl) v = Some d ->
  alookup tbl v = Some d \/ (descends s c d /\ lists s name d v).
Proof.
  induction n as [|n IH]; intros c tbl v d H; cbn [types_walk] in H; [now left|].
  assert (L : forall l t, (forall x, In x l -> In x (subclasses s c)) ->
    alookup (fold_left (fun acc x => types_walk n s name x acc) l t) v = Some d ->
    alookup t v = Some d \/ (exists x, In x (subclasses s c) /\ descends s x d /\ lists s name d v)).
  { induction l as [|x l IL]; intros t X Q; cbn [fold_left] in Q; [now left|].
    destruct (IL _ (fun y Y => X y (or_intror Y)) Q) as [R|R]; [|now right].
    destruct (IH x t v d R) as [R'|[R1 R2]]; [now left|]. right. exists x. split; [apply X; now left|]. now split. }
  destruct (L _ _ (fun _ Y => Y) H) as [R|(x & X & D & Z)].
  - rewrite fold_identity in R. destruct (in_dec string_dec v (choices_of s c name)) as [I|I]; [|now left].
    injection R as <-. right. split; [constructor|]. now apply choices_lists.
  - right. split; [|exact Z]. apply subclasses_in in X. destruct X as (k & K & B). now apply desc_step with x k.
Qed.
Lemma walk_keeps n s name : forall c tbl v, alookup tbl v <> None -> alookup (types_walk n s name c tbl) v <> None.
Proof.
  induction n as [|n IH]; intros c tbl v H; cbn [types_walk]; [exact H|].
  assert (L : forall l t, alookup t v <> None -> alookup (fold_left (fun acc x => types_walk n s name x acc) l t) v <> None).
  { induction l as [|x l IL]; intros t T; cbn [fold_left]; [exact T|]. apply IL, IH, T. }
  apply L. rewrite fold_identity. now destruct (in_dec string_dec v (choices_of s c name)).
Qed.
Lemma walk_complete s name : bases_first s -> forall n c tbl v d, (length (m_classes s) < n + c)%nat ->
  descends s c d -> lists s name d v -> (c < length (m_classes s))%nat -> alookup (types_walk n s name c tbl) v <> None.
Proof.
  intros BF. induction n as [|n IH]; intros c tbl v d L D Z C; [lia|]. cbn [types_walk].
  assert (K : forall l t, alookup t v <> None -> alookup (fold_left (fun acc x => types_walk n s name x acc) l t) v <> None).
  { induction l as [|x l IL]; intros t T; cbn [fold_left]; [exact T|]. apply IL, walk_keeps, T. }
  destruct D as [c|c e d k E B D].
  - apply K. rewrite fold_identity. apply choices_lists in Z. now destruct (in_dec string_dec v (choices_of s c name)).
  - pose proof (BF e k c E B) as CE. assert (EL : (e < length (m_classes s))%nat) by (apply nth_error_Some; congruence).
    assert (I : In e (subclasses s c)) by (apply subclasses_in; now exists k).
    assert (G : forall t, alookup (types_walk n s name e t) v <> None) by (intros t; apply (IH e t v d); auto; lia).
    clear - I G K. revert I. generalize (fold_left (fun acc w => set_identity acc w c) (choices_of s c name) tbl). induction (subclasses s c) as [|x l IL]; intros t I; [easy|].
    cbn [fold_left]. destruct I as [->|I]; [apply K, G|now apply IL].
Qed.
Lemma C55_table_lem s f o c name : bases_first s ->
  nth_error (m_fields s) f = Some o -> fo_parent o = Some (InClass c) -> fo_name o = Some name -> (c < length (m_classes s))%nat ->
  exists table, types_map s f = Some table /\
    (forall v d, alookup table v = Some d -> descends s c d /\ lists s name d v) /\
    (forall v d, descends s c d -> lists s name d v -> exists d', alookup table v = Some d') /\
    (forall v d, descends s c d -> lists s name d v -> (forall d', descends s c d' -> lists s name d' v -> d' = d) ->
       alookup table v = Some d).
Proof.
  intros BF F P N C. unfold types_map. rewrite F. destruct o as [oc op on os och]. cbn [fo_parent fo_name] in P, N. subst.
  eexists. split; [reflexivity|].
  assert (SD : forall v d, alookup (types_walk (S (length (m_classes s))) s name c []) v = Some d -> descends s c d /\ lists s name d v).
  { intros v d H. apply walk_sound in H. now destruct H. }
  assert (T : forall v d, descends s c d -> lists s name d v -> exists d', alookup (types_walk (S (length (m_classes s))) s name c []) v = Some d').
  { intros v d D Z. destruct (alookup (types_walk (S (length (m_classes s))) s name c []) v) as [d'|] eqn:A; [now exists d'|].
    exfalso. revert A. apply (walk_complete s name BF _ c [] v d); auto. lia. }
  split; [exact SD|]. split; [exact T|]. intros v d D Z U. destruct (T v d D Z) as (d' & E). destruct (SD v d' E) as [D' Z']. rewrite E. f_equal. now apply U.
Qed.

(** ** Hooks *)
Lemma climb_outermost o f : outermost o f -> exists up, climb o = OwnField f up.
Proof. induction 1; [now exists None|]. exact IHoutermost. Qed.
Lemma hook_later form fn : forall calls h, h_func h = Some fn -> h_target h <> None \/ form <> None ->
  hook_calls form calls h =
  (map (fun args => HInvoked fn (match h_target h with Some t => t | None => match form with Some v => v | None => VNone end end) args) calls, h).
Proof.
  induction calls as [|a calls IH]; intros h H T; [reflexivity|]. cbn [hook_calls]. unfold hook_call at 1. rewrite H.
  destruct (h_target h) as [t|] eqn:HT.
  - rewrite IH by (auto; left; congruence). rewrite HT. reflexivity.
  - destruct form as [v|]; [|exfalso; destruct T; congruence]. rewrite IH by (auto; right; congruence). rewrite HT. reflexivity.
Qed.
Lemma hook_early form : forall calls h, h_func h = None -> Forall (fun args => ~ registers h args) calls ->
  exists l, hook_calls form calls h = (l, h) /\ Forall (fun a => exists e, a = HRaised e) l.
Proof.
  induction calls as [|a calls IH]; intros h H F; [exists []; now split|]. inversion F as [|? ? F1 F2]. subst. cbn [hook_calls].
  assert (E : exists e, hook_call form a h = (HRaised e, h)).
  { unfold hook_call. rewrite H. destruct a as [|[fn spec|v] a].
    - destruct (match h_target h with Some t => Some t | None => form end); eexists; reflexivity.
    - destruct (list_eq_dec string_dec spec (h_spec h)) as [->|D]; [exfalso; apply F1; now exists fn, a|]. eexists; reflexivity.
    - destruct (match h_target h with Some t => Some t | None => form end); eexists; reflexivity. }
  destruct E as (e & E). rewrite E. destruct (IH h H F2) as (l & L & FL). rewrite L. exists (HRaised e :: l). split; [reflexivity|]. constructor; [now exists e|exact FL].
Qed.
Lemma hook_calls_app form c1 : forall c2 h, hook_calls form (c1 ++ c2) h =
  let '(l1, h1) := hook_calls form c1 h in let '(l2, h2) := hook_calls form c2 h1 in (l1 ++ l2, h2).
Proof.
  induction c1 as [|a c1 IH]; intros c2 h; cbn [app hook_calls]; [now destruct (hook_calls form c2 h)|].
  destruct (hook_call form a h) as [x h1]. rewrite IH. destruct (hook_calls form c1 h1) as [l1 h2]. now destruct (hook_calls form c2 h2).
Qed.
Lemma C66_owner form h pre fn rest post : h_func h = None -> h_target h <> None \/ form <> None ->
  Forall (fun args => ~ registers h args) pre ->
  exists early target h', 
    hook_calls form (pre ++ (HFun fn (h_spec h) :: rest) :: post) h =
      (early ++ HReturned (climb (h_parent h)) :: map (HInvoked fn target) post, h') /\
    length early = length pre /\ Forall (fun a => exists e, a = HRaised e) early /\
    match h_target h with Some t => target = t | None => form = Some target end /\
    h_func h' = Some fn.
Proof.
  intros H T F. destruct (hook_early form pre h H F) as (early & E & FE).
  assert (LE : forall c h l h', hook_calls form c h = (l, h') -> length l = length c).
  { induction c as [|a c IH]; intros h0 l h0' Q; cbn in Q; [now injection Q as <- _|].
    destruct (hook_call form a h0) as [x h1]. destruct (hook_calls form c h1) as [l1 h2] eqn:Q1. injection Q as <- _. cbn. f_equal. now apply IH in Q1. }
  rewrite hook_calls_app, E. cbn [hook_calls]. unfold hook_call at 1. rewrite H. destruct (list_eq_dec string_dec (h_spec h) (h_spec h)) as [_|N]; [|congruence].
  rewrite (hook_later form fn) by (cbn; auto). cbn [h_target].
  exists early, (match h_target h with Some t => t | None => match form with Some v => v | None => VNone end end). eexists. split; [reflexivity|].
  split; [now apply LE in E|]. split; [exact FE|]. split; [|reflexivity].
  destruct (h_target h) as [t|]; [reflexivity|]. destruct form as [v|]; [reflexivity|]. exfalso. destruct T; congruence.
Qed.
Lemma C66_lem form h pre fn rest post f : h_func h = None -> outermost (h_parent h) f -> h_target h <> None \/ form <> None ->
  Forall (fun args => ~ registers h args) pre ->
  exists early up target h', 
    hook_calls form (pre ++ (HFun fn (h_spec h) :: rest) :: post) h =
      (early ++ HReturned (OwnField f up) :: map (HInvoked fn target) post, h') /\
    length early = length pre /\ Forall (fun a => exists e, a = HRaised e) early /\
    match h_target h with Some t => target = t | None => form = Some target end /\
    h_func h' = Some fn.
Proof.
  intros H O T F. destruct (climb_outermost _ _ O) as (up & C). destruct (C66_owner form h pre fn rest post H T F) as (early & target & h' & Q).
  rewrite C in Q. now exists early, up, target, h'.
Qed.
Lemma C66_class_lem form h pre fn rest post c : h_func h = None -> class_around (h_parent h) c -> h_target h <> None \/ form <> None ->
  Forall (fun args => ~ registers h args) pre ->
  exists early target h', 
    hook_calls form (pre ++ (HFun fn (h_spec h) :: rest) :: post) h =
      (early ++ HReturned (OwnForm c) :: map (HInvoked fn target) post, h') /\
    length early = length pre /\ Forall (fun a => exists e, a = HRaised e) early /\
    match h_target h with Some t => target = t | None => form = Some target end /\
    h_func h' = Some fn.
Proof.
  intros H O T F. destruct (C66_owner form h pre fn rest post H T F) as (early & target & h' & Q).
  assert (C : climb (h_parent h) = OwnForm c) by (clear -O; induction O; auto). rewrite C in Q. now exists early, target, h'.
Qed.

(** ** Clones *)
Lemma clone_aliases f o s : nth_error (cs_objs s) f = Some o -> aliases (clone f s) f (length (cs_objs s)).
Proof.
  intros H. unfold clone. rewrite H. exists o. eexists. cbn [cs_objs]. split; [rewrite nth_error_app1; [exact H|]; apply nth_error_Some; congruence|].
  split; [rewrite nth_error_app2, Nat.sub_diag by lia; reflexivity|]. now cbn.
Qed.
Definition refs (s : cst) : list (nat * nat * nat) := map (fun o => (co_ignores o, co_translations o, co_tags o)) (cs_objs s).
Lemma refs_upd_obj f g s : (forall o, (co_ignores (g o), co_translations (g o), co_tags (g o)) = (co_ignores o, co_translations o, co_tags o)) ->
  refs (upd_obj f g s) = refs s.
Proof.
  intros G. unfold upd_obj. destruct (nth_error (cs_objs s) f) as [o|] eqn:O; [|reflexivity]. unfold refs. cbn [cs_objs].
  set (h := fun o => (co_ignores o, co_translations o, co_tags o)).
  assert (X : forall l i x y, nth_error l i = Some x -> h x = h y -> map h (replace_nth i y l) = map h l).
  { intros l i x y N E. unfold replace_nth. rewrite N, map_app. cbn [map]. rewrite <- E. rewrite <- (firstn_skipn i l) at 3. rewrite map_app. f_equal.
    clear E. revert i N. induction l as [|a l IH]; intros [|i] N; cbn in *; try discriminate; [now injection N as ->|now apply IH]. }
  apply X with o; [exact O|]. symmetry. apply G.
Qed.
Lemma refs_do f o s : refs (do_cop f o s) = refs s.
Proof.
  unfold do_cop. destruct (nth_error (cs_objs s) f); [|reflexivity]. destruct o; try (apply refs_upd_obj; reflexivity);
    unfold upd_list, upd_dict; [destruct (nth_error (cs_lists s) _)|destruct (nth_error (cs_dicts s) _)|destruct (nth_error (cs_lists s) _)]; reflexivity.
Qed.
Lemma aliases_refs s s' f g : refs s' = refs s -> aliases s f g -> aliases s' f g.
Proof.
  intros E (a & b & A & B & H1 & H2 & H3). assert (X : forall i o, nth_error (cs_objs s) i = Some o ->
    exists o', nth_error (cs_objs s') i = Some o' /\ co_ignores o' = co_ignores o /\ co_translations o' = co_translations o /\ co_tags o' = co_tags o).
  { intros i o O. assert (N : nth_error (refs s') i = nth_error (refs s) i) by now rewrite E. unfold refs in N. rewrite !nth_error_map, O in N. cbn in N.
    destruct (nth_error (cs_objs s') i) as [o'|]; [|discriminate]. cbn in N. injection N as N1 N2 N3. now exists o'. }
  destruct (X _ _ A) as (a' & A' & A1 & A2 & A3). destruct (X _ _ B) as (b' & B' & B1 & B2 & B3). exists a', b'. repeat split; congruence.
Qed.
Lemma C67_shared_lem f o s ops : nth_error (cs_objs s) f = Some o ->
  let s' := do_cops ops (clone f s) in
  ignores_of s' f = ignores_of s' (length (cs_objs s)) /\ translations_of s' f = translations_of s' (length (cs_objs s)) /\
  tags_of s' f = tags_of s' (length (cs_objs s)).
Proof.
  intros H. assert (A : aliases (do_cops ops (clone f s)) f (length (cs_objs s))).
  { pose proof (clone_aliases f o s H) as A. revert A. generalize (clone f s). induction ops as [|[i c] ops IH]; intros s0 A; [exact A|].
    cbn [do_cops]. apply IH. apply aliases_refs with s0; [apply refs_do|exact A]. }
  destruct A as (a & b & A & B & H1 & H2 & H3). cbv zeta. unfold ignores_of, translations_of, tags_of. rewrite A, B, H1, H2, H3. auto.
Qed.
Lemma plain_do f g o s : f <> g -> plain_part (do_cop f o s) g = plain_part s g.
Proof.
  intros D. unfold do_cop. destruct (nth_error (cs_objs s) f) as [c|] eqn:C; [|reflexivity]. unfold plain_part.
  destruct o; unfold upd_list, upd_dict, upd_obj; rewrite ?C; try (destruct (nth_error (cs_lists s) _)); try (destruct (nth_error (cs_dicts s) _)); cbn [cs_objs]; try reflexivity;
    now rewrite nth_replace_neq by exact D.
Qed.
Lemma C67_own_lem f o s : nth_error (cs_objs s) f = Some o ->
  (forall v, plain_part (do_cop f (OpNullable v) s) f = Some (co_parent o, co_src o, v, co_default o)) /\
  (forall k, plain_part (do_cop f (OpSrc k) s) f = Some (co_parent o, k, co_nullable o, co_default o)) /\
  (forall v, v <> VNone -> plain_part (do_cop f (OpDefault v) s) f = Some (co_parent o, co_src o, co_nullable o, v)) /\
  plain_part (do_cop f (OpDefault VNone) s) f = Some (co_parent o, co_src o, VBool true, VNone) /\
  (forall c, match c with OpIgnore _ | OpTranslate _ | OpTag _ => True | _ => False end -> plain_part (do_cop f c s) f = plain_part s f).
Proof.
  intros H. assert (U : forall g, plain_part (upd_obj f g s) f = Some (co_parent (g o), co_src (g o), co_nullable (g o), co_default (g o))).
  { intros g. unfold upd_obj, plain_part. rewrite H. cbn [cs_objs]. now rewrite (nth_replace_eq f _ _ o H) || (rewrite nth_replace_eq; [reflexivity|apply nth_error_Some; congruence]). }
  unfold do_cop. rewrite H. repeat split.
  - intros v. now rewrite U.
  - intros k. now rewrite U.
  - intros v N. rewrite U. destruct v; try reflexivity. congruence.
  - now rewrite U.
  - intros c C. destruct c; try contradiction; unfold upd_list, upd_dict; [destruct (nth_error (cs_lists s) _)|destruct (nth_error (cs_dicts s) _)|destruct (nth_error (cs_lists s) _)]; reflexivity.
Qed.
Lemma C67_clone_lem f o s : nth_error (cs_objs s) f = Some o ->
  plain_part (clone f s) (length (cs_objs s)) = Some (None, co_src o, co_nullable o, co_default o).
Proof. intros H. unfold clone, plain_part. rewrite H. cbn [cs_objs]. now rewrite nth_error_app2, Nat.sub_diag by apply Nat.le_refl. Qed.
Lemma C67_plain_lem f o s ops : nth_error (cs_objs s) f = Some o -> Forall (fun io => fst io = length (cs_objs s)) ops ->
  plain_part (do_cops ops (clone f s)) f = plain_part s f.
Proof.
  intros H F. assert (L : (f < length (cs_objs s))%nat) by (apply nth_error_Some; congruence).
  assert (E : plain_part (clone f s) f = plain_part s f).
  { unfold clone, plain_part. rewrite H. cbn [cs_objs]. now rewrite nth_error_app1, H. }
  rewrite <- E. generalize (clone f s). clear E H. induction ops as [|[i c] ops IH]; intros s0; [reflexivity|]. inversion F as [|? ? F1 F2]. subst. cbn [do_cops].
  rewrite IH by exact F2. apply plain_do. cbn in F1. lia.
Qed.
