(** * Proofs about [flatten] and [filter]. *)
From Coq Require Import Lia Sorting.
From Verif Require Import PyBase PyStr Source Field Context Fields Forms SpecForms Balance FormProofs ObjProofs.

Definition piece (sub : list field -> nat -> res (list (list field * val))) (l : list (val * val)) (pre : list field) (f : field) :
  res (list (list field * val)) :=
  match dict_get l (VStr (fname f)) with
  | None => Ok []
  | Some v => if ignored v then Ok []
              else match v with VForm j => sub (pre ++ [f]) j | _ => Ok [(pre ++ [f], v)] end
  end.
Lemma flat_fields_pieces sub l pre fs out : flat_fields sub l pre fs = Ok out <->
  exists ps, Forall2 (fun f p => piece sub l pre f = Ok p) fs ps /\ out = concat ps.
Proof.
  revert out. induction fs as [|f fs IH]; intros out; cbn [flat_fields].
  - split; [intros [= <-]; exists []; split; [constructor|reflexivity]|intros (ps & H & ->); inversion H; reflexivity].
  - change (match dict_get l (VStr (fname f)) with
             | None => Ok []
             | Some v => if ignored v then Ok [] else match v with VForm j => sub (pre ++ [f]) j | _ => Ok [(pre ++ [f], v)] end
             end) with (piece sub l pre f).
    split.
    + destruct (piece sub l pre f) as [p|e] eqn:P; [|discriminate]. destruct (flat_fields sub l pre fs) as [q|e] eqn:F; [|discriminate].
      intros [= <-]. destruct (proj1 (IH q) eq_refl) as (ps & H & ->). exists (p :: ps). split; [now constructor|reflexivity].
    + intros (ps & H & ->). inversion H as [|? p ? ps' P H']; subst. rewrite P.
      rewrite (proj2 (IH (concat ps')) (ex_intro _ ps' (conj H' eq_refl))). reflexivity.
Qed.

(** ** The prefix *)
Definition under (pre : list field) (o : list (list field * val)) := map (fun x => (pre ++ fst x, snd x)) o.
Definition under_res pre (r : res (list (list field * val))) := match r with Ok o => Ok (under pre o) | Exn e => Exn e end.
Lemma under_app pre a b : under pre (a ++ b) = under pre a ++ under pre b.
Proof. apply map_app. Qed.
Lemma flat_under n s : forall pre q id, flat n s (pre ++ q) id = under_res pre (flat n s q id).
Proof.
  induction n as [|n IH]; intros pre q id; [reflexivity|]. cbn [flat]. destruct (nth_error (forms s) id) as [[t l]|]; [|reflexivity].
  induction (ft_fields t) as [|f fs IHf]; [reflexivity|]. cbn [flat_fields]. rewrite IHf.
  destruct (dict_get l (VStr (fname f))) as [v|].
  - destruct (ignored v).
    + destruct (flat_fields (flat n s) l q fs); reflexivity.
    + destruct v; try (destruct (flat_fields (flat n s) l q fs); [|reflexivity]; cbn [under_res app]; unfold under; cbn [map fst snd]; now rewrite app_assoc).
      rewrite <- app_assoc, IH. destruct (flat n s (q ++ [f]) id0); [|reflexivity]. cbn [under_res].
      destruct (flat_fields (flat n s) l q fs); [|reflexivity]. cbn [under_res]. now rewrite under_app.
  - destruct (flat_fields (flat n s) l q fs); reflexivity.
Qed.
Lemma flat_one n s f id : flat n s [f] id = under_res [f] (flat n s [] id).
Proof. apply (flat_under n s [f] [] id). Qed.

(** ** Every leaf, once, in order *)
Definition listed (s : st) (id : nat) (idx : list (list nat)) (out : list (list field * val)) : Prop :=
  Forall2 (fun at_ x => leaf s id at_ (fst x) (snd x)) idx out.
Lemma sorted_app {A} (R : A -> A -> Prop) a b : StronglySorted R a -> StronglySorted R b ->
  (forall x y, In x a -> In y b -> R x y) -> StronglySorted R (a ++ b).
Proof.
  intros SA SB X. induction SA as [|x a SA IH F]; [exact SB|]. cbn [app]. constructor.
  - apply IH. intros u v U V. apply X; [now right|exact V].
  - apply Forall_app. split; [exact F|]. apply Forall_forall. intros y Y. apply X; [now left|exact Y].
Qed.
Lemma sorted_map_cons i idx : StronglySorted sooner idx -> StronglySorted sooner (map (cons i) idx).
Proof.
  induction 1 as [|x l S IH F]; cbn [map]; constructor; [exact IH|]. apply Forall_forall. intros y Y. apply in_map_iff in Y.
  destruct Y as (z & <- & Z). apply sooner_tail. rewrite Forall_forall in F. now apply F.
Qed.
Lemma leaf_head s id at_ fs v : leaf s id at_ fs v -> exists i a, at_ = i :: a.
Proof. destruct 1; eauto. Qed.

Lemma piece_leaf n s id t l i f p
  (IH : forall id out, flat n s [] id = Ok out -> exists idx, listed s id idx out /\ StronglySorted sooner idx /\
          (forall at_ fs v, leaf s id at_ fs v -> In at_ idx)) :
  nth_error (forms s) id = Some (t, l) -> nth_error (ft_fields t) i = Some f ->
  piece (flat n s) l [] f = Ok p ->
  exists idx, listed s id idx p /\ StronglySorted sooner idx /\ (forall at_, In at_ idx -> exists a, at_ = i :: a) /\
    (forall a fs v, leaf s id (i :: a) fs v -> In (i :: a) idx).
Proof.
  intros N F P. unfold piece in P. cbn [app] in P.
  assert (DET : forall a fs v, leaf s id (i :: a) fs v -> exists w, dict_get l (VStr (fname f)) = Some w /\ ignored w = false /\
     (a = [] /\ (forall j, w <> VForm j) \/ exists j fs', w = VForm j /\ leaf s j a fs' v)).
  { intros a fs v L. inversion L as [id0 t0 l0 i0 f0 v0 N0 F0 D0 C0 J0|id0 t0 l0 i0 f0 j0 at0 fs0 v0 N0 F0 D0 L0]; subst;
      rewrite N in N0; injection N0 as <- <-; rewrite F in F0; injection F0 as <-.
    - exists v. split; [exact D0|]. split; [destruct v; try reflexivity; exfalso; eapply C0; reflexivity|]. left. auto.
    - exists (VForm j0). split; [exact D0|]. split; [reflexivity|]. right. eauto. }
  destruct (dict_get l (VStr (fname f))) as [v|] eqn:D.
  2:{ injection P as <-. exists []. split; [constructor|]. split; [constructor|]. split; [intros ? []|]. intros a fs v L. destruct (DET _ _ _ L) as (w & H & _). congruence. }
  destruct (ignored v) eqn:IG.
  { injection P as <-. exists []. split; [constructor|]. split; [constructor|]. split; [intros ? []|]. intros a fs w L.
    destruct (DET _ _ _ L) as (w' & H & H' & _). congruence. }
  assert (CASE : (exists j, v = VForm j) \/ forall j, v <> VForm j).
  { destruct v; try (right; intros; discriminate). left. eauto. }
  destruct CASE as [(j & ->)|NF].
  - rewrite flat_one in P. destruct (flat n s [] j) as [q|e] eqn:Q; [|discriminate]. injection P as <-.
    destruct (IH j q Q) as (idx & L & S & C). exists (map (cons i) idx). split; [|split; [|split]].
    + unfold listed, under. clear S C Q. induction L as [|a x idx q' H L IHL]; cbn [map]; [constructor|constructor; [|exact IHL]]. cbn [fst snd app].
      apply leaf_in with t l j; assumption.
    + now apply sorted_map_cons.
    + intros at_ H. apply in_map_iff in H. destruct H as (a & <- & _). eauto.
    + intros a fs v L'. destruct (DET _ _ _ L') as (w & H & _ & [[_ H2]|(j' & fs' & H2 & H3)]); injection H as <-; [exfalso; eapply H2; reflexivity|].
      injection H2 as <-. apply in_map. now apply C with fs' v.
  - assert (P' : p = [([f], v)]) by (destruct v; try (now injection P); exfalso; eapply NF; reflexivity). subst p.
    exists [[i]]. split; [|split; [|split]].
    + constructor; [|constructor]. cbn [fst snd]. apply leaf_here with t l; auto. intros c ->. discriminate.
    + constructor; constructor.
    + intros at_ [<-|[]]. eauto.
    + intros a fs w L'. destruct (DET _ _ _ L') as (w' & H & _ & [[-> _]|(j' & fs' & -> & H3)]); [now left|]. injection H as ->. exfalso. eapply NF. reflexivity.
Qed.

Lemma C51_gen n s : forall id out, flat n s [] id = Ok out -> exists idx, listed s id idx out /\ StronglySorted sooner idx /\
  (forall at_ fs v, leaf s id at_ fs v -> In at_ idx).
Proof.
  induction n as [|n IH]; intros id out H; [discriminate|]. cbn [flat] in H.
  destruct (nth_error (forms s) id) as [[t l]|] eqn:N.
  2:{ injection H as <-. exists []. split; [constructor|]. split; [constructor|]. intros at_ fs v L. inversion L; congruence. }
  assert (GEN : forall fs done out, ft_fields t = done ++ fs -> flat_fields (flat n s) l [] fs = Ok out ->
    exists idx, listed s id idx out /\ StronglySorted sooner idx /\
      (forall at_, In at_ idx -> exists i a, at_ = i :: a /\ (length done <= i)%nat) /\
      (forall i a gs v, leaf s id (i :: a) gs v -> (length done <= i)%nat -> In (i :: a) idx)).
  { clear out H. induction fs as [|f fs IHf]; intros done out T H.
    - injection H as <-. exists []. split; [constructor|]. split; [constructor|]. split; [intros ? []|].
      intros i a gs v L Hi. exfalso. assert (K : nth_error (ft_fields t) i <> None) by (inversion L; congruence).
      apply K. apply nth_error_None. rewrite T, app_nil_r. exact Hi.
    - cbn [flat_fields] in H.
      change (match dict_get l (VStr (fname f)) with
             | None => Ok []
             | Some v => if ignored v then Ok [] else match v with VForm j => flat n s ([] ++ [f]) j | _ => Ok [([] ++ [f], v)] end
             end) with (piece (flat n s) l [] f) in H.
      destruct (piece (flat n s) l [] f) as [p|e] eqn:P; [|discriminate].
      destruct (flat_fields (flat n s) l [] fs) as [q|e] eqn:Q; [|discriminate]. injection H as <-.
      assert (F : nth_error (ft_fields t) (length done) = Some f) by (rewrite T, nth_error_app2, Nat.sub_diag by lia; reflexivity).
      destruct (piece_leaf n s id t l (length done) f p IH N F P) as (i1 & L1 & S1 & H1 & C1).
      destruct (IHf (done ++ [f]) q) as (i2 & L2 & S2 & H2 & C2); [rewrite T, <- app_assoc; reflexivity|reflexivity|].
      rewrite app_length in H2, C2. cbn [length] in H2, C2.
      exists (i1 ++ i2). split; [|split; [|split]].
      + apply Forall2_app; assumption.
      + apply sorted_app; [exact S1|exact S2|]. intros x y X Y. destruct (H1 x X) as (a & ->). destruct (H2 y Y) as (j & b & -> & J).
        constructor. lia.
      + intros at_ I. apply in_app_or in I. destruct I as [I|I]; [destruct (H1 _ I) as (a & ->); exists (length done), a; auto|].
        destruct (H2 _ I) as (j & a & -> & J). exists j, a. split; [reflexivity|lia].
      + intros i a gs v L Hi. apply in_or_app. destruct (Nat.eq_dec i (length done)) as [->|D]; [left; now apply C1 with gs v|].
        right. apply C2 with gs v; [exact L|lia]. }
  destruct (GEN (ft_fields t) [] out eq_refl H) as (idx & L & S & _ & C). exists idx. split; [exact L|]. split; [exact S|].
  intros at_ fs v LF. destruct (leaf_head _ _ _ _ _ LF) as (i & a & ->). apply C with fs v; [exact LF|cbn; lia].
Qed.

Lemma leaf_fun s id at_ fs v fs' v' : leaf s id at_ fs v -> leaf s id at_ fs' v' -> fs = fs' /\ v = v'.
Proof.
  intros L. revert fs' v'. induction L as [id t l i f v N F D C J|id t l i f j at_ fs v N F D L IH]; intros fs' v' L';
    inversion L' as [id0 t0 l0 i0 f0 v0 N0 F0 D0 C0 J0|id0 t0 l0 i0 f0 j0 at0 fs0 v0 N0 F0 D0 L0]; subst;
    rewrite N in N0; injection N0 as <- <-; rewrite F in F0; injection F0 as <-; rewrite D in D0.
  - injection D0 as <-. auto.
  - inversion L0.
  - exfalso. inversion L.
  - injection D0 as <-. destruct (IH _ _ L0) as [-> ->]. auto.
Qed.

Lemma C51_lem n s id out : flat n s [] id = Ok out ->
  exists idx, Forall2 (fun at_ x => leaf s id at_ (fst x) (snd x)) idx out /\ StronglySorted sooner idx /\
    (forall at_ fs v, leaf s id at_ fs v -> In (at_, (fs, v)) (combine idx out)).
Proof.
  intros H. destruct (C51_gen n s id out H) as (idx & L & S & C). exists idx. split; [exact L|]. split; [exact S|].
  intros at_ fs v LF. specialize (C _ _ _ LF). clear S H. induction L as [|a x idx out H L IH]; [destruct C|]. cbn [combine].
  destruct C as [->|C].
  - left. destruct (leaf_fun _ _ _ _ _ _ _ H LF) as [E1 E2]. destruct x as [x1 x2]. cbn [fst snd] in *. now subst.
  - right. now apply IH.
Qed.

Lemma C51_total_lem n s id : deep s id n -> exists out, flat n s [] id = Ok out.
Proof.
  revert id. induction n as [|n IH]; intros id D; inversion D as [id' n' H]; subst. cbn [flat].
  destruct (nth_error (forms s) id) as [[t l]|] eqn:N; [|eauto].
  assert (GEN : forall fs, (forall f, In f fs -> In f (ft_fields t)) -> exists out, flat_fields (flat n s) l [] fs = Ok out).
  { induction fs as [|f fs IHf]; intros I; cbn [flat_fields]; [eauto|].
    destruct IHf as (q & ->); [intros g G; apply I; now right|].
    assert (P : exists p, piece (flat n s) l [] f = Ok p).
    { unfold piece. destruct (dict_get l (VStr (fname f))) as [v|] eqn:E; [|eauto]. destruct (ignored v); [eauto|]. destruct v; eauto.
      cbn [app]. rewrite flat_one. destruct (IH id0) as (o & ->); [apply (H t l f id0); auto; apply I; now left|]. cbn [under_res]. eauto. }
    destruct P as (p & P). unfold piece in P. rewrite P. eauto. }
  apply GEN. auto.
Qed.

(** ** Filtering *)
Section Filter.
Variable tags : list string.
Variable inv : bool.
Definition hitb (f : field) : bool := if inv then negb (existsb (field_has_tag f) tags) else existsb (field_has_tag f) tags.
Let g := tag_filter tags inv.
Lemma g_hit f v : g f v = if hitb f then v else NONEv.
Proof. reflexivity. Qed.
Lemma hitb_wanted f : hitb f = true <-> wanted tags inv f.
Proof.
  assert (T : existsb (field_has_tag f) tags = true <-> tagged tags f).
  { unfold tagged. rewrite existsb_exists. split.
    - intros (t & I & H). exists t. split; [exact I|]. unfold field_has_tag in H. apply existsb_exists in H. destruct H as (u & U & E).
      apply String.eqb_eq in E. now subst u.
    - intros (t & I & J). exists t. split; [exact I|]. apply existsb_exists. exists t. split; [exact J|apply String.eqb_refl]. }
  unfold hitb, wanted. destruct inv; [|exact T]. rewrite negb_true_iff. rewrite <- T. now destruct (existsb (field_has_tag f) tags).
Qed.

Definition tr (out : list (list field * val)) : list (list field * val) :=
  map (fun x => (fst x, as_list (snd x))) (filter (fun x => forallb hitb (fst x)) out).
Lemma tr_app a b : tr (a ++ b) = tr a ++ tr b.
Proof. unfold tr. now rewrite filter_app, map_app. Qed.
Lemma tr_concat ps : tr (concat ps) = concat (map tr ps).
Proof. induction ps as [|p ps IH]; [reflexivity|]. cbn [concat map]. now rewrite tr_app, IH. Qed.
Lemma tr_cons x o : tr (x :: o) = if forallb hitb (fst x) then (fst x, as_list (snd x)) :: tr o else tr o.
Proof. unfold tr. cbn [filter]. now destruct (forallb hitb (fst x)). Qed.
Lemma under_cons f x o : under [f] (x :: o) = (f :: fst x, snd x) :: under [f] o.
Proof. reflexivity. Qed.
Lemma tr_under f o : tr (under [f] o) = if hitb f then under [f] (tr o) else [].
Proof.
  induction o as [|[p v] o IH]; [now destruct (hitb f)|]. rewrite under_cons, !tr_cons, IH. cbn [fst snd forallb].
  destruct (hitb f); cbn [andb]; [|reflexivity]. destruct (forallb hitb p); [|reflexivity]. now rewrite under_cons.
Qed.

Lemma munge_items_formless sub l s : (forall j, ~ In (VForm j) l) -> munge_items sub l s = (Ok l, s).
Proof.
  induction l as [|v l IH]; intros H; [reflexivity|]. cbn [munge_items]. unfold bind.
  assert (V : (match v with VForm j => d <- sub j; ret (VForm d) | _ => ret v end) s = (Ok v, s)).
  { destruct v; try reflexivity. exfalso. eapply H. now left. }
  unfold bind in V. rewrite V, IH by (intros j J; apply (H j); now right). reflexivity.
Qed.
Lemma munge_value_formless sub v s : formless v -> munge_value sub v s = (Ok (as_list v), s).
Proof.
  intros H. destruct v; try reflexivity; cbn [formless munge_value as_list] in *; try destruct H;
    unfold bind; now rewrite munge_items_formless.
Qed.

Section Base.
Variable s0 : st.
Hypothesis CL : closed_heap s0.
Hypothesis DN : distinct_names s0.
Let N0 := length (forms s0).
Definition above (s : st) : Prop := (N0 <= length (forms s))%nat /\ forall i, (i < N0)%nat -> nth_error (forms s) i = nth_error (forms s0) i.
Definition still (s s' : st) : Prop := stk s' = stk s /\ paths s' = paths s /\ errs s' = errs s.

Definition good (n : nat) : Prop := forall id s out, above s -> (id < N0)%nat -> flat n s0 [] id = Ok out ->
  Forall (fun x => formless (snd x)) out ->
  exists s', form_munge n g id s = (Ok (length (forms s)), s') /\ still s s' /\ (length (forms s) < length (forms s'))%nat /\
    (forall i, (i < length (forms s))%nat -> nth_error (forms s') i = nth_error (forms s) i) /\
    forall s'', (forall i, (length (forms s) <= i < length (forms s'))%nat -> nth_error (forms s'') i = nth_error (forms s') i) ->
      flat n s'' [] (length (forms s)) = Ok (tr out).

Lemma loop n id t l d (IHn : good n) : (id < N0)%nat -> nth_error (forms s0) id = Some (t, l) ->
  forall fs ps s acc, above s -> (N0 <= d < length (forms s))%nat -> nth_error (forms s) d = Some (t, acc) ->
  NoDup (map fname fs) -> (forall f, In f fs -> dict_get acc (VStr (fname f)) = None) ->
  Forall2 (fun f p => piece (flat n s0) l [] f = Ok p) fs ps -> Forall (Forall (fun x => formless (snd x))) ps ->
  exists s' acc', munge_fields (form_munge n g) g id d fs s = (Ok tt, s') /\ still s s' /\ (length (forms s) <= length (forms s'))%nat /\
    nth_error (forms s') d = Some (t, acc') /\
    (forall i, (i < length (forms s))%nat -> i <> d -> nth_error (forms s') i = nth_error (forms s) i) /\
    (forall k, (forall f, In f fs -> k <> VStr (fname f)) -> dict_get acc' k = dict_get acc k) /\
    forall s'', (forall i, (length (forms s) <= i < length (forms s'))%nat -> nth_error (forms s'') i = nth_error (forms s') i) ->
      Forall2 (fun f p => piece (flat n s'') acc' [] f = Ok (tr p)) fs ps.
Proof.
  intros ID NID. induction fs as [|f fs IH]; intros ps s acc AB DR ND NDUP FRESH F2 FL.
  - inversion F2; subst. exists s, acc. cbn [munge_fields ret]. split; [reflexivity|]. split; [repeat split|]. split; [lia|]. split; [exact ND|].
    split; [auto|]. split; [auto|]. intros; constructor.
  - inversion F2 as [|? p ? ps' P F2']; subst. inversion FL as [|? ? FL1 FL2]; subst. inversion NDUP as [|? ? NI NDUP']; subst.
    assert (NIDs : nth_error (forms s) id = Some (t, l)) by (rewrite (proj2 AB) by exact ID; exact NID).
    cbn [munge_fields]. unfold bind at 1. unfold form_entries, get. rewrite (entries_at _ _ _ _ NIDs). rewrite g_hit.
    (* one field: the state after it and what its piece becomes *)
    assert (STEP : exists s1 acc1,
      (if is_NONE (if hitb f then match dict_get l (VStr (fname f)) with Some v => v | None => NONEv end else NONEv) then ret tt
       else w <- munge_value (form_munge n g) (if hitb f then match dict_get l (VStr (fname f)) with Some v => v | None => NONEv end else NONEv);
            form_set d (VStr (fname f)) w) s = (Ok tt, s1) /\ still s s1 /\ (length (forms s) <= length (forms s1))%nat /\
      nth_error (forms s1) d = Some (t, acc1) /\
      (forall i, (i < length (forms s))%nat -> i <> d -> nth_error (forms s1) i = nth_error (forms s) i) /\
      (forall k, k <> VStr (fname f) -> dict_get acc1 k = dict_get acc k) /\
      forall s'' acc', dict_get acc' (VStr (fname f)) = dict_get acc1 (VStr (fname f)) ->
        (forall i, (length (forms s) <= i < length (forms s1))%nat -> nth_error (forms s'') i = nth_error (forms s1) i) ->
        piece (flat n s'') acc' [] f = Ok (tr p)).
    { assert (SKIP : tr p = [] -> exists s1 acc1, ret tt s = (Ok tt, s1) /\ still s s1 /\ (length (forms s) <= length (forms s1))%nat /\
        nth_error (forms s1) d = Some (t, acc1) /\
        (forall i, (i < length (forms s))%nat -> i <> d -> nth_error (forms s1) i = nth_error (forms s) i) /\
        (forall k, k <> VStr (fname f) -> dict_get acc1 k = dict_get acc k) /\
        forall s'' acc', dict_get acc' (VStr (fname f)) = dict_get acc1 (VStr (fname f)) ->
          (forall i, (length (forms s) <= i < length (forms s1))%nat -> nth_error (forms s'') i = nth_error (forms s1) i) ->
          piece (flat n s'') acc' [] f = Ok (tr p)).
      { intros E. exists s, acc. split; [reflexivity|]. split; [repeat split|]. split; [lia|]. split; [exact ND|]. split; [auto|]. split; [auto|].
        intros s'' acc' E' _. unfold piece. rewrite E', (FRESH f (or_introl eq_refl)), E. reflexivity. }
      assert (SETS : forall s2 w, (length (forms s) <= length (forms s2))%nat -> still s s2 ->
        (forall i, (i < length (forms s))%nat -> nth_error (forms s2) i = nth_error (forms s) i) ->
        (forall s'' acc', dict_get acc' (VStr (fname f)) = Some w ->
           (forall i, (length (forms s) <= i < length (forms s2))%nat -> nth_error (forms s'') i = nth_error (forms s2) i) ->
           piece (flat n s'') acc' [] f = Ok (tr p)) ->
        exists s1 acc1, form_set d (VStr (fname f)) w s2 = (Ok tt, s1) /\ still s s1 /\ (length (forms s) <= length (forms s1))%nat /\
        nth_error (forms s1) d = Some (t, acc1) /\
        (forall i, (i < length (forms s))%nat -> i <> d -> nth_error (forms s1) i = nth_error (forms s) i) /\
        (forall k, k <> VStr (fname f) -> dict_get acc1 k = dict_get acc k) /\
        forall s'' acc', dict_get acc' (VStr (fname f)) = dict_get acc1 (VStr (fname f)) ->
          (forall i, (length (forms s) <= i < length (forms s1))%nat -> nth_error (forms s'') i = nth_error (forms s1) i) ->
          piece (flat n s'') acc' [] f = Ok (tr p)).
      { intros s2 w LE (T1 & T2 & T3) PRE RES. assert (ND2 : nth_error (forms s2) d = Some (t, acc)) by (rewrite PRE by lia; exact ND).
        exists (hset s2 d t (dict_set acc (VStr (fname f)) w)), (dict_set acc (VStr (fname f)) w). rewrite (form_set_run _ _ _ _ _ _ ND2).
        assert (LN : length (forms (hset s2 d t (dict_set acc (VStr (fname f)) w))) = length (forms s2)) by apply replace_nth_length.
        split; [reflexivity|]. split; [repeat split; assumption|]. split; [rewrite LN; exact LE|]. split; [exact (hset_at _ _ _ _ _ _ ND2)|]. split.
        { intros i I D. rewrite hset_other by congruence. now apply PRE. } split.
        { intros k K. rewrite dict_get_set. destruct (py_eq (VStr (fname f)) k) eqn:Q; [|reflexivity]. apply str_py_eq in Q. contradiction. }
        intros s'' acc' E AG. apply RES.
        - rewrite E, dict_get_set. assert (Q : py_eq (VStr (fname f)) (VStr (fname f)) = true) by now apply str_py_eq. now rewrite Q.
        - intros i I. rewrite AG by (rewrite LN; exact I). apply hset_other. lia. }
      unfold piece in P. cbn [app] in P. destruct (hitb f) eqn:HB.
      2:{ cbn [is_NONE NONEv]. apply SKIP. destruct (dict_get l (VStr (fname f))) as [v|]; [|now injection P as <-].
          destruct (ignored v); [now injection P as <-|]. destruct v; try (injection P as <-; unfold tr; cbn [filter fst forallb]; now rewrite HB).
          rewrite flat_one in P. destruct (flat n s0 [] id0); [|discriminate]. injection P as <-. rewrite tr_under, HB. reflexivity. }
      destruct (dict_get l (VStr (fname f))) as [v|] eqn:D; [|cbn [is_NONE NONEv]; apply SKIP; now injection P as <-].
      destruct (is_NONE v) eqn:NN.
      { apply SKIP. destruct v; try discriminate. cbn [ignored] in P. now injection P as <-. }
      destruct (ignored v) eqn:IG.
      { injection P as <-. destruct v; try discriminate. cbn [munge_value]. change (bind (ret (VConst c)) (fun w => form_set d (VStr (fname f)) w) s) with (form_set d (VStr (fname f)) (VConst c) s).
        apply SETS; [lia|repeat split|auto|]. intros s'' acc' E _. unfold piece. rewrite E. reflexivity. }
      assert (CASE : (exists j, v = VForm j) \/ forall j, v <> VForm j).
      { destruct v; try (right; intros; discriminate). left. eauto. }
      destruct CASE as [(j & ->)|NF].
      - rewrite flat_one in P. destruct (flat n s0 [] j) as [q|e] eqn:Q; [|discriminate]. injection P as <-.
        assert (J : (j < N0)%nat) by (exact (CL id t l (VStr (fname f)) j NID D)).
        assert (FQ : Forall (fun x : list field * val => formless (snd x)) q).
        { apply Forall_forall. intros x X. rewrite Forall_forall in FL1. apply (FL1 ([f] ++ fst x, snd x)). unfold under. apply in_map_iff. eauto. }
        destruct (IHn j s q AB J Q FQ) as (s2 & E2 & T2 & L2 & P2 & R2). cbn [munge_value]. unfold bind at 1. unfold bind. rewrite E2. cbn [ret].
        apply SETS; [lia|exact T2|exact P2|]. intros s'' acc' E AG. unfold piece. rewrite E. cbn [ignored app]. rewrite flat_one.
        rewrite R2 by exact AG. cbn [under_res]. rewrite tr_under, HB. reflexivity.
      - assert (P' : p = [([f], v)]) by (destruct v; try (now injection P); exfalso; eapply NF; reflexivity). subst p.
        assert (FV : formless v) by (rewrite Forall_forall in FL1; apply (FL1 ([f], v)); now left).
        unfold bind. rewrite munge_value_formless by exact FV. apply SETS; [lia|repeat split|auto|].
        intros s'' acc' E _. unfold piece. rewrite E. unfold tr. cbn [filter fst forallb]. rewrite HB. cbn [andb map fst snd].
        destruct v; try discriminate; try reflexivity; exfalso; eapply NF; reflexivity. }
    destruct STEP as (s1 & acc1 & E1 & (T11 & T12 & T13) & L1 & ND1 & PR1 & K1 & R1).
    destruct (IH ps' s1 acc1) as (s' & acc' & E' & (T21 & T22 & T23) & L' & ND' & PR' & K' & R').
    { split; [destruct AB; lia|]. intros i I. rewrite PR1 by (destruct AB; lia). now apply (proj2 AB). }
    { lia. } { exact ND1. } { exact NDUP'. }
    { intros h H. rewrite K1; [apply FRESH; now right|]. intros [= EQ]. apply NI. rewrite <- EQ. now apply in_map. }
    { exact F2'. } { exact FL2. }
    exists s', acc'. cbv zeta. unfold bind at 1. rewrite E1. cbn [bind].
    split; [exact E'|]. split; [repeat split; congruence|]. split; [lia|]. split; [exact ND'|]. split.
    { intros i I D. rewrite PR' by lia. now apply PR1. } split.
    { intros k H. rewrite K' by (intros h I; apply H; now right). apply K1. apply H. now left. }
    intros s'' AG. constructor.
    + apply R1.
      * apply K'. intros h I [= EQ]. apply NI. rewrite EQ. now apply in_map.
      * intros i I. rewrite AG by lia. apply PR'; lia.
    + apply R'. intros i I. apply AG. lia.
Qed.

Lemma good_all n : good n.
Proof.
  induction n as [|n IH]; intros id s out AB ID H FL; [discriminate|]. cbn [flat] in H.
  destruct (nth_error (forms s0) id) as [[t l]|] eqn:NID; [|apply nth_error_None in NID; unfold N0 in ID; lia].
  apply flat_fields_pieces in H. destruct H as (ps & F2 & ->).
  assert (NIDs : nth_error (forms s) id = Some (t, l)) by (rewrite (proj2 AB) by exact ID; exact NID).
  cbn [form_munge]. unfold bind at 1. rewrite (form_type_run _ _ _ _ NIDs). unfold bind at 1. unfold new_form.
  set (s1 := St (stk s) (forms s ++ [(t, [])]) (paths s) (errs s)).
  assert (L1 : length (forms s1) = S (length (forms s))) by (cbn [s1 forms]; rewrite app_length; cbn; lia).
  destruct (loop n id t l (length (forms s)) IH ID NID (ft_fields t) ps s1 []) as (s' & acc' & E & (T1 & T2 & T3) & L & ND & PR & _ & R).
  { split; [destruct AB; lia|]. intros i I. cbn [s1 forms]. rewrite nth_error_app1 by (destruct AB; lia). now apply (proj2 AB). }
  { destruct AB. lia. } { cbn [s1 forms]. apply nth_last. } { exact (DN id t l NID). } { reflexivity. } { exact F2. }
  { clear - FL. induction ps as [|p ps IH]; [constructor|]. cbn [concat] in FL. apply Forall_app in FL. destruct FL. constructor; auto. }
  exists s'. unfold bind. rewrite E. cbn [ret]. split; [reflexivity|]. split; [repeat split; assumption|]. split; [lia|]. split.
  { intros i I. rewrite PR by lia. cbn [s1 forms]. apply nth_error_app1. exact I. }
  intros s'' AG. cbn [flat]. rewrite (AG (length (forms s))) by lia. rewrite ND. apply flat_fields_pieces.
  exists (map tr ps). split; [|apply tr_concat].
  assert (R2 : Forall2 (fun f p => piece (flat n s'') acc' [] f = Ok (tr p)) (ft_fields t) ps) by (apply R; intros i I; apply AG; lia).
  clear - R2. induction R2 as [|f p fs ps H R2 IH]; cbn [map]; constructor; assumption.
Qed.
End Base.

Lemma C52_deep_lem n id s out : closed_heap s -> distinct_names s -> (id < length (forms s))%nat ->
  flat n s [] id = Ok out -> Forall (fun x => formless (snd x)) out ->
  exists d s', form_filter n tags inv id s = (Ok d, s') /\ preserved s s' /\ (length (forms s) <= d)%nat /\
    flat n s' [] d = Ok (map (fun x => (fst x, as_list (snd x))) (filter (fun x => forallb hitb (fst x)) out)).
Proof.
  intros CL DN ID F FL. destruct (good_all s CL DN n id s out) as (s' & E & (T1 & T2 & T3) & L & P & R); auto.
  { split; [lia|auto]. }
  exists (length (forms s)), s'. split; [exact E|]. split; [repeat split; auto; lia|]. split; [lia|]. apply R. auto.
Qed.

(** ** One level *)
Definition kept (l : list (val * val)) (f : field) : option val :=
  if hitb f then match dict_get l (VStr (fname f)) with
                 | Some v => if is_NONE v then None else Some (as_list v)
                 | None => None
                 end
  else None.
Lemma shallow_loop sub id t l d : forall fs s acc,
  nth_error (forms s) id = Some (t, l) -> nth_error (forms s) d = Some (t, acc) -> id <> d ->
  (forall f v, In f fs -> dict_get l (VStr (fname f)) = Some v -> formless v) ->
  NoDup (map fname fs) -> (forall f, In f fs -> dict_get acc (VStr (fname f)) = None) ->
  exists acc', munge_fields sub g id d fs s = (Ok tt, hset s d t acc') /\
    (forall k, (forall f, In f fs -> k <> VStr (fname f)) -> dict_get acc' k = dict_get acc k) /\
    (forall f, In f fs -> dict_get acc' (VStr (fname f)) = kept l f).
Proof.
  induction fs as [|f fs IH]; intros s acc N1 N2 D FL ND FR.
  - exists acc. cbn [munge_fields ret]. split; [|split; [auto|intros f []]]. unfold hset. rewrite replace_same by exact N2. now destruct s.
  - inversion ND as [|? ? NI ND']; subst. cbn [munge_fields]. unfold bind at 1. unfold form_entries, get. rewrite (entries_at _ _ _ _ N1), g_hit.
    assert (STEP : exists acc1,
      (if is_NONE (if hitb f then match dict_get l (VStr (fname f)) with Some v => v | None => NONEv end else NONEv) then ret tt
       else w <- munge_value sub (if hitb f then match dict_get l (VStr (fname f)) with Some v => v | None => NONEv end else NONEv);
            form_set d (VStr (fname f)) w) s = (Ok tt, hset s d t acc1) /\
      (forall k, k <> VStr (fname f) -> dict_get acc1 k = dict_get acc k) /\ dict_get acc1 (VStr (fname f)) = kept l f).
    { assert (SKIP : kept l f = None -> exists acc1, ret tt s = (Ok tt, hset s d t acc1) /\
        (forall k, k <> VStr (fname f) -> dict_get acc1 k = dict_get acc k) /\ dict_get acc1 (VStr (fname f)) = kept l f).
      { intros K. exists acc. split; [unfold hset; rewrite replace_same by exact N2; now destruct s|]. split; [auto|].
        rewrite K. apply FR. now left. }
      unfold kept in *. destruct (hitb f); [|cbn [is_NONE NONEv]; now apply SKIP].
      destruct (dict_get l (VStr (fname f))) as [v|] eqn:G; [|cbn [is_NONE NONEv]; now apply SKIP].
      destruct (is_NONE v); [now apply SKIP|]. unfold bind. rewrite munge_value_formless by (apply (FL f); [now left|exact G]).
      rewrite (form_set_run _ _ _ _ _ _ N2). exists (dict_set acc (VStr (fname f)) (as_list v)). split; [reflexivity|]. split.
      - intros k K. rewrite dict_get_set. destruct (py_eq (VStr (fname f)) k) eqn:Q; [|reflexivity]. apply str_py_eq in Q. contradiction.
      - rewrite dict_get_set. assert (Q : py_eq (VStr (fname f)) (VStr (fname f)) = true) by now apply str_py_eq. now rewrite Q. }
    destruct STEP as (acc1 & E1 & K1 & G1).
    destruct (IH (hset s d t acc1) acc1) as (acc' & E' & K' & G').
    + rewrite hset_other by congruence. exact N1.
    + exact (hset_at _ _ _ _ _ _ N2).
    + exact D.
    + intros h v I. apply FL. now right.
    + exact ND'.
    + intros h I. rewrite K1; [apply FR; now right|]. intros [= EQ]. apply NI. rewrite <- EQ. now apply in_map.
    + exists acc'. cbv zeta. unfold bind at 1. rewrite E1. split; [|split].
      * rewrite E'. unfold hset. cbn [stk forms paths errs]. now rewrite replace_twice.
      * intros k H. rewrite K' by (intros h I; apply H; now right). apply K1. apply H. now left.
      * intros h [<-|I]; [|now apply G']. rewrite K'; [exact G1|]. intros h I [= EQ]. apply NI. rewrite EQ. now apply in_map.
Qed.

Lemma C52_lem n id s t l : nth_error (forms s) id = Some (t, l) -> NoDup (map fname (ft_fields t)) ->
  (forall f v, In f (ft_fields t) -> dict_get l (VStr (fname f)) = Some v -> formless v) ->
  exists l', form_filter (S n) tags inv id s =
      (Ok (length (forms s)), St (stk s) (forms s ++ [(t, l')]) (paths s) (errs s)) /\
    (forall f, In f (ft_fields t) -> wanted tags inv f ->
       dict_get l' (VStr (fname f)) = match dict_get l (VStr (fname f)) with
                                     | Some (VConst NONE) => None
                                     | o => option_map as_list o
                                     end) /\
    (forall f, In f (ft_fields t) -> ~ wanted tags inv f -> dict_get l' (VStr (fname f)) = None) /\
    (forall k, (forall f, In f (ft_fields t) -> k <> VStr (fname f)) -> dict_get l' k = None).
Proof.
  intros N ND FL. unfold form_filter. cbn [form_munge]. unfold bind at 1. rewrite (form_type_run _ _ _ _ N). unfold bind at 1. unfold new_form.
  assert (ID : (id < length (forms s))%nat) by (apply nth_error_Some; congruence).
  set (s1 := St (stk s) (forms s ++ [(t, [])]) (paths s) (errs s)).
  destruct (shallow_loop (form_munge n g) id t l (length (forms s)) (ft_fields t) s1 []) as (l' & E & K & G); auto.
  - cbn [s1 forms]. rewrite nth_error_app1 by exact ID. exact N.
  - cbn [s1 forms]. apply nth_last.
  - lia.
  - exists l'. unfold bind. fold g. rewrite E. split; [|split; [|split]].
    + unfold ret, hset, s1. cbn [stk forms paths errs]. now rewrite replace_last.
    + intros f I H. rewrite (G f I). unfold kept. apply hitb_wanted in H. rewrite H. destruct (dict_get l (VStr (fname f))) as [v|]; [|reflexivity].
      destruct v; try reflexivity. destruct c; reflexivity.
    + intros f I H. rewrite (G f I). unfold kept. destruct (hitb f) eqn:HB; [|reflexivity]. apply hitb_wanted in HB. contradiction.
    + intros k H. rewrite K by exact H. reflexivity.
Qed.
End Filter.
