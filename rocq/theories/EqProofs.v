(** * Lemmas for C22, C23: the model's [==] is equality of values. *)
From Coq Require Import QArith Lia.
From Verif Require Import PyBase PyStr Source Field Context Fields SpecField SpecNum FieldLemmas NumProofs.
Open Scope Z_scope.

Fixpoint weight (v : val) : nat :=
  match v with
  | VList l | VTuple l => S (fold_right (fun x n => weight x + n) 0 l)
  | VDict l => S (fold_right (fun kx n => weight (fst kx) + weight (snd kx) + n) 0 l)
  | _ => 1
  end%nat.
Lemma weight_list l x : In x l -> (weight x <= fold_right (fun x n => weight x + n) 0 l)%nat.
Proof. induction l as [|y l IH]; [intros []|]. cbn [fold_right]. intros [->|I]; [lia|]. specialize (IH I). lia. Qed.
Lemma weight_dict l kx : In kx l -> (weight (fst kx) + weight (snd kx) <= fold_right (fun kx n => weight (fst kx) + weight (snd kx) + n) 0 l)%nat.
Proof. induction l as [|y l IH]; [intros []|]. cbn [fold_right]. intros [->|I]; [lia|]. specialize (IH I). lia. Qed.
Fixpoint all_eq (l m : list val) : bool :=
  match l, m with
  | [], [] => true
  | x :: l', y :: m' => py_eq x y && all_eq l' m'
  | _, _ => false
  end.
Lemma all_eq_iff l : forall m, (forall x, In x l -> forall y, py_eq x y = true <-> equal x y) -> all_eq l m = true <-> Forall2 equal l m.
Proof.
  induction l as [|x l IH]; intros [|y m] H; cbn [all_eq].
  - split; [constructor|reflexivity].
  - split; [discriminate|intros F; inversion F].
  - split; [discriminate|intros F; inversion F].
  - rewrite Bool.andb_true_iff, (IH m) by (intros z I; apply H; now right). rewrite (H x (or_introl eq_refl)). split.
    + intros [A B]. now constructor.
    + intros F. inversion F. tauto.
Qed.
Definition of_number (v : val) : Prop := match v with VBool _ | VInt _ | VFloat _ | VDec _ => True | _ => False end.
Lemma of_number_x v : of_number v -> exists x, xnum_of v = Some x.
Proof. destruct v; intros []; cbn [xnum_of]; try destruct d; eauto. Qed.
Lemma measures_of v x : measures v x -> of_number v.
Proof. intros []; try exact I. destruct H; exact I. Qed.
Lemma num_eq a b : of_number a -> py_eq a b = true <-> equal a b.
Proof.
  intros NA. destruct (of_number_x _ NA) as (x & X). split.
  - intros H. destruct (xnum_of b) as [y|] eqn:Y; [|rewrite (other_eq _ _ _ X Y) in H; discriminate].
    destruct (measured _ _ X) as [->|(e & M)]; [rewrite (py_eq_x _ _ _ _ X Y) in H; destruct y; discriminate|].
    destruct (measured _ _ Y) as [->|(e2 & M2)]; [rewrite (py_eq_x _ _ _ _ X Y) in H; destruct x; discriminate|].
    eapply eq_num; [exact M|exact M2|]. now apply (measures_eq _ _ _ _ M M2).
  - intros E. destruct E; try destruct NA. now apply (measures_eq _ _ _ _ H H0).
Qed.
Lemma plain_num a : ~ of_number a -> xnum_of a = None.
Proof. destruct a; cbn [of_number xnum_of]; try reflexivity; intros N; destruct (N I). Qed.
Lemma py_eq_equal n : forall a b, (weight a <= n)%nat -> py_eq a b = true <-> equal a b.
Proof.
  induction n as [|n IH]; intros a b W; [destruct a; cbn [weight] in W; lia|].
  assert (NN : forall x y, equal x y -> ~ of_number x -> of_number y -> False).
  { intros x y E N1 N2. destruct E; try destruct N2. apply N1, (measures_of _ _ H). }
  assert (ND : of_number a \/ ~ of_number a) by (destruct a; cbn [of_number]; tauto). destruct ND as [Na|Na]; [now apply num_eq|].
  assert (X : forall y, (match @None xnum, xnum_of y with Some x, Some z => xnum_eqb x z | _, _ => false end) = false) by reflexivity.
  destruct a; cbn [of_number] in Na; try tauto.
  all: split; [intros H|intros E; inversion E; subst; try (exfalso; apply Na; match goal with M : measures _ _ |- _ => exact (measures_of _ _ M) end)].
  all: try (destruct b; cbn [py_eq xnum_of] in H; try discriminate H).
  all: try reflexivity.
  - constructor.
  - apply String.eqb_eq in H. subst. constructor.
  - cbn [py_eq]. apply String.eqb_refl.
  - change (all_eq l l0 = true) in H. apply all_eq_iff in H; [now constructor|]. intros x I y. apply IH. cbn [weight] in W. pose proof (weight_list _ _ I). lia.
  - change (all_eq l m = true). apply all_eq_iff; [|assumption]. intros x I y. apply IH. cbn [weight] in W. pose proof (weight_list _ _ I). lia.
  - change (all_eq l l0 = true) in H. apply all_eq_iff in H; [now constructor|]. intros x I y. apply IH. cbn [weight] in W. pose proof (weight_list _ _ I). lia.
  - change (all_eq l m = true). apply all_eq_iff; [|assumption]. intros x I y. apply IH. cbn [weight] in W. pose proof (weight_list _ _ I). lia.
  - apply Bool.andb_true_iff in H. destruct H as [L H]. apply Nat.eqb_eq in L. apply eq_dict; [exact L|].
    rewrite forallb_forall in H. apply Forall_forall. intros [k x] I. specialize (H _ I). cbv beta iota in H. apply existsb_exists in H. destruct H as ((j & y) & J & H).
    apply Bool.andb_true_iff in H. destruct H as [H1 H2]. apply Exists_exists. exists (j, y). split; [exact J|]. cbn [fst snd weight] in *. pose proof (weight_dict _ _ I) as WD. cbn [fst snd] in WD.
    split; apply IH; try assumption; lia.
  - cbn [py_eq]. apply Bool.andb_true_iff. split; [now apply Nat.eqb_eq|]. apply forallb_forall. intros [k x] I.
    match goal with F : Forall _ l |- _ => rewrite Forall_forall in F; specialize (F _ I); apply Exists_exists in F; destruct F as ((j & y) & J & F1 & F2) end.
    apply existsb_exists. exists (j, y). split; [exact J|]. cbn [fst snd weight] in *. pose proof (weight_dict _ _ I) as WD. cbn [fst snd] in WD.
    apply Bool.andb_true_iff. split; apply IH; try assumption; lia.
  - apply Nat.eqb_eq in H. subst. constructor.
  - cbn [py_eq]. apply Nat.eqb_refl.
  - apply Z.eqb_eq in H. subst. constructor.
  - cbn [py_eq]. apply Z.eqb_refl.
  - apply Z.eqb_eq in H. subst. constructor.
  - cbn [py_eq]. apply Z.eqb_refl.
  - apply Z.eqb_eq in H. subst. constructor.
  - cbn [py_eq]. apply Z.eqb_refl.
  - apply Bool.andb_true_iff in H. destruct H as [H1 H2]. apply String.eqb_eq in H1. apply Z.eqb_eq in H2. subst. constructor.
  - cbn [py_eq]. now rewrite String.eqb_refl, Z.eqb_refl.
  - destruct c, c0; try discriminate H; constructor.
  - destruct c; reflexivity.
Qed.
Lemma eq_iff a b : py_eq a b = true <-> equal a b. Proof. apply (py_eq_equal (weight a)). lia. Qed.
Lemma eq_not a b : ~ equal a b -> py_eq a b = false. Proof. rewrite <- eq_iff. apply Bool.not_true_iff_false. Qed.
Lemma in_iff w l : py_in w l = true <-> exists b, In b l /\ equal w b.
Proof. unfold py_in. rewrite existsb_exists. split; intros (b & I & H); exists b; (split; [exact I|]); now apply eq_iff. Qed.
Lemma in_not w l : (forall b, In b l -> ~ equal w b) -> py_in w l = false.
Proof. intros H. apply Bool.not_true_iff_false. rewrite in_iff. intros (b & I & E). exact (H b I E). Qed.
Lemma told_translated f v w : told (o_translations (f_opts f)) v w -> translated f v w.
Proof.
  intros [(pre & k & post & TB & E & NP)|[-> NP]].
  - apply tr_hit. unfold dict_get. rewrite TB.
    assert (X : forall l, (forall x, In x l -> ~ equal (fst x) v) -> find (fun kv => py_eq (fst kv) v) (l ++ (k, w) :: post) = Some (k, w)).
    { induction l as [|x l IH]; intros NX; cbn [app find].
      - cbn [fst]. now rewrite (proj2 (eq_iff k v) E).
      - rewrite (eq_not _ _ (NX x (or_introl eq_refl))). apply IH. intros y I. apply NX. now right. }
    rewrite (X pre NP). reflexivity.
  - apply tr_miss. unfold dict_get. destruct (find _ _) as [x|] eqn:F; [|reflexivity]. exfalso.
    apply find_some in F. destruct F as [I Q]. apply (NP x I). now apply eq_iff.
Qed.

Lemma C22_equal_lem W n f arg s eid m es pid p igd igm t v w b :
  mapping W s eid m es pid p igd igm -> hook_free f ->
  obtains W s f p arg v -> ignored v = false -> lookable f v -> told (o_translations (f_opts f)) v w -> ignored w = false ->
  In b (o_ignores (f_opts f)) -> equal w b -> p_str (w_env W) (spot f arg p) = Ok t ->
  (igd = true \/ required f ->
   yields W (S n) f arg s eid m es (VConst NOTSET) (if igm then [] else [missing_at f pid t])) /\
  (forall d, igd = false -> o_default (f_opts f) = DVal d -> d <> VConst NOTSET ->
   yields W (S n) f arg s eid m es d []).
Proof.
  intros MP HF O G L T Gw I E S. eapply C22_lem; eauto using told_translated. apply in_iff. eauto.
Qed.
Lemma C22_unequal_lem W n f arg s eid m es pid p igd igm t v w o :
  mapping W s eid m es pid p igd igm -> hook_free f ->
  obtains W s f p arg v -> ignored v = false -> lookable f v -> told (o_translations (f_opts f)) v w -> ignored w = false ->
  (forall b, In b (o_ignores (f_opts f)) -> ~ equal w b) -> p_str (w_env W) (spot f arg p) = Ok t ->
  field_violation (w_env W) (entries s) f w = Ok o ->
  match o with
  | None => yields W (S n) f arg s eid m es w []
  | Some x => yields W (S n) f arg s eid m es (VConst ERROR) [invalid_at f pid x t]
  end.
Proof.
  intros MP HF O G L T Gw I S V. eapply C23_checked_lem; eauto using told_translated, in_not.
Qed.
