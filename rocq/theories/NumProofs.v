(** Proofs about infinities and NaN (C92). *)
From Coq Require Import Lia QArith.
From Verif Require Import PyBase PyStr Source Field Context Fields SpecField SpecNum CtxProofs Run FieldProofs FieldVios FieldLemmas.
Open Scope Z_scope.

Definition extent_of (x : xnum) : option extent :=
  match x with XFin q => Some (At q) | XInf true => Some Leftmost | XInf false => Some Rightmost | XNaN => None end.
Lemma measures_x v e : measures v e -> exists x e', xnum_of v = Some x /\ extent_of x = Some e' /\ same e' e /\ ignored v = false /\ v <> VNone.
Proof.
  intros [w q N| | | |]; try (do 2 eexists; repeat split; try constructor; discriminate).
  destruct (number_xnum _ _ N) as (q' & X & Eq & NV & IG). exists (XFin q'), (At q'). repeat split; auto. now constructor.
Qed.
Lemma nan_x v : not_a_number v -> xnum_of v = Some XNaN /\ ignored v = false /\ v <> VNone /\ hashable v = true.
Proof. intros []; repeat split; discriminate. Qed.
Lemma numeric_x v : numeric v -> exists x, xnum_of v = Some x.
Proof. intros [N|(e & M)]; [destruct (nan_x _ N); eauto|destruct (measures_x _ _ M) as (x & _ & X & _); eauto]. Qed.
Lemma less_same a a' b b' : same a a' -> same b b' -> (less a b <-> less a' b').
Proof.
  intros A B. destruct A; destruct B; split; intros L; inversion L; subst; try constructor.
  - now rewrite <- H, <- H0.
  - now rewrite H, H0.
Qed.
Lemma x_lt x y a b : extent_of x = Some a -> extent_of y = Some b -> (xnum_ltb x y = true <-> less a b).
Proof.
  destruct x as [p|[]|], y as [q|[]|]; cbn; intros [= <-] [= <-]; rewrite ?Qlt_bool_iff; split; intros H; try discriminate; try (now constructor); inversion H; auto.
Qed.
Lemma x_eq x y a b : extent_of x = Some a -> extent_of y = Some b -> (xnum_eqb x y = true <-> same a b).
Proof.
  destruct x as [p|[]|], y as [q|[]|]; cbn; intros [= <-] [= <-]; rewrite ?Qeq_bool_iff; split; intros H; try discriminate; try (now constructor); inversion H; auto.
Qed.
Lemma extent_nan x a : extent_of x = Some a -> xnum_nan x = false.
Proof. destruct x as [| |]; [reflexivity|reflexivity|discriminate]. Qed.
Lemma measures_lt v w a b : measures v a -> measures w b -> exists r, py_lt v w = Ok r /\ (r = true <-> less a b).
Proof.
  intros A B. destruct (measures_x _ _ A) as (x & a' & X & Ea & Sa & _). destruct (measures_x _ _ B) as (y & b' & Y & Eb & Sb & _).
  exists (xnum_ltb x y). unfold py_lt. rewrite X, Y, (extent_nan _ _ Ea), (extent_nan _ _ Eb). cbn [orb]. rewrite Bool.andb_false_r. split; [reflexivity|].
  rewrite (x_lt _ _ _ _ Ea Eb). now apply less_same.
Qed.
Lemma py_eq_x v w x y : xnum_of v = Some x -> xnum_of w = Some y -> py_eq v w = xnum_eqb x y.
Proof. intros X Y. destruct v; try discriminate; destruct w; try discriminate; cbn [py_eq]; rewrite X, Y; reflexivity. Qed.
Lemma same_trans a b c d : same a b -> same b c -> same c d -> same a d.
Proof.
  intros A B C. destruct A as [| |x y A]; inversion B; subst; inversion C; subst; constructor.
  etransitivity; [exact A|]. etransitivity; eassumption.
Qed.
Lemma same_sym a b : same a b -> same b a. Proof. intros []; constructor. now symmetry. Qed.
Lemma measures_eq v w a b : measures v a -> measures w b -> (py_eq v w = true <-> same a b).
Proof.
  intros A B. destruct (measures_x _ _ A) as (x & a' & X & Ea & Sa & _). destruct (measures_x _ _ B) as (y & b' & Y & Eb & Sb & _).
  rewrite (py_eq_x _ _ _ _ X Y), (x_eq _ _ _ _ Ea Eb). split; intros H; [eapply same_trans|eapply same_trans]; eauto using same_sym.
Qed.
Lemma nan_eq v w : not_a_number v -> py_eq v w = false /\ py_eq w v = false.
Proof.
  intros N. destruct (nan_x _ N) as (X & _). split.
  - destruct N, w; cbn [py_eq]; try reflexivity; cbn [xnum_of]; try (destruct d; reflexivity); try (destruct f; reflexivity).
  - destruct N, w; cbn [py_eq]; try reflexivity; cbn [xnum_of xnum_of_float]; try (destruct d; reflexivity); try (destruct f; reflexivity).
Qed.
Lemma measured v x : xnum_of v = Some x -> x = XNaN \/ exists e, measures v e.
Proof.
  destruct v; try discriminate; cbn [xnum_of]; intros X.
  - right. eexists. apply ms_fin. constructor.
  - right. eexists. apply ms_fin. constructor.
  - destruct f as [g|[]| |g mm ee]; [right; eexists; apply ms_fin; constructor|right; eexists; (apply ms_float_neg || apply ms_float_pos || apply ms_dec_neg || apply ms_dec_pos)..|left; now injection X|right; eexists; apply ms_fin; constructor].
  - destruct d as [mm ee|[]|]; [right; eexists; apply ms_fin; constructor|right; eexists; (apply ms_float_neg || apply ms_float_pos || apply ms_dec_neg || apply ms_dec_pos)..|left; now injection X].
Qed.
Lemma other_eq v w x : xnum_of v = Some x -> xnum_of w = None -> py_eq v w = false.
Proof. intros X Y. destruct v; try discriminate; destruct w; cbn [py_eq]; rewrite ?X, ?Y; try reflexivity; try discriminate; destruct (xnum_of _); reflexivity. Qed.
Lemma unlike w e l : measures w e -> (forall b x, In b l -> measures b x -> ~ same e x) -> py_in w l = false.
Proof.
  intros M H. unfold py_in. apply Bool.not_true_iff_false. intros Q. apply existsb_exists in Q. destruct Q as (b & I & Q).
  destruct (measures_x _ _ M) as (x & e' & X & Ex & _). destruct (xnum_of b) as [y|] eqn:Y.
  - destruct (measured _ _ Y) as [->|(eb & Mb)].
    + rewrite (py_eq_x _ _ _ _ X Y) in Q. destruct x; discriminate.
    + apply (H b eb I Mb). now apply (measures_eq _ _ _ _ M Mb).
  - rewrite (other_eq _ _ _ X Y) in Q. discriminate.
Qed.
Lemma violation_of W f lo hi ents v x : bounds (f_kind f) = Some (lo, hi) -> xnum_of v = Some x ->
  field_violation (w_env W) ents f v = vand (vio_below lo (VioMin v) v) (vio_above hi (VioMax v) v).
Proof.
  intros B X. unfold field_violation, vio_null. destruct v; try discriminate; unfold vio_kind; destruct (f_kind f); try discriminate; injection B as -> ->; reflexivity.
Qed.
Lemma below_ok lo mk v a : measures v a -> (forall b, lo = Some b -> exists x, measures b x /\ ~ less a x) -> vio_below lo mk v = Ok None.
Proof.
  intros M H. destruct lo as [b|]; [|reflexivity]. destruct (H b eq_refl) as (x & Mb & NL). destruct (measures_lt _ _ _ _ M Mb) as (r & R & I).
  unfold vio_below. rewrite R. destruct r; [|reflexivity]. exfalso. apply NL, I. reflexivity.
Qed.
Lemma above_ok hi mk v a : measures v a -> (forall b, hi = Some b -> exists x, measures b x /\ ~ less x a) -> vio_above hi mk v = Ok None.
Proof.
  intros M H. destruct hi as [b|]; [|reflexivity]. destruct (H b eq_refl) as (x & Mb & NL). destruct (measures_lt _ _ _ _ Mb M) as (r & R & I).
  unfold vio_above. rewrite R. destruct r; [|reflexivity]. exfalso. apply NL, I. reflexivity.
Qed.
Lemma below_bad b mk v a x : measures v a -> measures b x -> less a x -> vio_below (Some b) mk v = Ok (Some (mk b)).
Proof. intros M Mb L. destruct (measures_lt _ _ _ _ M Mb) as (r & R & I). unfold vio_below. rewrite R. apply I in L as ->. reflexivity. Qed.
Lemma above_bad b mk v a x : measures v a -> measures b x -> less x a -> vio_above (Some b) mk v = Ok (Some (mk b)).
Proof. intros M Mb L. destruct (measures_lt _ _ _ _ Mb M) as (r & R & I). unfold vio_above. rewrite R. apply I in L as ->. reflexivity. Qed.

Section Field.
Variables (W : world) (n : nat) (f : field) (lo hi : option val) (arg : val) (s : st) (eid : nat) (m : mode) (es : list err) (pid : nat) (p : path) (igd igm : bool) (t : string) (v w : val).
Hypothesis MP : mapping W s eid m es pid p igd igm.
Hypothesis HF : hook_free f.
Hypothesis OB : obtains W s f p arg v.
Hypothesis GV : ignored v = false.
Hypothesis LK : lookable f v.
Hypothesis TR : translated f v w.
Hypothesis TX : p_str (w_env W) (spot f arg p) = Ok t.

Section Bounded.
Variable e : extent.
Hypothesis B : bounds (f_kind f) = Some (lo, hi).
Hypothesis ME : measures w e.
Hypothesis UN : forall b x, In b (o_ignores (f_opts f)) -> measures b x -> ~ same e x.
Let IG : py_in w (o_ignores (f_opts f)) = false := unlike w e _ ME UN.
Lemma C92_inside_lem :
  (forall b, lo = Some b -> exists x, measures b x /\ ~ less e x) -> (forall b, hi = Some b -> exists x, measures b x /\ ~ less x e) ->
  yields W (S n) f arg s eid m es w [].
Proof.
  intros Lo Hi. pose proof ME as M. destruct (measures_x _ _ M) as (x & _ & X & _ & _ & Gw & _).
  refine (C23_checked_lem W n f arg s eid m es pid p igd igm t v w None MP HF OB GV LK TR Gw IG TX _).
  rewrite (violation_of W f lo hi _ w x B X), (below_ok lo _ w e M Lo), (above_ok hi _ w e M Hi). reflexivity.
Qed.
Lemma C92_below_lem b x : lo = Some b -> measures b x -> less e x ->
  yields W (S n) f arg s eid m es ERRORv [invalid_at f pid (VioMin w b) t].
Proof.
  intros El Mb L. pose proof ME as M. destruct (measures_x _ _ M) as (y & _ & X & _ & _ & Gw & _).
  refine (C23_checked_lem W n f arg s eid m es pid p igd igm t v w (Some _) MP HF OB GV LK TR Gw IG TX _).
  rewrite (violation_of W f lo hi _ w y B X), El, (below_bad b _ w e x M Mb L). reflexivity.
Qed.
Lemma C92_above_lem b x : hi = Some b -> (forall b, lo = Some b -> exists x, measures b x /\ ~ less e x) -> measures b x -> less x e ->
  yields W (S n) f arg s eid m es ERRORv [invalid_at f pid (VioMax w b) t].
Proof.
  intros Eh Lo Mb L. pose proof ME as M. destruct (measures_x _ _ M) as (y & _ & X & _ & _ & Gw & _).
  refine (C23_checked_lem W n f arg s eid m es pid p igd igm t v w (Some _) MP HF OB GV LK TR Gw IG TX _).
  rewrite (violation_of W f lo hi _ w y B X), (below_ok lo _ w e M Lo), Eh, (above_bad b _ w e x M Mb L). reflexivity.
Qed.
End Bounded.
Lemma C92_ignored_lem e b x : measures w e -> In b (o_ignores (f_opts f)) -> measures b x -> same e x ->
  (igd = true \/ required f -> yields W (S n) f arg s eid m es NOTSETv (if igm then [] else [missing_at f pid t])) /\
  (forall d, igd = false -> o_default (f_opts f) = DVal d -> d <> VConst NOTSET -> yields W (S n) f arg s eid m es d []).
Proof.
  intros M I Mb Sm. destruct (measures_x _ _ M) as (y & _ & X & _ & _ & Gw & _).
  refine (C22_lem W n f arg s eid m es pid p igd igm t v w MP HF OB GV LK TR Gw _ TX).
  unfold py_in. apply existsb_exists. exists b. split; [exact I|]. now apply (measures_eq _ _ _ _ M Mb).
Qed.
End Field.

Section Nan.
Variables (W : world) (n : nat) (f : field) (lo hi : option val) (arg : val) (s : st) (eid : nat) (m : mode) (es : list err) (pid : nat) (p : path) (igd igm : bool) (t : string) (v : val).
Hypothesis MP : mapping W s eid m es pid p igd igm.
Hypothesis HF : hook_free f.
Hypothesis OB : obtains W s f p arg v.
Hypothesis NN : not_a_number v.
Hypothesis TX : p_str (w_env W) (spot f arg p) = Ok t.
Hypothesis B : bounds (f_kind f) = Some (lo, hi).
Lemma nan_in l : py_in v l = false.
Proof. unfold py_in. induction l as [|b l IH]; [reflexivity|]. cbn [existsb]. now rewrite (proj1 (nan_eq v b NN)), IH. Qed.
Lemma nan_translated : translated f v v.
Proof.
  apply tr_miss. unfold dict_get. induction (o_translations (f_opts f)) as [|[k x] l IH]; [reflexivity|]. cbn [find fst].
  rewrite (proj2 (nan_eq v k NN)). exact IH.
Qed.
Lemma nan_lt b : numeric b -> 
  (decimal v \/ decimal b -> py_lt v b = Exn EDecimal /\ py_lt b v = Exn EDecimal) /\
  (~ decimal v -> ~ decimal b -> py_lt v b = Ok false /\ py_lt b v = Ok false).
Proof.
  intros Nb. destruct (nan_x _ NN) as (X & _). destruct (numeric_x _ Nb) as (y & Y).
  unfold py_lt. rewrite X, Y. cbn [xnum_nan orb]. rewrite Bool.orb_true_r. split.
  - intros D. assert (Q : (is_dec v || is_dec b)%bool = true) by (destruct D as [(d & ->)|(d & ->)]; cbn; [reflexivity|apply Bool.orb_true_r]).
    rewrite Q, (Bool.orb_comm (is_dec b)), Q. split; reflexivity.
  - intros D1 D2. assert (Q1 : is_dec v = false) by (destruct v; try reflexivity; exfalso; apply D1; eexists; reflexivity).
    assert (Q2 : is_dec b = false) by (destruct b; try reflexivity; exfalso; apply D2; eexists; reflexivity).
    rewrite Q1, Q2. cbn [orb andb]. split; destruct y; reflexivity.
Qed.
Lemma C92_nan_lem : ~ decimal v -> (forall b, lo = Some b \/ hi = Some b -> numeric b /\ ~ decimal b) -> yields W (S n) f arg s eid m es v [].
Proof.
  intros ND Bs. destruct (nan_x _ NN) as (X & Gv & _ & Hv).
  refine (C23_checked_lem W n f arg s eid m es pid p igd igm t v v None MP HF OB Gv (or_intror (hashable_not v Hv)) nan_translated Gv (nan_in _) TX _).
  rewrite (violation_of W f lo hi _ v _ B X).
  assert (V1 : vio_below lo (VioMin v) v = Ok None).
  { destruct lo as [b|]; [|reflexivity]. destruct (Bs b (or_introl eq_refl)) as (Nb & Db). unfold vio_below. now rewrite (proj1 (proj2 (nan_lt b Nb) ND Db)). }
  assert (V2 : vio_above hi (VioMax v) v = Ok None).
  { destruct hi as [b|]; [|reflexivity]. destruct (Bs b (or_intror eq_refl)) as (Nb & Db). unfold vio_above. now rewrite (proj2 (proj2 (nan_lt b Nb) ND Db)). }
  rewrite V1, V2. reflexivity.
Qed.
Lemma C92_free_lem : lo = None -> hi = None -> yields W (S n) f arg s eid m es v [].
Proof.
  intros L H. destruct (nan_x _ NN) as (X & Gv & _ & Hv).
  refine (C23_checked_lem W n f arg s eid m es pid p igd igm t v v None MP HF OB Gv (or_intror (hashable_not v Hv)) nan_translated Gv (nan_in _) TX _).
  rewrite (violation_of W f lo hi _ v _ B X), L, H. reflexivity.
Qed.
Lemma C92_raises_lem b : lo = Some b \/ lo = None /\ hi = Some b -> numeric b -> decimal v \/ decimal b ->
  exists s', field_map W (S n) f arg s = (Exn EDecimal, s') /\ stk s' = stk s /\ forms s' = forms s /\ errs s' = errs s.
Proof.
  intros Eb Nb D. destruct (nan_x _ NN) as (X & Gv & _ & Hv). destruct (proj1 (nan_lt b Nb) D) as (L1 & L2).
  assert (V : field_violation (w_env W) (entries s) f v = Exn EDecimal).
  { rewrite (violation_of W f lo hi _ v _ B X). destruct Eb as [->|(-> & ->)]; unfold vio_below, vio_above; rewrite ?L1, ?L2; reflexivity. }
  exact (value_raises W n f arg s eid m es pid p igd igm MP (hf_read _ HF) HF v v t EDecimal TX OB Gv (or_intror (hashable_not v Hv)) nan_translated Gv (nan_in _) V).
Qed.
End Nan.
