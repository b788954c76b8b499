(** * UnionProofs: a union path answers as [SpecUnion] says. *)
From Verif Require Import PyBase PyStr Source Field Context Fields SpecSrc SrcPath SrcProofs Balance Eval SpecUnion.
From Coq Require Import Lia QArith_base.
Open Scope Z_scope.

Lemma F2_impl {A B} (P Q : A -> B -> Prop) : (forall a b, P a b -> Q a b) -> forall l m, Forall2 P l m -> Forall2 Q l m.
Proof. induction 2; constructor; auto. Qed.

Section Union.
Variables (E : env) (ents : entries_of).

(** ** Values of plain sources *)
Definition fine (s : psource) (v : val) : Prop :=
  match s with
  | SJson _ _ _ => json_val v = true
  | SDefault _ aliases ignores _ => aliases = [] /\ ignores = [] /\ exists P, plain_native E P /\ P v
  | SConfig _ _ _ _ => False
  end.
Lemma plain_fine s : plain_src E s -> fine s (data_of s).
Proof. intros [d st loc J|P d loc PN Pd]; cbn; eauto. Qed.
Lemma json_ordinary v : json_val v = true -> ordinary v.
Proof. destruct v; cbn; try discriminate; auto. Qed.
Lemma fine_ordinary s v : fine s v -> ordinary v.
Proof.
  destruct s; cbn [fine]; [|apply json_ordinary|contradiction]. intros (_ & _ & P & PN & Pv). exact (nd_ordinary _ _ _ (pn_data _ _ PN) _ Pv).
Qed.
Lemma fine_some s v : fine s v -> is_NONE v = false.
Proof. intros F. apply fine_ordinary in F. destruct v; try reflexivity. contradiction. Qed.
Lemma fine_form s i : ~ fine s (VForm i).
Proof. destruct s; cbn; try discriminate; auto. intros (_ & _ & P & PN & Pv). exact (pn_form _ _ PN _ Pv). Qed.
Lemma none_is_none v : is_None v = is_null v.
Proof. now destruct v. Qed.

(** The child of a value at a key *)
Definition child (s : psource) (v : val) (k : key) : option val :=
  match v with
  | VDict l => dict_get l (val_of_key k)
  | _ => match seq_of s v, k with
         | Some l, KInt z => nth_error l (Z.to_nat z)
         | _, _ => None
         end
  end.
Fixpoint reach_val (s : psource) (v : val) (ks : list key) : option val :=
  match ks with
  | [] => Some v
  | k :: rest => match child s v k with Some w => reach_val s w rest | None => None end
  end.
Lemma reach_app s a : forall v b, reach_val s v (a ++ b) = match reach_val s v a with Some w => reach_val s w b | None => None end.
Proof. induction a as [|k a IH]; intros v b; cbn; [reflexivity|]. destruct (child s v k); auto. Qed.

Lemma index_nat {A} (l : list A) z : 0 <= z -> py_index l z = nth_error l (Z.to_nat z).
Proof.
  intros H. unfold py_index. destruct (z <? 0) eqn:L; [lia|]. rewrite L. cbn [orb].
  destruct (Z.of_nat (length l) <=? z) eqn:L2; [|reflexivity]. symmetry. apply nth_error_None. lia.
Qed.
Lemma item_of s v k w : child s v k = Some w -> one_key k -> py_getitem E ents v k = Ok w.
Proof.
  intros C K. unfold child in C. destruct v; cbn [seq_of] in C; try discriminate; cbn [py_getitem].
  - destruct s; try discriminate. destruct k as [|z|]; try discriminate. cbn in K. rewrite index_nat by exact K.
    rewrite nth_error_map in C. destruct (nth_error (chars s0) (Z.to_nat z)); [|discriminate]. cbn in C. congruence.
  - destruct k as [|z|]; try discriminate. cbn in K. rewrite index_nat by exact K. now rewrite C.
  - destruct k as [|z|]; try discriminate. cbn in K. rewrite index_nat by exact K. now rewrite C.
  - now rewrite C.
Qed.
Lemma has_item_of s v k w : child s v k = Some w -> one_key k -> has_item E no_ents v k w.
Proof.
  intros C K. unfold child in C. destruct v; cbn [seq_of] in C; try discriminate.
  - destruct s; try discriminate. destruct k as [|z|]; try discriminate. cbn in K.
    rewrite nth_error_map in C. destruct (nth_error (chars s0) (Z.to_nat z)) eqn:N; [|discriminate]. cbn in C. injection C as <-.
    rewrite <- (Z2Nat.id z) by exact K. now constructor.
  - destruct k as [|z|]; try discriminate. cbn in K. rewrite <- (Z2Nat.id z) by exact K. now constructor.
  - destruct k as [|z|]; try discriminate. cbn in K. rewrite <- (Z2Nat.id z) by exact K. now constructor.
  - now constructor.
Qed.
Lemma child_resolve s v k w : fine s v -> one_key k -> child s v k = Some w ->
  psource_resolve E ents s [] v k = Ok w /\ fine s w.
Proof.
  intros F K C. pose proof (item_of s v k w C K) as G. destruct s as [d al ig loc|d st loc|]; [| |destruct F].
  - destruct F as (-> & -> & P & PN & Pv). assert (Pw : P w) by (eapply (nd_item _ _ _ (pn_data _ _ PN)); [exact Pv|eapply has_item_of; eauto]).
    assert (Fw : fine (SDefault d [] [] loc) w) by (cbn; eauto). split; [|exact Fw]. pose proof (fine_some _ _ Fw) as N.
    assert (S1 : default_resolve1 E ents [] [] [] v k = Ok w).
    { unfold default_resolve1. cbn [is_ignored existsb]. unfold as_item. rewrite G. cbn [or_NONE]. now rewrite N. }
    cbn [psource_resolve]. destruct k as [x|z|]; [|exact S1|destruct K]. destruct K as [K1 K2].
    destruct (String.length x) eqn:L; cbn [default_resolve]; rewrite K1, S1, N; reflexivity.
  - cbn [fine] in *. split.
    + cbn [psource_resolve]. unfold json_resolve. destruct k as [x|z|]; [|now rewrite G|destruct K]. destruct K as [_ K]. now rewrite K, G.
    + assert (PK : plain_key k) by (destruct k; [exact I|exact I|destruct K]). pose proof (json_getitem_step E ents v k F PK) as J.
      destruct (json_step v k) as [w'|]; [|destruct J as (e & J & _); congruence]. destruct J as [J J']. congruence.
Qed.
Lemma resolve_ind s v0 : fine s v0 -> forall ks c k, psource_resolve E ents s ks c k = psource_resolve E ents s [] c k.
Proof.
  destruct s as [d al ig loc|d st loc|]; [|intros _; apply json_ind|intros []]. intros (-> & -> & _). apply default_ind.
Qed.
Lemma reach_fold s : forall ks v w, fine s v -> Forall one_key ks -> reach_val s v ks = Some w ->
  fold_r E ents s v ks = Ok w /\ fine s w.
Proof.
  induction ks as [|k ks IH]; intros v w F K R; cbn in R |- *; [injection R as <-; auto|].
  inversion K as [|? ? K1 K2]; subst. destruct (child s v k) as [x|] eqn:C; [|discriminate].
  destruct (child_resolve s v k x F K1 C) as [-> Fx]. now apply IH.
Qed.

(** ** A sub-path *)
Definition sub_ok (s : psource) (p : ppath) (ks : list key) : Prop := good_path E ents s (data_of s) one_key p ks.
Lemma one_plain k : one_key k -> plain_key k.
Proof. destruct k; cbn; auto. Qed.
Lemma sub_value s p ks w : fine s (data_of s) -> sub_ok s p ks -> reach_val s (data_of s) ks = Some w ->
  exists p', pp_value E ents p = (p', Ok w) /\ sub_ok s p' ks.
Proof.
  intros F G R. pose proof (gp_plain _ _ _ _ _ _ _ G) as K.
  assert (IN : inside_ok E ents s (data_of s) ks).
  { intros pre k post -> NE FR. rewrite reach_app in R. destruct (reach_val s (data_of s) pre) as [x|] eqn:RX; [|discriminate].
    apply Forall_app in K. destruct (reach_fold s pre _ _ F (proj1 K) RX) as [FX Fx]. rewrite FX in FR. injection FR as ->. apply fine_some in Fx. discriminate. }
  destruct (pp_value_spec E ents s (data_of s) (resolve_ind s _ F) one_key one_plain p ks G (or_intror IN)) as [A B].
  destruct (pp_value E ents p) as [p' r]. cbn [fst snd] in *. exists p'. split; [|exact B]. rewrite A. now rewrite (proj1 (reach_fold s ks _ _ F K R)).
Qed.
Lemma sub_exists s p ks w : fine s (data_of s) -> sub_ok s p ks -> reach_val s (data_of s) ks = Some w ->
  exists p', pp_exists E ents p = (p', Ok true) /\ sub_ok s p' ks.
Proof.
  intros F G R. destruct (sub_value s p ks w F G R) as (p' & V & G'). exists p'. split; [|exact G']. unfold pp_exists. rewrite V.
  rewrite (fine_some s w); [reflexivity|]. exact (proj2 (reach_fold s ks _ _ F (gp_plain _ _ _ _ _ _ _ G) R)).
Qed.
Lemma sub_null s p ks w : fine s (data_of s) -> sub_ok s p ks -> reach_val s (data_of s) ks = Some w ->
  exists p', pp_is_null E ents p = (p', Ok (is_null w)) /\ sub_ok s p' ks.
Proof.
  intros F G R. destruct (sub_value s p ks w F G R) as (p' & V & G'). exists p'. split; [|exact G']. unfold pp_is_null. rewrite V. now rewrite none_is_none.
Qed.
Lemma sub_mapping s p ks w : fine s (data_of s) -> sub_ok s p ks -> reach_val s (data_of s) ks = Some w ->
  exists p', pp_mapping E ents p = (p', match dict_of w with Some l => Ok (Ok (map fst l)) | None => Exn (ESource NotMapping) end) /\ sub_ok s p' ks.
Proof.
  intros F G R. destruct (sub_value s p ks w F G R) as (p' & V & G'). exists p'. split; [|exact G']. unfold pp_mapping. rewrite V.
  rewrite (gp_src _ _ _ _ _ _ _ G). f_equal. pose proof (proj2 (reach_fold s ks _ _ F (gp_plain _ _ _ _ _ _ _ G) R)) as Fw.
  pose proof (fine_ordinary _ _ Fw) as O. destruct s as [d al ig loc|d st loc|]; [| |destruct F].
  - destruct Fw as (-> & -> & P & PN & Pw). destruct w; cbn [psource_mapping keys_view dict_of]; try reflexivity; try destruct O. exfalso. exact (pn_form _ _ PN _ Pw).
  - destruct w; cbn [psource_mapping keys_view dict_of]; try reflexivity. cbn in Fw. discriminate.
Qed.
Lemma sub_sequence s p ks w : fine s (data_of s) -> sub_ok s p ks -> reach_val s (data_of s) ks = Some w ->
  exists p', pp_sequence E ents p = (p', match seq_of s w with Some l => Ok (length l) | None => Exn (ESource NotSequence) end) /\ sub_ok s p' ks.
Proof.
  intros F G R. destruct (sub_value s p ks w F G R) as (p' & V & G'). exists p'. split; [|exact G']. unfold pp_sequence. rewrite V.
  rewrite (gp_src _ _ _ _ _ _ _ G). f_equal. destruct s as [d al ig loc|d st loc|]; [| |destruct F].
  - destruct w; cbn [psource_sequence seq_of]; try reflexivity. f_equal. rewrite map_length. clear. induction s as [|c s IH]; cbn; [reflexivity|now rewrite IH].
  - destruct w; cbn [psource_sequence seq_of]; reflexivity.
Qed.
Lemma sub_primitive s p ks w t : fine s (data_of s) -> sub_ok s p ks -> reach_val s (data_of s) ks = Some w ->
  exists p', pp_primitive E ents t p = (p', psource_parse E s t w) /\ sub_ok s p' ks.
Proof.
  intros F G R. destruct (sub_value s p ks w F G R) as (p' & V & G'). exists p'. split; [|exact G']. unfold pp_primitive. rewrite V.
  now rewrite (gp_src _ _ _ _ _ _ _ G).
Qed.
Lemma sub_append s p ks k : sub_ok s p ks -> one_key k -> sub_ok s (pp_append k p) (ks ++ [k]).
Proof.
  intros [Gs Gr Gk Gp Gc] K. split; cbn [pp_append pp_src pp_root pp_parts]; auto.
  - unfold pp_append, pp_keys in *. cbn [pp_parts]. rewrite map_app. now rewrite Gk.
  - apply Forall_app; split; [exact Gp|now repeat constructor].
  - unfold pp_append. cbn [pp_parts]. intros pre q post v E0 Hv. destruct post as [|x post _] using rev_ind.
    + apply app_inj_tail in E0. destruct E0 as [_ <-]. discriminate.
    + rewrite app_comm_cons, app_assoc in E0. apply app_inj_tail in E0. destruct E0 as [E0 _]. eapply Gc; eauto.
Qed.
Lemma sub_pop s p ks k : sub_ok s p (ks ++ [k]) -> exists p', pp_pop p = (p', Ok tt) /\ sub_ok s p' ks.
Proof.
  intros [Gs Gr Gk Gp Gc]. unfold pp_pop. unfold pp_keys in Gk. destruct (pp_parts p) as [|q ps] eqn:Ep; [destruct ks; discriminate|].
  exists (Source.PPath (pp_src p) (pp_root p) (removelast (q :: ps))). split; [reflexivity|].
  destruct (exists_last (l := q :: ps) ltac:(discriminate)) as (ps' & q' & E1). rewrite E1 in Gk, Gc |- *. rewrite map_app in Gk. cbn in Gk. apply app_inj_tail in Gk.
  destruct Gk as [Gk _]. rewrite removelast_last. split; cbn [pp_src pp_root pp_parts]; auto.
  - apply Forall_app in Gp. tauto.
  - now apply coherent_prefix in Gc.
Qed.
Lemma sub_shift s p ks z off : sub_ok s p ks -> 0 <= z - off ->
  exists p', shift_last off (pp_append (KInt z) p) = Ok p' /\ sub_ok s p' (ks ++ [KInt (z - off)]).
Proof.
  intros G Z. unfold shift_last. cbn [pp_append pp_parts]. rewrite rev_app_distr. cbn [rev app pk pc]. eexists. split; [reflexivity|].
  rewrite rev_involutive. cbn [pp_append pp_src pp_root]. exact (sub_append s p ks (KInt (z - off)) G Z).
Qed.

(** ** Positions *)
Variable u : usource.
Let srcs := us_srcs u.
Hypothesis FINE : Forall (fun s => fine s (data_of s)) srcs.

(** The keys each sub-path has; all of the same length [n]. *)
Definition tracks (paths : list ppath) (kss : list (list key)) (n : nat) : Prop :=
  length paths = length srcs /\ length kss = length srcs /\
  forall i s p ks, nth_error srcs i = Some s -> nth_error paths i = Some p -> nth_error kss i = Some ks -> sub_ok s p ks /\ length ks = n.
(** Source [i] has the value [v] at depth [d]. *)
Definition sees (kss : list (list key)) (d i : nat) (c : cand) : Prop :=
  exists ks, nth_error srcs i = Some (fst c) /\ nth_error kss i = Some ks /\ reach_val (fst c) (data_of (fst c)) (firstn d ks) = Some (snd c).
Inductive shows (kss : list (list key)) (d : nat) : val -> node -> Prop :=
| sh_gone : shows kss d (VConst NONE) NGone
| sh_join idx c : Forall2 (sees kss d) idx c -> c <> [] -> shows kss d (VJoin idx) (NJoin c)
| sh_map ms l : Forall2 (fun (ik : nat * list val) (sm : psource * list (val * val)) => sees kss d (fst ik) (fst sm, VDict (snd sm)) /\ snd ik = map fst (snd sm)) ms l ->
    shows kss d (VUMap ms) (NMap l)
| sh_seq ss l : Forall2 (fun (ik : nat * Z) (sl : psource * list val) => (exists v, sees kss d (fst ik) (fst sl, v) /\ seq_of (fst sl) v = Some (snd sl)) /\ snd ik = Z.of_nat (length (snd sl))) ss l ->
    shows kss d (VUSeq ss) (NSeq l)
| sh_val v : ordinary v -> shows kss d v (NVal v).
(** All parts of the union path have been looked at. *)
Fixpoint matches (kss : list (list key)) (root : val) (rparts : list part) (pos : position) : Prop :=
  match rparts, pos with
  | [], [n] => shows kss 0 root n
  | q :: rest, n :: above => one_key (pk q) /\ (exists v, pc q = Some v /\ shows kss (length rparts) v n) /\ matches kss root rest above
  | _, _ => False
  end.
Definition at_pos (p : upath) (pos : position) : Prop :=
  up_src p = u /\ exists kss, tracks (up_paths p) kss (length (up_parts p)) /\ matches kss (up_root p) (rev (up_parts p)) pos.

Lemma matches_cons kss root rp n above : matches kss root rp (n :: above) -> length above = length rp /\
  match rp with
  | [] => shows kss 0 root n /\ above = []
  | q :: rest => one_key (pk q) /\ (exists v, pc q = Some v /\ shows kss (length rp) v n) /\ matches kss root rest above
  end.
Proof.
  revert n above. induction rp as [|q rp IH]; intros n above; cbn [matches].
  - destruct above; [auto|contradiction].
  - intros (K & V & M). split; [|auto]. destruct above as [|n' above]; [destruct rp; destruct M|]. destruct (IH _ _ M) as [L _]. cbn. now rewrite L.
Qed.
Lemma value_here p n above : at_pos p (n :: above) ->
  exists v kss, up_value E ents p = (p, Ok v) /\ tracks (up_paths p) kss (length (up_parts p)) /\
    matches kss (up_root p) (rev (up_parts p)) (n :: above) /\ shows kss (length (up_parts p)) v n /\ length above = length (up_parts p) /\ up_src p = u.
Proof.
  intros (S & kss & T & M). destruct (matches_cons _ _ _ _ _ M) as [L C]. rewrite rev_length in L.
  unfold up_value. destruct (rev (up_parts p)) as [|q rest] eqn:R.
  - destruct C as [C ->]. assert (up_parts p = []) as P0 by (apply (f_equal (@rev part)) in R; now rewrite rev_involutive in R).
    exists (up_root p), kss. cbn [last_cached]. rewrite P0 in *. cbn [length Nat.sub skipn union_walk firstn app]. split; [|auto]. destruct p; cbn in *. now subst.
  - destruct C as (K & (v & PV & SH) & M'). exists v, kss.
    assert (LC : last_cached (q :: rest) = Ok (Some (0%nat, v))) by (cbn [last_cached]; rewrite PV; destruct (pk q); [reflexivity|reflexivity|destruct K]).
    rewrite LC. cbn beta iota zeta. rewrite Nat.sub_0_r, skipn_all, firstn_all. cbn [union_walk]. rewrite app_nil_r.
    assert (LL : length (q :: rest) = length (up_parts p)) by (rewrite <- R; apply rev_length). rewrite LL in SH.
    split; [destruct p; reflexivity|]. auto.
Qed.

Lemma tracks_replace paths kss n i s ks p' : tracks paths kss n -> nth_error srcs i = Some s -> nth_error kss i = Some ks -> sub_ok s p' ks ->
  tracks (replace_nth i p' paths) kss n.
Proof.
  intros (L1 & L2 & T) S K G. split; [now rewrite replace_nth_length|]. split; [exact L2|]. intros j s' q ks' Sj Qj Kj.
  destruct (Nat.eq_dec i j) as [<-|NE].
  - assert (I : (i < length paths)%nat) by (rewrite L1; apply nth_error_Some; congruence). rewrite nth_replace_eq in Qj by exact I. injection Qj as <-.
    assert (s' = s) as -> by congruence. assert (ks' = ks) as -> by congruence. split; [exact G|].
    destruct (nth_error paths i) as [p0|] eqn:P0; [|apply nth_error_Some in I; congruence]. exact (proj2 (T i s p0 ks S P0 K)).
  - rewrite nth_replace_neq in Qj by exact NE. eauto.
Qed.
(** A source in view, with its sub-path *)
Lemma seen_path paths kss n i c : tracks paths kss n -> sees kss n i c ->
  exists p ks, nth_error paths i = Some p /\ nth_error srcs i = Some (fst c) /\ nth_error kss i = Some ks /\ sub_ok (fst c) p ks /\ length ks = n /\
    fine (fst c) (data_of (fst c)) /\ reach_val (fst c) (data_of (fst c)) ks = Some (snd c).
Proof.
  intros (L1 & L2 & T) (ks & S & K & R). destruct (nth_error paths i) as [p|] eqn:P.
  2:{ apply nth_error_None in P. assert (i < length srcs)%nat by (apply nth_error_Some; congruence). lia. }
  exists p, ks. destruct (T i _ p ks S P K) as [G L]. split; [reflexivity|]. split; [exact S|]. split; [exact K|]. split; [exact G|]. split; [exact L|]. split.
  - rewrite Forall_forall in FINE. apply FINE. now apply nth_error_In in S.
  - rewrite <- R. f_equal. rewrite <- L. symmetry. apply firstn_all.
Qed.

(** ** Mappings *)
Definition mrel (kss : list (list key)) (d : nat) (ik : nat * list val) (sm : psource * list (val * val)) : Prop :=
  sees kss d (fst ik) (fst sm, VDict (snd sm)) /\ snd ik = map fst (snd sm).
Lemma umap_step_spec m paths kss n i c : tracks paths kss n -> sees kss n i c -> forall acc,
  exists p p', nth_error paths i = Some p /\ tracks (replace_nth i p' paths) kss n /\
  umap_step E ents m i p acc =
    (p', if is_null (snd c) then Ok (match m with MFirst => inr acc | _ => inl acc end)
         else match dict_of (snd c) with
              | None => Exn (ESource NotMapping)
              | Some l => Ok (match m with
                              | MFirst => inr (acc ++ [(i, map fst l)])
                              | MCombine => inl (acc ++ [(i, map fst l)])
                              | _ => inl [(i, map fst l)]
                              end)
              end).
Proof.
  intros T S acc. destruct (seen_path paths kss n i c T S) as (p & ks & P & S' & K & G & L & F & R). exists p.
  destruct (sub_exists _ _ _ _ F G R) as (p1 & V1 & G1). destruct (sub_null _ _ _ _ F G1 R) as (p2 & V2 & G2). destruct (sub_mapping _ _ _ _ F G2 R) as (p3 & V3 & G3).
  unfold umap_step. rewrite V1, V2. destruct (is_null (snd c)).
  - exists p2. split; [exact P|]. split; [|reflexivity]. eapply tracks_replace; eauto.
  - rewrite V3. exists p3. split; [exact P|]. split; [eapply tracks_replace; eauto|]. now destruct (dict_of (snd c)).
Qed.
Lemma dict_of_some v l : dict_of v = Some l -> v = VDict l.
Proof. destruct v; try discriminate. intros [= ->]. reflexivity. Qed.
Lemma loop_combine kss n : forall idx c, Forall2 (sees kss n) idx c -> forall paths acc, tracks paths kss n ->
  exists paths', tracks paths' kss n /\
  match shaped (fun _ => dict_of) c with
  | Some ms => exists l, umap_loop E ents MCombine idx paths acc = (paths', Ok (acc ++ l)) /\ Forall2 (mrel kss n) l ms
  | None => umap_loop E ents MCombine idx paths acc = (paths', Exn (ESource NotMapping))
  end.
Proof.
  induction 1 as [|i [s v] idx c S F IH]; intros paths acc T; cbn [umap_loop shaped].
  - exists paths. split; [exact T|]. exists []. rewrite app_nil_r. split; [reflexivity|constructor].
  - destruct (umap_step_spec MCombine paths kss n i (s, v) T S acc) as (p & p' & P & T' & ST). cbn [snd] in ST. rewrite P, ST. destruct (is_null v).
    + apply IH, T'.
    + destruct (dict_of v) as [l|] eqn:D; [|exists (replace_nth i p' paths); auto].
      destruct (IH (replace_nth i p' paths) (acc ++ [(i, map fst l)]) T') as (paths' & T2 & R). exists paths'. split; [exact T2|].
      destruct (shaped _ c) as [ms|]; [|exact R]. destruct R as (l' & R & FR). exists ((i, map fst l) :: l'). split; [now rewrite R, <- app_assoc|].
      constructor; [|exact FR]. split; [|reflexivity]. apply dict_of_some in D. now subst v.
Qed.
Lemma loop_last kss n : forall idx c, Forall2 (sees kss n) idx c -> forall paths acc, tracks paths kss n ->
  exists paths', tracks paths' kss n /\
  match shaped (fun _ => dict_of) c with
  | Some ms => exists l, umap_loop E ents MLast idx paths acc = (paths', Ok (match ms with [] => acc | _ => l end)) /\ Forall2 (mrel kss n) l (last_of ms)
  | None => umap_loop E ents MLast idx paths acc = (paths', Exn (ESource NotMapping))
  end.
Proof.
  induction 1 as [|i [s v] idx c S F IH]; intros paths acc T; cbn [umap_loop shaped].
  - exists paths. split; [exact T|]. exists []. split; [reflexivity|constructor].
  - destruct (umap_step_spec MLast paths kss n i (s, v) T S acc) as (p & p' & P & T' & ST). cbn [snd] in ST. rewrite P, ST. destruct (is_null v).
    + apply IH, T'.
    + destruct (dict_of v) as [l|] eqn:D; [|exists (replace_nth i p' paths); auto].
      destruct (IH (replace_nth i p' paths) [(i, map fst l)] T') as (paths' & T2 & R). exists paths'. split; [exact T2|].
      destruct (shaped _ c) as [ms|]; [|exact R]. destruct R as (l' & R & FR). rewrite R. apply dict_of_some in D. subst v.
      destruct ms as [|m ms].
      * exists [(i, map fst l)]. split; [reflexivity|]. repeat constructor; assumption.
      * exists l'. split; [reflexivity|]. cbn [last_of] in *. unfold last_of in *. cbn [rev] in *.
        destruct (rev ms ++ [m]) as [|x y] eqn:Q; [now destruct (rev ms)|]. cbn [app]. exact FR.
Qed.
Lemma loop_first kss n : forall idx c, Forall2 (sees kss n) idx c -> forall paths, tracks paths kss n ->
  exists paths', tracks paths' kss n /\
  match shaped (fun _ => dict_of) (first_of c) with
  | Some ms => exists l, umap_loop E ents MFirst idx paths [] = (paths', Ok l) /\ Forall2 (mrel kss n) l ms
  | None => umap_loop E ents MFirst idx paths [] = (paths', Exn (ESource NotMapping))
  end.
Proof.
  intros idx c F paths T. destruct F as [|i [s v] idx c S F]; cbn [umap_loop shaped first_of].
  - exists paths. split; [exact T|]. exists []. split; [reflexivity|constructor].
  - destruct (umap_step_spec MFirst paths kss n i (s, v) T S []) as (p & p' & P & T' & ST). cbn [snd] in ST. rewrite P, ST. exists (replace_nth i p' paths). split; [exact T'|].
    destruct (is_null v).
    + exists []. split; [reflexivity|constructor].
    + destruct (dict_of v) as [l|] eqn:D; [|reflexivity]. apply dict_of_some in D. subst v. eexists. split; [reflexivity|]. repeat constructor; assumption.
Qed.
Lemma map_rule_of (idx : list nat) c : length idx = length c -> umap_merge u (length idx) None = map_rule u c.
Proof. intros ->. unfold umap_merge, map_rule, limited. now destruct (us_depth u). Qed.
Lemma umap_make_spec kss n idx c paths mo m : Forall2 (sees kss n) idx c -> tracks paths kss n -> umap_merge u (length idx) mo = m ->
  exists paths', tracks paths' kss n /\
  match merge_maps m c with
  | Ok ms => exists l, umap_make E ents u paths idx mo = (paths', Ok (VUMap l)) /\ Forall2 (mrel kss n) l ms
  | Exn e => umap_make E ents u paths idx mo = (paths', Exn e)
  end.
Proof.
  intros F T M. unfold umap_make, merge_maps. rewrite M. destruct m; [| | |exists paths; auto]; cbn [open_maps].
  - destruct (loop_first kss n idx c F paths T) as (paths' & T' & R). exists paths'. split; [exact T'|]. destruct (shaped _ (first_of c)) as [ms|]; [|now rewrite R].
    destruct R as (l & R & FR). exists l. now rewrite R.
  - destruct (loop_last kss n idx c F paths [] T) as (paths' & T' & R). exists paths'. split; [exact T'|]. destruct (shaped _ c) as [ms|]; cbn [option_map]; [|now rewrite R].
    destruct R as (l & R & FR). exists l. rewrite R. split; [|exact FR]. destruct ms as [|m ms]; [|reflexivity]. cbn in FR. now inversion FR.
  - destruct (loop_combine kss n idx c F paths [] T) as (paths' & T' & R). exists paths'. split; [exact T'|]. destruct (shaped _ c) as [ms|]; [|now rewrite R].
    destruct R as (l & R & FR). exists l. now rewrite R.
Qed.

(** ** Sequences *)
Definition srel (kss : list (list key)) (d : nat) (ik : nat * Z) (sl : psource * list val) : Prop :=
  (exists v, sees kss d (fst ik) (fst sl, v) /\ seq_of (fst sl) v = Some (snd sl)) /\ snd ik = Z.of_nat (length (snd sl)).
Lemma useq_step_spec m paths kss n i c : tracks paths kss n -> sees kss n i c -> forall acc,
  exists p p', nth_error paths i = Some p /\ length (pp_parts p) = n /\ tracks (replace_nth i p' paths) kss n /\
  useq_step E ents u m i p acc =
    (p', if is_null (snd c) then Ok (m, acc)
         else match seq_of (fst c) (snd c) with
              | None => Exn (ESource NotSequence)
              | Some l =>
                  match acc with
                  | [] => Ok (m, [(i, Z.of_nat (length l))])
                  | _ :: acc_tl =>
                      let mg := useq_merge u n m in
                      match mg with
                      | MCombine => Ok (Some mg, acc ++ [(i, Z.of_nat (length l))])
                      | MFirst => Ok (Some mg, acc)
                      | MLast => Ok (Some mg, (i, Z.of_nat (length l)) :: acc_tl)
                      | MBad _ => Exn EIndex
                      end
                  end
              end).
Proof.
  intros T S acc. destruct (seen_path paths kss n i c T S) as (p & ks & P & S' & K & G & L & F & R). exists p.
  assert (LP : length (pp_parts p) = n) by (rewrite <- L, <- (gp_keys _ _ _ _ _ _ _ G); unfold pp_keys; now rewrite map_length).
  destruct (sub_exists _ _ _ _ F G R) as (p1 & V1 & G1). destruct (sub_null _ _ _ _ F G1 R) as (p2 & V2 & G2). destruct (sub_sequence _ _ _ _ F G2 R) as (p3 & V3 & G3).
  unfold useq_step. rewrite V1, V2. destruct (is_null (snd c)).
  - exists p2. split; [exact P|]. split; [exact LP|]. split; [|reflexivity]. eapply tracks_replace; eauto.
  - rewrite V3. exists p3. split; [exact P|]. split; [exact LP|]. split; [eapply tracks_replace; eauto|]. destruct (seq_of (fst c) (snd c)); [|reflexivity].
    rewrite LP. destruct acc; [reflexivity|]. now destruct (useq_merge u n m).
Qed.
(** [a] and [x]: the sequences kept so far, and those of [rest] *)
Definition kept_seqs (m : merge) (a x : list (psource * list val)) : list (psource * list val) :=
  match m with
  | MCombine => a ++ x
  | MFirst => first_of (a ++ x)
  | _ => last_of (a ++ x)
  end.
Lemma last_snoc {A} (l : list A) a : last_of (l ++ [a]) = [a].
Proof. unfold last_of. rewrite rev_app_distr. reflexivity. Qed.
Lemma last_skip {A} (a : A) b l : last_of (a :: b :: l) = last_of (b :: l).
Proof. unfold last_of. cbn [rev]. destruct (rev l ++ [b]) eqn:Q; [now destruct (rev l)|reflexivity]. Qed.
Lemma seq_loop kss n m : seq_rule u n = m -> valid m -> forall idx c, Forall2 (sees kss n) idx c -> forall paths mo acc a, tracks paths kss n ->
  (mo = None \/ mo = Some m) -> Forall2 (srel kss n) acc a -> (m <> MCombine -> (length a <= 1)%nat) ->
  exists paths', tracks paths' kss n /\
  match shaped seq_of c with
  | Some x => exists l, useq_loop E ents u mo idx paths acc = (paths', Ok l) /\ Forall2 (srel kss n) l (kept_seqs m a x)
  | None => useq_loop E ents u mo idx paths acc = (paths', Exn (ESource NotSequence))
  end.
Proof.
  intros RU V. assert (MG : forall mo, mo = None \/ mo = Some m -> useq_merge u n mo = m).
  { intros mo [->| ->]; [|reflexivity]. rewrite <- RU. unfold useq_merge, seq_rule, limited. now destruct (us_depth u). }
  induction 1 as [|i [s v] idx c S F IH]; intros paths mo acc a T MO FA SH; cbn [useq_loop shaped].
  - exists paths. split; [exact T|]. exists acc. split; [reflexivity|]. unfold kept_seqs. rewrite app_nil_r.
    destruct m; auto; (destruct a as [|a0 [|a1 a]]; [exact FA|exact FA|specialize (SH ltac:(discriminate)); cbn in SH; lia]).
  - destruct (useq_step_spec mo paths kss n i (s, v) T S acc) as (p & p' & P & LP & T' & ST). cbn [snd fst] in ST. rewrite P, ST. destruct (is_null v).
    + apply IH; auto.
    + destruct (seq_of s v) as [l|] eqn:D; [|exists (replace_nth i p' paths); auto].
      assert (HR : srel kss n (i, Z.of_nat (length l)) (s, l)) by (split; [exists v; auto|reflexivity]).
      destruct FA as [|x y acc a RX FA].
      * destruct (IH (replace_nth i p' paths) mo [(i, Z.of_nat (length l))] [(s, l)] T' MO ltac:(constructor; [exact HR|constructor]) ltac:(cbn; lia)) as (paths' & T2 & R).
        exists paths'. split; [exact T2|]. destruct (shaped seq_of c) as [z|]; [|exact R]. exact R.
      * cbv zeta. rewrite (MG mo MO). destruct m; [| | |destruct V].
        -- destruct (IH (replace_nth i p' paths) (Some MFirst) (x :: acc) (y :: a) T' (or_intror eq_refl) ltac:(now constructor) SH) as (paths' & T2 & R).
           exists paths'. split; [exact T2|]. destruct (shaped seq_of c) as [z|]; [|exact R]. exact R.
        -- destruct (IH (replace_nth i p' paths) (Some MLast) ((i, Z.of_nat (length l)) :: acc) ((s, l) :: a) T' (or_intror eq_refl) ltac:(now constructor) SH) as (paths' & T2 & R).
           exists paths'. split; [exact T2|]. destruct (shaped seq_of c) as [z|]; [|exact R]. destruct R as (w & R & FR). exists w. split; [exact R|].
           unfold kept_seqs in *. specialize (SH ltac:(discriminate)). cbn in SH. destruct a; [|cbn in SH; lia]. cbn [app] in *. now rewrite last_skip.
        -- destruct (IH (replace_nth i p' paths) (Some MCombine) ((x :: acc) ++ [(i, Z.of_nat (length l))]) ((y :: a) ++ [(s, l)]) T' (or_intror eq_refl)
              ltac:(apply Forall2_app; [constructor; assumption|constructor; [exact HR|constructor]]) ltac:(congruence)) as (paths' & T2 & R).
           exists paths'. split; [exact T2|]. destruct (shaped seq_of c) as [z|]; [|exact R]. destruct R as (w & R & FR). exists w. split; [exact R|].
           unfold kept_seqs in *. rewrite <- app_assoc in FR. exact FR.
Qed.
Lemma limited_valid d n m : valid m -> valid (limited d n m).
Proof. unfold limited. destruct d as [z|]; [|auto]. destruct (z <=? Z.of_nat n); cbn; auto. Qed.
Lemma bad_loop kss n b : seq_rule u n = MBad b -> forall idx c, Forall2 (sees kss n) idx c -> forall paths acc a, tracks paths kss n ->
  Forall2 (srel kss n) acc a -> (length a <= 1)%nat ->
  exists paths', tracks paths' kss n /\
  match lone c a with
  | Ok x => exists l, useq_loop E ents u None idx paths acc = (paths', Ok l) /\ Forall2 (srel kss n) l x
  | Exn e => useq_loop E ents u None idx paths acc = (paths', Exn e)
  end.
Proof.
  intros RU. assert (MG : useq_merge u n None = MBad b).
  { rewrite <- RU. unfold useq_merge, seq_rule, limited. now destruct (us_depth u). }
  induction 1 as [|i [s v] idx c S F IH]; intros paths acc a T FA SH; cbn [useq_loop lone].
  - exists paths. split; [exact T|]. exists acc. auto.
  - destruct (useq_step_spec None paths kss n i (s, v) T S acc) as (p & p' & P & LP & T' & ST). cbn [snd fst] in ST. rewrite P, ST. destruct (is_null v).
    + apply IH; auto.
    + destruct (seq_of s v) as [l|] eqn:D; [|exists (replace_nth i p' paths); auto].
      destruct FA as [|x y acc a RX FA].
      * apply IH; [exact T'| |cbn; lia]. constructor; [|constructor]. split; [exists v; auto|reflexivity].
      * cbv zeta. rewrite MG. exists (replace_nth i p' paths). auto.
Qed.
Lemma useq_make_spec kss n idx c paths : Forall2 (sees kss n) idx c -> tracks paths kss n ->
  exists paths', tracks paths' kss n /\
  match merge_seqs (seq_rule u n) c with
  | Ok ss => exists l, useq_make E ents u paths idx = (paths', Ok (VUSeq l)) /\ Forall2 (srel kss n) l ss
  | Exn e => useq_make E ents u paths idx = (paths', Exn e)
  end.
Proof.
  intros F T. unfold useq_make, merge_seqs. destruct (seq_rule u n) as [| | |b] eqn:RU;
  [| | |destruct (bad_loop kss n b RU idx c F paths [] [] T ltac:(constructor) ltac:(cbn; lia)) as (paths' & T' & R); exists paths'; split; [exact T'|]; destruct (lone c []) as [x|e]; [destruct R as (l & R & FR); exists l; now rewrite R|now rewrite R]];
  rewrite <- RU; assert (V : valid (seq_rule u n)) by (rewrite RU; exact I);
  destruct (seq_loop kss n (seq_rule u n) eq_refl V idx c F paths None [] [] T (or_introl eq_refl) ltac:(constructor) ltac:(cbn; lia)) as (paths' & T' & R);
  exists paths'; (split; [exact T'|]); rewrite RU in *; cbn [open_seqs kept_seqs app] in *; destruct (shaped seq_of c) as [x|]; cbn [option_map];
    try (now rewrite R); destruct R as (l & R & FR); exists l; now rewrite R.
Qed.

(** ** Keys *)
Definition simple (k : val) : Prop := (exists z, k = VInt z) \/ (exists s, k = VStr s).
Lemma simple_eq a b : simple a -> simple b -> py_eq a b = true -> a = b.
Proof.
  intros [(z & ->)|(x & ->)] [(z' & ->)|(x' & ->)]; cbn; try discriminate.
  - intros H. apply QArith_base.Qeq_bool_iff in H. unfold QArith_base.Qeq in H. cbn in H. f_equal. lia.
  - intros H. apply String.eqb_eq in H. now subst.
Qed.
Lemma simple_refl a : simple a -> py_eq a a = true.
Proof. intros [(z & ->)|(x & ->)]; cbn; [apply QArith_base.Qeq_bool_iff; reflexivity|apply String.eqb_refl]. Qed.
Lemma simple_sym a b : simple a -> simple b -> py_eq a b = py_eq b a.
Proof.
  intros A B. destruct (py_eq a b) eqn:Q.
  - apply simple_eq in Q; auto. subst. symmetry. now apply simple_refl.
  - destruct (py_eq b a) eqn:Q2; [|reflexivity]. apply simple_eq in Q2; auto. subst. rewrite simple_refl in Q; auto.
Qed.
Lemma key_simple k : one_key k -> simple (val_of_key k).
Proof. destruct k; cbn; [right|left|contradiction]; eauto. Qed.
Lemma fine_keys s l : fine s (VDict l) -> Forall simple (map fst l).
Proof.
  destruct s as [d al ig loc|d st loc|]; cbn [fine]; [| |contradiction].
  - intros (_ & _ & P & PN & Pv). apply Forall_forall. intros k K. destruct (pn_keys _ _ PN _ _ Pv K) as [H|(x & -> & _)]; [now left|right; eauto].
  - intros J. cbn in J. rewrite forallb_forall in J. apply Forall_forall. intros k K. apply in_map_iff in K. destruct K as ([a b] & <- & K). specialize (J _ K). cbn in J.
    destruct a; try discriminate. right. cbn. eauto.
Qed.
Lemma in_get s l k : fine s (VDict l) -> one_key k -> py_in (val_of_key k) (map fst l) = match dict_get l (val_of_key k) with Some _ => true | None => false end.
Proof.
  intros F K. pose proof (fine_keys s l F) as KS. apply key_simple in K. revert KS. generalize (val_of_key k), K. clear. intros v K. induction l as [|[a b] l IH]; [reflexivity|].
  intros KS. inversion KS as [|? ? K1 K2]; subst. cbn [fst] in K1. specialize (IH K2). unfold py_in, dict_get in *. cbn [map fst existsb find]. rewrite (simple_sym v a) by assumption.
  destruct (py_eq a v); [reflexivity|exact IH].
Qed.
Lemma in_dedup k l : Forall simple l -> py_in k (dedup l) = py_in k l.
Proof.
  unfold py_in. induction l as [|v l IH]; intros F; cbn [dedup existsb]; [reflexivity|]. inversion F as [|? ? F1 F2]; subst. rewrite <- IH by exact F2.
  destruct (py_eq k v) eqn:Q; cbn [orb]; [reflexivity|]. assert (FD : Forall simple (dedup l)).
  { clear -F2. induction F2 as [|x l Fx F IH]; cbn [dedup]; constructor; [exact Fx|]. apply Forall_forall. intros y Y. apply filter_In in Y. rewrite Forall_forall in IH. now apply IH. }
  clear IH. induction FD as [|w m Fw FD IHm]; cbn [filter existsb]; [reflexivity|]. destruct (py_eq v w) eqn:Q2; cbn [negb existsb].
  - apply simple_eq in Q2; auto. subst w. rewrite Q. cbn [orb]. exact IHm.
  - now rewrite IHm.
Qed.
Lemma dedup_distinct l : ForallOrdPairs (fun x y => py_eq x y = false) (dedup l).
Proof.
  induction l as [|v l IH]; cbn [dedup]; [constructor|]. constructor.
  - apply Forall_forall. intros w W. apply filter_In in W. destruct W as [_ W]. now destruct (py_eq v w).
  - revert IH. generalize (dedup l). clear. induction 1 as [|w m Fw P IH]; cbn [filter]; [constructor|]. destruct (negb (py_eq v w)); [|exact IH]. constructor; [|exact IH].
    rewrite Forall_forall in *. intros y Y. apply filter_In in Y. now apply Fw.
Qed.

(** ** Changing the keys of the sub-paths *)
Definition agree (kss kss' : list (list key)) (n : nat) : Prop :=
  forall i ks, nth_error kss i = Some ks -> exists ks', nth_error kss' i = Some ks' /\ forall d, (d <= n)%nat -> firstn d ks' = firstn d ks.
Lemma sees_agree kss kss' n d i c : agree kss kss' n -> (d <= n)%nat -> sees kss d i c -> sees kss' d i c.
Proof. intros A L (ks & S & K & R). destruct (A i ks K) as (ks' & K' & F). exists ks'. rewrite F by exact L. auto. Qed.
Lemma shows_agree kss kss' n d v x : agree kss kss' n -> (d <= n)%nat -> shows kss d v x -> shows kss' d v x.
Proof.
  intros A L [|idx c F NE|ms l F|ss l F|w]; constructor; auto.
  - eapply F2_impl; [|exact F]. intros; eapply sees_agree; eauto.
  - eapply F2_impl; [|exact F]. intros a b [H Q]. split; [|exact Q]. eapply sees_agree; eauto.
  - eapply F2_impl; [|exact F]. intros a b [(w & H & Q) Q']. split; [|exact Q']. exists w. split; [eapply sees_agree; eauto|exact Q].
Qed.
Lemma matches_agree kss kss' n root : agree kss kss' n -> forall rp pos, (length rp <= n)%nat -> matches kss root rp pos -> matches kss' root rp pos.
Proof.
  intros A. induction rp as [|q rp IH]; intros pos L; cbn [matches].
  - destruct pos as [|x [|y pos]]; try contradiction. apply (shows_agree kss kss' n); [exact A|lia].
  - destruct pos as [|x pos]; [contradiction|]. intros (K & (v & PV & S) & M). split; [exact K|]. split; [|apply IH; [cbn in L; lia|exact M]].
    exists v. split; [exact PV|]. apply (shows_agree kss kss' n); auto.
Qed.
Definition longer (k : key) (kss : list (list key)) : list (list key) := map (fun ks => ks ++ [k]) kss.
Lemma tracks_append k paths kss n : one_key k -> tracks paths kss n -> tracks (map (pp_append k) paths) (longer k kss) (S n).
Proof.
  intros K (L1 & L2 & T). split; [now rewrite map_length|]. split; [unfold longer; now rewrite map_length|].
  intros i s p ks S P Q. unfold longer in Q. rewrite nth_error_map in P, Q. destruct (nth_error paths i) as [p0|] eqn:P0; [|discriminate]. destruct (nth_error kss i) as [ks0|] eqn:K0; [|discriminate].
  cbn in P, Q. injection P as <-. injection Q as <-. destruct (T i s p0 ks0 S P0 K0) as [G L]. split; [now apply sub_append|]. rewrite app_length. cbn. lia.
Qed.
Lemma longer_agree k kss n paths : tracks paths kss n -> agree kss (longer k kss) n.
Proof.
  intros (L1 & L2 & T) i ks K. exists (ks ++ [k]). unfold longer. split; [rewrite nth_error_map, K; reflexivity|]. intros d D.
  assert (LI : (i < length srcs)%nat) by (rewrite <- L2; apply nth_error_Some; congruence).
  destruct (nth_error srcs i) as [s|] eqn:S; [|apply nth_error_Some in LI; congruence].
  destruct (nth_error paths i) as [p|] eqn:P; [|apply nth_error_None in P; lia]. destruct (T i s p ks S P K) as [_ L].
  rewrite firstn_app. replace (d - length ks)%nat with 0%nat by lia. cbn. apply app_nil_r.
Qed.
Lemma sees_below kss n i s v k w paths : tracks paths kss n -> sees kss n i (s, v) -> child s v k = Some w -> sees (longer k kss) (S n) i (s, w).
Proof.
  intros T S C. destruct (seen_path paths kss n i _ T S) as (p & ks & _ & S' & K & _ & L & _ & R). cbn [fst snd] in *.
  exists (ks ++ [k]). split; [exact S'|]. unfold longer. split; [now rewrite nth_error_map, K|]. cbn [fst snd].
  rewrite firstn_all2 by (rewrite app_length; cbn; lia). rewrite reach_app, R. cbn. now rewrite C.
Qed.

(** ** Looking at the next key *)
Definition rest_state (p : upath) (paths : list ppath) (k : key) (v : val) : upath := UPath (up_src p) (up_root p) (up_parts p ++ [Part k (Some v)]) paths.
Lemma value_below p n above k v paths' v' : at_pos p (n :: above) -> one_key k -> up_value E ents p = (p, Ok v) ->
  union_resolve E ents (map (pp_append k) (up_paths p)) v k = (paths', Ok v') ->
  up_value E ents (up_append k p) = (rest_state p paths' k v', Ok v').
Proof.
  intros AT K UV UR. destruct AT as (S & kss & T & M). destruct (matches_cons _ _ _ _ _ M) as [L C].
  unfold up_value in *. cbn [up_append up_parts up_root up_src up_paths]. rewrite rev_app_distr. cbn [rev app].
  assert (LK : forall o, last_cached (rev (up_parts p)) = Ok o ->
     last_cached (Part k None :: rev (up_parts p)) = Ok (match o with Some (n, v) => Some (Datatypes.S n, v) | None => None end)).
  { intros o H. cbn [last_cached pk pc]. rewrite H. destruct k; [now destruct o as [[? ?]|]|now destruct o as [[? ?]|]|destruct K]. }
  assert (WK : forall paths, union_walk E ents paths v [Part k None] =
     (let '(q, r) := union_resolve E ents paths v k in match r with Exn e => (q, ([Part k None], Exn e)) | Ok w => (q, ([Part k (Some w)], Ok w)) end)).
  { intros paths. cbn [union_walk pk]. destruct (union_resolve E ents paths v k) as [q [w|e]]; [|reflexivity]. now destruct (is_NONE w). }
  rewrite app_length. cbn [length]. rewrite rev_length in L.
  destruct (rev (up_parts p)) as [|q rest] eqn:R.
  - assert (P0 : up_parts p = []) by (apply (f_equal (@rev part)) in R; now rewrite rev_involutive in R).
    cbn [last_cached] in UV. rewrite P0 in UV. cbn [length Nat.sub skipn union_walk firstn app] in UV. injection UV as _ UV.
    rewrite (LK None eq_refl). rewrite P0. cbn [length Nat.add Nat.sub skipn firstn app]. rewrite UV, WK, UR. unfold rest_state. rewrite P0, UV. reflexivity.
  - destruct C as (Kq & (w & PV & SH) & M'). assert (LC : last_cached (q :: rest) = Ok (Some (0%nat, w))) by (cbn [last_cached]; rewrite PV; destruct (pk q); [reflexivity|reflexivity|destruct Kq]).
    rewrite LC in UV. cbn beta iota zeta in UV. rewrite Nat.sub_0_r, skipn_all, firstn_all in UV. cbn [union_walk] in UV. injection UV as _ UV. subst w.
    rewrite (LK _ LC). cbn beta iota zeta. replace (length (up_parts p) + 1 - 1)%nat with (length (up_parts p)) by lia.
    rewrite skipn_app, firstn_app, skipn_all, Nat.sub_diag, firstn_all. cbn [skipn firstn app]. rewrite app_nil_r. rewrite WK, UR. reflexivity.
Qed.
Lemma entered p n above k v paths' v' kss kss' x : at_pos p (n :: above) -> one_key k -> up_value E ents p = (p, Ok v) ->
  tracks (up_paths p) kss (length (up_parts p)) -> matches kss (up_root p) (rev (up_parts p)) (n :: above) ->
  union_resolve E ents (map (pp_append k) (up_paths p)) v k = (paths', Ok v') ->
  tracks paths' kss' (S (length (up_parts p))) -> agree kss kss' (length (up_parts p)) -> shows kss' (S (length (up_parts p))) v' x ->
  exists p', up_exists E ents (up_append k p) = (p', Ok (negb (is_NONE v'))) /\ at_pos p' (x :: n :: above).
Proof.
  intros AT K UV T M UR T' A SH. unfold up_exists. rewrite (value_below p n above k v paths' v' AT K UV UR). eexists. split; [reflexivity|].
  split; [exact (proj1 AT)|]. exists kss'. cbn [rest_state up_paths up_parts up_root]. rewrite app_length. cbn [length]. rewrite Nat.add_1_r. split; [exact T'|].
  rewrite rev_app_distr. cbn [rev app matches pk pc length]. split; [exact K|]. rewrite rev_length. split; [eauto|]. eapply matches_agree; [exact A|rewrite rev_length; lia|exact M].
Qed.

Lemma find_seq kss n paths : tracks paths kss n -> forall ss l, Forall2 (srel kss n) ss l -> forall off z, 0 <= off <= z ->
  match nth_error (concat_of l) (Z.to_nat (z - off)) with
  | Some (s, w) => exists i off' v, useq_find ss off z = Some (i, off') /\ 0 <= z - off' /\ sees kss n i (s, v) /\ child s v (KInt (z - off')) = Some w
  | None => useq_find ss off z = None
  end.
Proof.
  intros T. induction 1 as [|[i m] [s l0] ss l [(v & SV & SQ) LM] F IH]; intros off z Z0; cbn [concat_of flat_map fst snd useq_find] in *.
  - now destruct (Z.to_nat (z - off)).
  - subst m. destruct (z <? off + Z.of_nat (length l0)) eqn:Q.
    + rewrite nth_error_app1 by (rewrite map_length; lia). rewrite nth_error_map. destruct (nth_error l0 (Z.to_nat (z - off))) as [w|] eqn:N; [|apply nth_error_None in N; lia].
      cbn [option_map]. exists i, off, v. split; [reflexivity|]. split; [lia|]. split; [exact SV|]. unfold child. destruct v; try discriminate; rewrite SQ; exact N.
    + rewrite nth_error_app2 by (rewrite map_length; lia). rewrite map_length. specialize (IH (off + Z.of_nat (length l0)) z ltac:(lia)).
      replace (Z.to_nat (z - off) - length l0)%nat with (Z.to_nat (z - (off + Z.of_nat (length l0)))) by lia. exact IH.
Qed.

Lemma under_spec kss n paths k ms l : tracks paths kss n -> one_key k -> Forall2 (mrel kss n) ms l ->
  Forall2 (sees (longer k kss) (S n)) (map fst (filter (fun ik => py_in (val_of_key k) (snd ik)) ms)) (under k l).
Proof.
  intros T K. induction 1 as [|[i ks] [s items] ms l [SV KS] F IH]; cbn [filter under flat_map map fst snd] in *; [constructor|]. subst ks.
  destruct (seen_path paths kss n i _ T SV) as (p & ks & _ & _ & _ & G & _ & Fi & R). cbn [fst snd] in *.
  pose proof (proj2 (reach_fold s ks _ _ Fi (gp_plain _ _ _ _ _ _ _ G) R)) as FD. rewrite (in_get s items k FD K).
  destruct (dict_get items (val_of_key k)) as [w|] eqn:DG; [|exact IH]. cbn [map fst app]. constructor; [|exact IH].
  eapply sees_below; [exact T|exact SV|]. exact DG.
Qed.

Lemma enter_ok p here above k x pos' : at_pos p (here :: above) -> one_key k ->
  answer E u (Enter k) (here :: above) = Some (x, pos') ->
  exists p', do_op E ents (Enter k) p = (x, p') /\ at_pos p' pos'.
Proof.
  intros AT K AN. destruct (value_here p here above AT) as (v & kss & UV & T & M & SH & LA & SU).
  pose proof (tracks_append k _ _ _ K T) as TA. pose proof (longer_agree k kss _ _ T) as AG.
  assert (GONE : forall r, union_resolve E ents (map (pp_append k) (up_paths p)) v k = (map (pp_append k) (up_paths p), Ok (VConst NONE)) ->
     r = NGone -> exists p', do_op E ents (Enter k) p = (OBool false, p') /\ at_pos p' (r :: here :: above)).
  { intros r UR ->. destruct (entered p here above k v _ _ kss _ NGone AT K UV T M UR TA AG ltac:(constructor)) as (p' & EX & AT'). exists p'. cbn [do_op]. rewrite EX. split; [reflexivity|exact AT']. }
  cbn [answer] in AN. destruct SH as [|idx c F NE|ms l F|ss l F|w O].
  - injection AN as <- <-. apply GONE; [reflexivity|reflexivity].
  - injection AN as <- <-. apply GONE; [reflexivity|reflexivity].
  - injection AN as <- <-. pose proof (under_spec _ _ _ k ms l T K F) as US.
    destruct (under k l) as [|c0 c] eqn:U.
    + cbn [join]. apply GONE; [|reflexivity]. cbn [union_resolve]. unfold umap_getitem. destruct (map fst (filter _ ms)); [reflexivity|inversion US].
    + cbn [join]. destruct (map fst (filter (fun ik => py_in (val_of_key k) (snd ik)) ms)) as [|i0 idx] eqn:Q; [inversion US|].
      assert (UR : union_resolve E ents (map (pp_append k) (up_paths p)) (VUMap ms) k = (map (pp_append k) (up_paths p), Ok (VJoin (i0 :: idx)))).
      { cbn [union_resolve]. unfold umap_getitem. rewrite Q. reflexivity. }
      destruct (entered p _ above k _ _ _ kss _ (NJoin (c0 :: c)) AT K UV T M UR TA AG ltac:(constructor; [exact US|discriminate])) as (p' & EX & AT').
      exists p'. cbn [do_op]. rewrite EX. split; [reflexivity|exact AT'].
  - injection AN as <- <-. destruct k as [x|z|]; [|cbn [element]|destruct K].
    + cbn [element join]. apply GONE; reflexivity.
    + cbn in K. pose proof (find_seq _ _ _ T ss l F 0 z ltac:(lia)) as FS. rewrite Z.sub_0_r in FS. destruct (nth_error (concat_of l) (Z.to_nat z)) as [[s w]|].
      * destruct FS as (i & off & v & UF & Z0 & SV & C). cbn [join].
        destruct (seen_path _ _ _ i _ T SV) as (q & ks & Pq & S' & Kq & G & L & Fi & R). cbn [fst snd] in *.
        destruct (sub_shift s q ks z off G Z0) as (q' & SL & G').
        set (kss' := replace_nth i (ks ++ [KInt (z - off)]) (longer (KInt z) kss)).
        assert (UR : union_resolve E ents (map (pp_append (KInt z)) (up_paths p)) (VUSeq ss) (KInt z) = (replace_nth i q' (map (pp_append (KInt z)) (up_paths p)), Ok (VJoin [i]))).
        { cbn [union_resolve useq_getitem]. rewrite UF, nth_error_map, Pq. cbn [option_map]. now rewrite SL. }
        assert (LI : (i < length (longer (KInt z) kss))%nat).
        { destruct TA as (_ & L2 & _). rewrite L2. apply nth_error_Some. congruence. }
        assert (TA' : tracks (replace_nth i q' (map (pp_append (KInt z)) (up_paths p))) kss' (S (length (up_parts p)))).
        { destruct TA as (L1 & L2 & TT). split; [now rewrite replace_nth_length|]. split; [unfold kss'; now rewrite replace_nth_length|].
          intros j s' p0 ks0 Sj Pj Kj. unfold kss' in Kj. destruct (Nat.eq_dec i j) as [<-|NE].
          - rewrite nth_replace_eq in Kj by exact LI. rewrite nth_replace_eq in Pj by lia. injection Kj as <-. injection Pj as <-. assert (s' = s) as -> by congruence.
            split; [exact G'|]. rewrite app_length. cbn. lia.
          - rewrite nth_replace_neq in Kj by exact NE. rewrite nth_replace_neq in Pj by exact NE. eauto. }
        assert (AG' : agree kss kss' (length (up_parts p))).
        { intros j ks0 K0. destruct (Nat.eq_dec i j) as [<-|NE].
          - assert (ks0 = ks) as -> by congruence. exists (ks ++ [KInt (z - off)]). unfold kss'. split; [now rewrite nth_replace_eq by exact LI|].
            intros d D. rewrite firstn_app. replace (d - length ks)%nat with 0%nat by lia. cbn. apply app_nil_r.
          - destruct (AG j ks0 K0) as (ks1 & K1 & F1). exists ks1. unfold kss'. now rewrite nth_replace_neq by exact NE. }
        assert (SW : sees kss' (S (length (up_parts p))) i (s, w)).
        { exists (ks ++ [KInt (z - off)]). split; [exact S'|]. unfold kss'. split; [now rewrite nth_replace_eq by exact LI|]. cbn [fst snd].
          rewrite firstn_all2 by (rewrite app_length; cbn; lia). rewrite reach_app, R. cbn [reach_val]. now rewrite C. }
        destruct (entered p _ above (KInt z) _ _ _ kss kss' (NJoin [(s, w)]) AT K UV T M UR TA' AG' ltac:(constructor; [repeat constructor; exact SW|discriminate])) as (p' & EX & AT').
        exists p'. cbn [do_op]. rewrite EX. split; [reflexivity|exact AT'].
      * cbn [join]. apply GONE; [|reflexivity]. cbn [union_resolve useq_getitem]. now rewrite FS.
  - discriminate.
Qed.

(** ** Leaving *)
Lemma pop_tracks : forall paths kss n, tracks paths kss (S n) -> exists paths', pop_all paths = (paths', Ok tt) /\ tracks paths' (map (@removelast key) kss) n.
Proof.
  intros paths kss n (L1 & L2 & T).
  assert (A : forall ps ks ss, length ps = length ss -> length ks = length ss ->
    (forall i s p k, nth_error ss i = Some s -> nth_error ps i = Some p -> nth_error ks i = Some k -> sub_ok s p k /\ length k = S n) ->
    exists ps', pop_all ps = (ps', Ok tt) /\ length ps' = length ss /\
      forall i s p k, nth_error ss i = Some s -> nth_error ps' i = Some p -> nth_error (map (@removelast key) ks) i = Some k -> sub_ok s p k /\ length k = n).
  { clear. induction ps as [|p ps IH]; intros [|k ks] [|s ss]; cbn [length pop_all]; intros LA LB T; try discriminate.
    - exists []. split; [reflexivity|]. split; [reflexivity|]. intros i s p k H. now destruct i.
    - destruct (T 0%nat s p k eq_refl eq_refl eq_refl) as [G L]. destruct (exists_last (l := k)) as (k0 & k1 & ->); [intros ->; discriminate|].
      destruct (sub_pop s p k0 k1 G) as (p' & PP & G'). rewrite PP. destruct (IH ks ss ltac:(lia) ltac:(lia) (fun i => T (S i))) as (ps' & PA & LP & T'). rewrite PA.
      exists (p' :: ps'). split; [reflexivity|]. split; [cbn; lia|]. intros [|i]; cbn [nth_error map].
      + intros s0 p0 k2 [= <-] [= <-] [= <-]. rewrite removelast_last. split; [exact G'|]. rewrite app_length in L. cbn in L. lia.
      + intros s0 p0 k2. apply T'. }
  destruct (A paths kss srcs L1 L2 T) as (ps' & PA & LP & T'). exists ps'. split; [exact PA|]. split; [exact LP|]. split; [now rewrite map_length|exact T'].
Qed.
Lemma shorter_agree kss n paths : tracks paths kss (S n) -> agree kss (map (@removelast key) kss) n.
Proof.
  intros (L1 & L2 & T) i ks K. exists (removelast ks). rewrite nth_error_map, K. split; [reflexivity|]. intros d D.
  assert (LI : (i < length srcs)%nat) by (rewrite <- L2; apply nth_error_Some; congruence).
  destruct (nth_error srcs i) as [s|] eqn:S; [|apply nth_error_Some in LI; congruence].
  destruct (nth_error paths i) as [p|] eqn:P; [|apply nth_error_None in P; lia]. destruct (T i s p ks S P K) as [_ L].
  destruct (exists_last (l := ks)) as (k0 & k1 & ->); [intros ->; discriminate|]. rewrite removelast_last. rewrite app_length in L. cbn in L.
  rewrite firstn_app. replace (d - length k0)%nat with 0%nat by lia. cbn. now rewrite app_nil_r.
Qed.
Lemma leave_ok p here n above : at_pos p (here :: n :: above) -> exists p', do_op E ents Leave p = (ODone, p') /\ at_pos p' (n :: above).
Proof.
  intros (S & kss & T & M). destruct (matches_cons _ _ _ _ _ M) as [L C]. rewrite rev_length in L. cbn in L. cbn [do_op]. unfold up_pop.
  destruct (up_parts p) as [|q0 ps0] eqn:PP; [discriminate|]. rewrite <- PP in *. destruct (exists_last (l := up_parts p)) as (ps & q & Q); [rewrite PP; discriminate|].
  rewrite Q in T, M, C |- *. rewrite app_length in T. cbn [length] in T. rewrite Nat.add_1_r in T. destruct (pop_tracks _ _ _ T) as (paths' & PA & T'). rewrite PA. eexists. split; [reflexivity|].
  split; [exact S|]. exists (map (@removelast key) kss). cbn [up_paths up_parts up_root]. rewrite removelast_last. split; [exact T'|].
  rewrite rev_app_distr in C. cbn [rev app] in C. destruct C as (_ & _ & C). eapply matches_agree; [exact (shorter_agree _ _ _ T)|rewrite rev_length; lia|exact C].
Qed.

(** ** Reading *)
Lemma parse_ordinary s t v w : fine s v -> psource_parse E s t v = Ok w -> ordinary w.
Proof.
  intros F. pose proof (fine_ordinary s v F) as O. destruct s as [d al ig loc|d st loc|]; [| |destruct F]; cbn [psource_parse].
  - destruct t; cbn [mixin_parse]; [| | | |congruence]; destruct v; cbn; try discriminate; try (intros [= <-]; exact I).
    + destruct (float_is_integer f); [|discriminate]. intros [= <-]. exact I.
    + destruct (parse_int s); [|discriminate]. intros [= <-]. exact I.
    + destruct (float_of_Z (Z.b2z b)); [|discriminate]. intros [= <-]. exact I.
    + destruct (float_of_Z z); [|discriminate]. intros [= <-]. exact I.
    + destruct (e_float E s); [|discriminate]. intros [= <-]. exact I.
    + repeat match goal with |- context [if ?b then _ else _] => destruct b end; try discriminate; intros [= <-]; exact I.
  - assert (X : forall r : res val, (forall a, r = Ok a -> ordinary a) -> r = Ok w -> ordinary w) by auto.
    destruct t; cbn [json_parse]; [| | | |congruence]; apply X; clear; intros a; unfold json_as_string, json_as_int, json_as_float, json_as_bool, as_string, as_int, as_float, as_bool; intros H;
      repeat match type of H with
      | context [match ?x with _ => _ end] => destruct x; try discriminate
      end; injection H as <-; exact I.
Qed.
Lemma here_root p x n : up_parts p = [] -> forall v kss paths, tracks paths kss 0 -> shows kss 0 v n -> up_src p = u -> x = UPath (up_src p) v [] paths -> at_pos x [n].
Proof. intros P v kss paths T S SU ->. split; [exact SU|]. exists kss. cbn. auto. Qed.
(** Storing what was read *)
Lemma store p here above n v kss paths : at_pos p (here :: above) -> tracks paths kss (length (up_parts p)) -> matches kss (up_root p) (rev (up_parts p)) (here :: above) ->
  shows kss (length (up_parts p)) v n ->
  at_pos (up_set_value v (UPath (up_src p) (up_root p) (up_parts p) paths)) (n :: above).
Proof.
  intros (S & _) T M SH. destruct (matches_cons _ _ _ _ _ M) as [L C]. unfold up_set_value. cbn [up_parts up_src up_root up_paths].
  destruct (up_parts p) as [|q0 ps0] eqn:PP.
  - cbn [rev] in C. destruct C as [_ ->]. split; [exact S|]. exists kss. cbn. auto.
  - rewrite <- PP in *. destruct (exists_last (l := up_parts p)) as (ps & q & Q); [rewrite PP; discriminate|]. rewrite Q in *.
    split; [exact S|]. exists kss. cbn [up_parts up_paths up_root up_src]. unfold set_last_cache. rewrite rev_app_distr in C |- *. cbn [rev app] in C |- *. rewrite rev_involutive.
    rewrite app_length in *. cbn [length] in *. split; [exact T|]. rewrite rev_app_distr. cbn [rev app matches pk pc length]. destruct C as (K & _ & C). split; [exact K|]. split; [|exact C].
    exists v. split; [reflexivity|]. rewrite rev_length. now rewrite Nat.add_1_r in SH.
Qed.
Lemma keep p here above kss paths : at_pos p (here :: above) -> tracks paths kss (length (up_parts p)) -> matches kss (up_root p) (rev (up_parts p)) (here :: above) ->
  at_pos (UPath (up_src p) (up_root p) (up_parts p) paths) (here :: above).
Proof. intros (S & _) T M. split; [exact S|]. exists kss. auto. Qed.
Lemma keys_out kss n paths l ms : tracks paths kss n -> Forall2 (mrel kss n) l ms -> same_out (OKeys (umap_keys l)) (OKeys (flat_map (fun sm => map fst (snd sm)) ms)).
Proof.
  intros T F. assert (Q : flat_map snd l = flat_map (fun sm => map fst (snd sm)) ms /\ Forall simple (flat_map snd l)).
  { induction F as [|[i ks] [s items] l ms [SV KS] F [IH1 IH2]]; cbn [flat_map fst snd] in *; [split; [reflexivity|constructor]|]. subst ks. split; [now rewrite IH1|].
    apply Forall_app. split; [|exact IH2]. destruct (seen_path paths kss n i _ T SV) as (p & ks & _ & _ & _ & G & _ & Fi & R). cbn [fst snd] in *.
    exact (fine_keys s items (proj2 (reach_fold s ks _ _ Fi (gp_plain _ _ _ _ _ _ _ G) R))). }
  destruct Q as [Q S]. rewrite <- Q. unfold umap_keys. constructor; [|apply dedup_distinct]. intros k. now apply in_dedup.
Qed.
Lemma len_out kss n l ss : Forall2 (srel kss n) l ss -> useq_len l = length (concat_of ss).
Proof.
  intros F. unfold useq_len. assert (A : forall z, fold_left Z.add (map snd l) z = z + Z.of_nat (length (concat_of ss))).
  { induction F as [|[i m] [s items] l ss [_ LM] F IH]; intros z; [change (concat_of []) with (@nil (psource * val)); cbn [map fold_left length]; lia|].
    change (concat_of ((s, items) :: ss)) with (map (pair s) items ++ concat_of ss). cbn [map snd fst fold_left] in *. rewrite IH, app_length, map_length, Nat2Z.inj_add. clear -LM. subst m. ring. }
  rewrite A. lia.
Qed.
Lemma op_ok p pos o x pos' : at_pos p pos -> plain_op o -> answer E u o pos = Some (x, pos') ->
  exists y p', do_op E ents o p = (y, p') /\ same_out y x /\ at_pos p' pos'.
Proof.
  intros AT PO AN. destruct pos as [|here above]; [discriminate|].
  destruct o as [k| | | | | |t].
  - destruct (enter_ok p here above k x pos' AT PO AN) as (p' & D & AT'). exists x, p'. split; [exact D|]. split; [|exact AT']. constructor. intros l ->.
    cbn [answer] in AN. destruct here; discriminate.
  - cbn [answer] in AN. destruct above as [|n above]; [discriminate|]. injection AN as <- <-. destruct (leave_ok p here n above AT) as (p' & D & AT'). exists ODone, p'. split; [exact D|]. split; [|exact AT']. now constructor.
  - destruct (value_here p here above AT) as (v & kss & UV & T & M & SH & LA & SU). cbn [answer] in AN. injection AN as <- <-. cbn [do_op]. unfold up_exists. rewrite UV. eexists _, p. split; [reflexivity|]. split; [|exact AT].
    destruct SH; cbn [out_of is_NONE negb]; now constructor.
  - destruct (value_here p here above AT) as (v & kss & UV & T & M & SH & LA & SU). cbn [answer] in AN. injection AN as <- <-. cbn [do_op]. unfold up_is_null. rewrite UV. eexists _, p. split; [reflexivity|]. split; [|exact AT].
    destruct SH as [|idx c F NE|ms l F|ss l F|w O]; cbn [out_of].
    + now constructor.
    + now constructor.
    + destruct F; now constructor.
    + destruct F; now constructor.
    + destruct w; try destruct O; now constructor.
  - destruct (value_here p here above AT) as (v & kss & UV & T & M & SH & LA & SU). cbn [answer] in AN. cbn [do_op]. unfold up_mapping. rewrite UV.
    destruct SH as [|idx c F NE|ms l F|ss l F|w O].
    + injection AN as <- <-. eexists _, p. split; [reflexivity|]. split; [now constructor|exact AT].
    + rewrite SU. assert (LI : length idx = length c) by (clear -F; induction F; cbn; congruence).
      destruct (umap_make_spec kss _ idx c (up_paths p) None _ F T (map_rule_of idx c LI)) as (paths' & T' & R).
      destruct (merge_maps (map_rule u c) c) as [ms|e].
      * injection AN as <- <-. destruct R as (l & R & FR). rewrite R. eexists _, _. split; [reflexivity|]. split; [exact (keys_out _ _ _ _ _ T FR)|]. cbn [up_parts up_src up_root].
        rewrite <- SU. eapply store; [exact AT|exact T'|exact M|]. now constructor.
      * injection AN as <- <-. rewrite R. eexists _, _. split; [reflexivity|]. split; [now constructor|]. cbn [up_parts up_src up_root]. rewrite <- SU. eapply keep; eauto.
    + injection AN as <- <-. eexists _, p. split; [reflexivity|]. split; [exact (keys_out _ _ _ _ _ T F)|exact AT].
    + injection AN as <- <-. eexists _, p. split; [reflexivity|]. split; [now constructor|exact AT].
    + injection AN as <- <-. exists (OErr (ESource NotMapping)), p. split; [destruct w; try destruct O; reflexivity|]. split; [now constructor|exact AT].
  - destruct (value_here p here above AT) as (v & kss & UV & T & M & SH & LA & SU). cbn [answer] in AN. cbn [do_op]. unfold up_sequence. rewrite UV.
    destruct SH as [|idx c F NE|ms l F|ss l F|w O].
    + injection AN as <- <-. eexists _, p. split; [reflexivity|]. split; [now constructor|exact AT].
    + rewrite SU. destruct (useq_make_spec kss _ idx c (up_paths p) F T) as (paths' & T' & R). rewrite LA in AN.
      destruct (merge_seqs (seq_rule u (length (up_parts p))) c) as [ss|e].
      * injection AN as <- <-. destruct R as (l & R & FR). rewrite R. eexists _, _. split; [reflexivity|]. split; [cbn [out_of]; rewrite (len_out _ _ _ _ FR); now constructor|]. cbn [up_parts up_src up_root].
        rewrite <- SU. eapply store; [exact AT|exact T'|exact M|]. now constructor.
      * injection AN as <- <-. rewrite R. eexists _, _. split; [reflexivity|]. split; [now constructor|]. cbn [up_parts up_src up_root]. rewrite <- SU. eapply keep; eauto.
    + injection AN as <- <-. eexists _, p. split; [reflexivity|]. split; [now constructor|exact AT].
    + injection AN as <- <-. eexists _, p. split; [reflexivity|]. split; [cbn [out_of]; rewrite (len_out _ _ _ _ F); now constructor|exact AT].
    + injection AN as <- <-. exists (OErr (ESource NotSequence)), p. split; [destruct w; try destruct O; reflexivity|]. split; [now constructor|exact AT].
  - destruct (value_here p here above AT) as (v & kss & UV & T & M & SH & LA & SU). cbn [answer] in AN. cbn [do_op]. unfold up_primitive. rewrite UV.
    destruct SH as [|idx c F NE|ms l F|ss l F|w O].
    + injection AN as <- <-. eexists _, p. split; [reflexivity|]. split; [now constructor|exact AT].
    + destruct F as [|i [s v] idx c S F]; [congruence|]. destruct (seen_path _ _ _ i _ T S) as (q & ks & P & S' & K & G & L & Fi & R). cbn [fst snd] in *. rewrite P.
      destruct (sub_primitive s q ks v t Fi G R) as (q' & PP & G'). rewrite PP. pose proof (tracks_replace _ _ _ _ _ _ _ T S' K G') as T'.
      destruct (psource_parse E s t v) as [w|e] eqn:PS.
      * injection AN as <- <-. pose proof (proj2 (reach_fold s ks _ _ Fi (gp_plain _ _ _ _ _ _ _ G) R)) as Fv. pose proof (parse_ordinary s t v w Fv PS) as OW.
        exists (OVal w). eexists. split; [cbn [out_of]; destruct w; try destruct OW; reflexivity|]. split; [now constructor|]. cbn [up_parts up_src up_root].
        eapply store; [exact AT|exact T'|exact M|]. now constructor.
      * injection AN as <- <-. eexists _, _. split; [reflexivity|]. split; [now constructor|]. eapply keep; eauto.
    + injection AN as <- <-. eexists _, p. split; [reflexivity|]. split; [now constructor|exact AT].
    + injection AN as <- <-. eexists _, p. split; [reflexivity|]. split; [now constructor|exact AT].
    + injection AN as <- <-. exists (OVal w), p. split; [destruct w; try destruct O; reflexivity|]. split; [now constructor|exact AT].
Qed.
Lemma ops_ok : forall os p pos xs pos', at_pos p pos -> Forall plain_op os -> answers E u os pos = Some (xs, pos') ->
  exists ys p', do_ops E ents os p = (ys, p') /\ Forall2 same_out ys xs /\ at_pos p' pos'.
Proof.
  induction os as [|o os IH]; intros p pos xs pos' AT PO AN; cbn [answers do_ops] in *.
  - injection AN as <- <-. exists [], p. auto.
  - inversion PO as [|? ? P1 P2]; subst. destruct (answer E u o pos) as [[x pos1]|] eqn:A1; [|discriminate]. destruct (answers E u os pos1) as [[l pos2]|] eqn:A2; [|discriminate]. injection AN as <- <-.
    destruct (op_ok p pos o x pos1 AT P1 A1) as (y & p1 & D & SO & AT1). rewrite D. destruct (IH p1 pos1 l pos2 AT1 P2 A2) as (ys & p2 & DS & F & AT2). rewrite DS. exists (y :: ys), p2. auto.
Qed.

(** ** The root *)
Lemma sub_paths_plain l : Forall (plain_src E) l -> sub_paths l = Ok (map (fun s => Source.PPath s (data_of s) []) l).
Proof.
  induction 1 as [|s l PS F IH]; cbn [sub_paths map]; [reflexivity|].
  assert (psource_path s = Ok (Source.PPath s (data_of s) [])) as -> by (destruct PS; reflexivity). now rewrite IH.
Qed.
Lemma start_ok pos : Forall (plain_src E) srcs -> start u = Some pos -> exists p, usource_path E ents u = Ok p /\ at_pos p pos.
Proof.
  intros PS ST. unfold start in ST. fold srcs in ST. unfold usource_path. fold srcs. rewrite (sub_paths_plain _ PS).
  set (paths := map (fun s => Source.PPath s (data_of s) []) srcs). set (kss := map (fun _ : psource => @nil key) srcs).
  assert (T : tracks paths kss 0).
  { split; [unfold paths; now rewrite map_length|]. split; [unfold kss; now rewrite map_length|]. intros i s p ks S P K. unfold paths in P. unfold kss in K. rewrite nth_error_map, S in P, K. cbn in P, K. injection P as <-. injection K as <-.
    split; [|reflexivity]. split; cbn; auto. intros pre q post v Q. destruct pre; discriminate. }
  assert (F : Forall2 (sees kss 0) (seq 0 (length srcs)) (map (fun s => (s, data_of s)) srcs)).
  { assert (A : forall l pre, srcs = pre ++ l -> Forall2 (sees kss 0) (seq (length pre) (length l)) (map (fun s => (s, data_of s)) l)).
    { induction l as [|s l IH]; intros pre Q; cbn [length seq map]; [constructor|]. constructor.
      - exists []. cbn [fst snd firstn reach_val]. assert (N : nth_error srcs (length pre) = Some s) by (rewrite Q, nth_error_app2, Nat.sub_diag by lia; reflexivity). split; [exact N|].
        split; [unfold kss; now rewrite nth_error_map, N|reflexivity].
      - specialize (IH (pre ++ [s])). rewrite app_length in IH. cbn [length] in IH. rewrite Nat.add_1_r in IH. apply IH. now rewrite <- app_assoc. }
    exact (A srcs [] eq_refl). }
  assert (LP : length paths = length srcs) by (unfold paths; apply map_length). rewrite LP.
  destruct (umap_make_spec kss 0 _ _ paths (Some MCombine) MCombine F T eq_refl) as (paths' & T' & R). unfold merge_maps in R. cbn [open_maps] in R.
  destruct srcs as [|s0 l0] eqn:Q; [discriminate|]. rewrite <- Q in *. destruct (shaped (fun _ => dict_of) (map (fun s => (s, data_of s)) srcs)) as [ms|] eqn:SM; [|discriminate].
  injection ST as <-. destruct R as (l & R & FR). rewrite R. assert (NE : paths' <> []) by (destruct T' as (L & _); intros ->; rewrite Q in L; discriminate).
  destruct paths' as [|p0 ps0]; [congruence|]. eexists. split; [reflexivity|]. split; [reflexivity|]. exists kss. cbn [up_paths up_parts up_root length rev matches]. split; [exact T'|]. now constructor.
Qed.
End Union.

Lemma union_lem E ents u os pos xs pos' : Forall (plain_src E) (us_srcs u) ->
  start u = Some pos -> Forall plain_op os -> answers E u os pos = Some (xs, pos') ->
  exists p ys p', usource_path E ents u = Ok p /\ do_ops E ents os p = (ys, p') /\ Forall2 same_out ys xs.
Proof.
  intros PS ST PO AN.
  assert (FINE : Forall (fun s => fine E s (data_of s)) (us_srcs u)) by (eapply Forall_impl; [|exact PS]; intros s; apply plain_fine).
  destruct (start_ok E ents u FINE pos PS ST) as (p & UP & AT).
  destruct (ops_ok E ents u FINE os p pos xs pos' AT PO AN) as (ys & p' & D & F & _). exists p, ys, p'. auto.
Qed.
