(** * JoinTree: unions of JSON documents read by forms within forms (C103). *)
From Verif Require Import PyBase PyStr Source Field Context Fields SpecSrc Eval SpecUnion SrcPath Shape SpecField SpecForm UnionProofs SpecJoin DataRegime JoinProofs JoinLemmas JoinDeep.
From Coq Require Import Lia.

(** ** What JSON has does not depend on the forms there are *)
Lemma json_fold_any E e e' d st loc : forall ks v, (json_val v = true \/ v = VConst NONE) -> Forall one_key ks ->
  fold_r E e (SJson d st loc) v ks = fold_r E e' (SJson d st loc) v ks.
Proof.
  induction ks as [|k ks IH]; intros v J K; cbn [fold_r]; [reflexivity|]. inversion K as [|? ? K1 K2]; subst.
  change (psource_resolve E e (SJson d st loc) [] v k) with (json_resolve E e v k). change (psource_resolve E e' (SJson d st loc) [] v k) with (json_resolve E e' v k).
  destruct J as [J|J].
  - destruct (json_resolve_steps E e v k J (one_plain k K1)) as [R1 J']. destruct (json_resolve_steps E e' v k J (one_plain k K1)) as [R2 _]. rewrite R1, R2.
    destruct (json_steps v (key_steps k)) as [w|] eqn:Q; cbn [none_or]; apply IH; auto.
  - subst v. assert (R : json_resolve E e (VConst NONE) k = json_resolve E e' (VConst NONE) k /\ forall w, json_resolve E e' (VConst NONE) k = Ok w -> w = VConst NONE).
    { unfold json_resolve. destruct k as [s|z|x]; [|split; [reflexivity|cbn; intros w [= <-]; reflexivity]|contradiction].
      destruct K1 as [K0 K1]. assert (has_char dot s = false) as -> by (destruct (has_char dot s) eqn:Q; [congruence|reflexivity]). split; [reflexivity|]. cbn. intros w [= <-]. reflexivity. }
    destruct R as [-> R]. destruct (json_resolve E e' (VConst NONE) k) as [w|x]; [|reflexivity]. apply IH; auto.
Qed.
Lemma json_sub_any E e e' d st loc p ks : json_val d = true -> sub_ok E e (SJson d st loc) p ks -> sub_ok E e' (SJson d st loc) p ks.
Proof.
  intros J [Gs Gr Gk Gp Gc]. split; auto. intros pre q post v Q V. rewrite <- (json_fold_any E e e' d st loc); [exact (Gc pre q post v Q V)|left; exact J|].
  unfold pp_keys in Gk. rewrite Q in Gk. rewrite map_app in Gk. cbn [map] in Gk. rewrite <- Gk in Gp. apply Forall_app in Gp. destruct Gp as [G1 G2]. inversion G2; subst. apply Forall_app. auto.
Qed.

(** Neither does what Python data has *)
Definition steady (E : env) (s : psource) : Prop := forall e e' p ks, sub_ok E e s p ks -> sub_ok E e' s p ks.
Section Native.
Variables (E : env) (P : val -> Prop) (d : val) (loc : option string).
Hypothesis PN : plain_native E P.
Hypothesis SE : sentinel_ok E P.
Lemma none_any e e' k : one_key k -> psource_resolve E e (SDefault d [] [] loc) [] (VConst NONE) k = psource_resolve E e' (SDefault d [] [] loc) [] (VConst NONE) k /\
  forall w, psource_resolve E e' (SDefault d [] [] loc) [] (VConst NONE) k = Ok w -> w = VConst NONE \/ P w.
Proof.
  intros K. assert (S1 : forall e k, default_resolve1 E e [] [] [] (VConst NONE) k = Ok (as_attr E (VConst NONE) k)) by (intros e0 [x|z|v]; reflexivity).
  assert (AT : forall k, as_attr E (VConst NONE) k = VConst NONE \/ P (as_attr E (VConst NONE) k)).
  { intros [x|z|v]; cbn [as_attr py_getattr]; auto. destruct (String.eqb x "name"); [right; exact (proj1 SE)|]. destruct (e_attr E (VConst NONE) x) as [v|] eqn:A; [right; exact (proj2 SE _ _ A)|auto]. }
  cbn [psource_resolve]. destruct k as [x|z|v]; [|cbn [default_resolve]; rewrite !S1; split; [reflexivity|]; intros w [= <-]; auto|destruct K].
  destruct K as [K1 K2]. assert (R : forall n e, default_resolve n E e [] [] [] (VConst NONE) (KStr x) = Ok (as_attr E (VConst NONE) (KStr x))).
  { intros n e0. destruct n; cbn [default_resolve]; rewrite K1, S1, (split_no_dot x K2); cbn [walk_atoms]; rewrite S1; (destruct (is_NONE (as_attr E (VConst NONE) (KStr x))) eqn:N; [|reflexivity]); reflexivity. }
  rewrite !R. split; [reflexivity|]. intros w [= <-]. exact (AT (KStr x)).
Qed.
Lemma native_fold_any e e' : forall ks v, (v = VConst NONE \/ P v) -> Forall one_key ks ->
  fold_r E e (SDefault d [] [] loc) v ks = fold_r E e' (SDefault d [] [] loc) v ks.
Proof.
  induction ks as [|k ks IH]; intros v J K; cbn [fold_r]; [reflexivity|]. inversion K as [|? ? K1 K2]; subst.
  assert (S : psource_resolve E e (SDefault d [] [] loc) [] v k = psource_resolve E e' (SDefault d [] [] loc) [] v k /\ forall w, psource_resolve E e' (SDefault d [] [] loc) [] v k = Ok w -> w = VConst NONE \/ P w).
  { destruct J as [->|Pv]; [now apply none_any|]. cbn [psource_resolve]. set (n := match k with KStr s => String.length s | _ => O end).
    destruct (resolve_ents E P PN e n v k Pv (one_plain k K1)) as [A B]. destruct (resolve_ents E P PN e' n v k Pv (one_plain k K1)) as [A' B']. rewrite A, A'. split; [reflexivity|]. exact B'. }
  destruct S as [-> S]. destruct (psource_resolve E e' (SDefault d [] [] loc) [] v k) as [w|x]; [|reflexivity]. apply IH; [apply S; reflexivity|exact K2].
Qed.
Lemma native_steady : P d -> steady E (SDefault d [] [] loc).
Proof.
  intros Pd e e' p ks [Gs Gr Gk Gp Gc]. split; auto. intros pre q post v Q V. rewrite <- (native_fold_any e e'); [exact (Gc pre q post v Q V)|right; exact Pd|].
  unfold pp_keys in Gk. rewrite Q in Gk. rewrite map_app in Gk. cbn [map] in Gk. rewrite <- Gk in Gp. apply Forall_app in Gp. destruct Gp as [G1 G2]. inversion G2; subst. apply Forall_app. auto.
Qed.
End Native.
Lemma json_steady E d st loc : json_val d = true -> steady E (SJson d st loc).
Proof. intros J e e' p ks. exact (json_sub_any E e e' d st loc p ks J). Qed.
(** ** Where the union and the document stand together: what the union has open, and the dict
    the document has there *)
Inductive place := { pl_ms : list (psource * list (val * val)); pl_above : position; pl_keys : list key; pl_one : list (val * val); pl_up : option place }.
Section Deep.
Variables (E : env) (Q : list (val * val) -> string -> option val -> Prop) (strict : option bool) (docs : list (list (val * val))) (one : list (val * val)) (u : usource).
Hypothesis SRCS : us_srcs u = map (doc_of strict) docs.
Hypothesis SOME : docs <> [].
Hypothesis JD : Forall (fun d => plain_src E (doc_of strict d)) docs.
Hypothesis JO : plain_src E (doc_of strict one).
Hypothesis AD : Forall (fun d => steady E (doc_of strict d)) docs.
Hypothesis AO : steady E (doc_of strict one).
Hypothesis QN : forall d k, Q d k None -> strict = None -> e_attr E (VDict d) k = None.
Hypothesis QV : forall d k v, Q d k (Some v) -> fine E (doc_of strict one) v -> undated v.
Let src := doc_of strict one.
Lemma deep_plain : Forall (plain_src E) (us_srcs u).
Proof. rewrite SRCS. apply Forall_map. exact JD. Qed.
Lemma deep_fine : Forall (fun s => fine E s (data_of s)) (us_srcs u).
Proof. eapply Forall_impl; [|exact deep_plain]. intros s. apply plain_fine. Qed.
Lemma deep_src : fine E src (data_of src). Proof. exact (plain_fine E src JO). Qed.
Lemma deep_data : data_of src = VDict one. Proof. apply doc_data. Qed.
Lemma deep_srcv : fine E src (VDict one). Proof. rewrite <- deep_data. exact deep_src. Qed.
Lemma pos_any e e' p l : at_pos E e u p l -> at_pos E e' u p l.
Proof.
  intros (S & kss & (A & B & C) & M). split; [exact S|]. exists kss. split; [|exact M]. split; [exact A|]. split; [exact B|].
  intros i s q ks N1 N2 N3. destruct (C i s q ks N1 N2 N3) as [G L]. split; [|exact L].
  assert (IS : In s (us_srcs u)) by (eapply nth_error_In; exact N1). rewrite SRCS in IS. apply in_map_iff in IS. destruct IS as (d & <- & ID).
  rewrite Forall_forall in AD. exact (AD d ID e e' _ _ G).
Qed.
Lemma src_any e e' b ks : sub_ok E e src b ks -> sub_ok E e' src b ks.
Proof. exact (AO e e' b ks). Qed.

Definition from_json (ms : list (psource * list (val * val))) : Prop := Forall (fun sm => exists d, fst sm = doc_of strict d) ms.
Inductive good (x : place) : Prop := {
  gd_keys : Forall one_key (pl_keys x);
  gd_one : reach_val src (VDict one) (pl_keys x) = Some (VDict (pl_one x));
  gd_json : from_json (pl_ms x);
  gd_up : forall y, pl_up x = Some y -> good y
}.
Lemma gd_at x : good x -> reach_val src (data_of src) (pl_keys x) = Some (VDict (pl_one x)).
Proof. rewrite deep_data. apply gd_one. Qed.
(** At a location with the keys [ks], where the union has [l] *)
Definition stand (l : position) (ks : list key) : path -> path -> Prop := fun p q =>
  exists a b, p = PBase (BU a) /\ q = PBase (BP b) /\ (forall e, at_pos E e u a l) /\ up_keys a = ks /\ (forall e, sub_ok E e src b ks).
Definition dtop (x : place) (p q : path) : Prop := good x /\ stand (NMap (pl_ms x) :: pl_above x) (pl_keys x) p q.
Definition dreads (x : place) (k : string) : Prop := one_key (KStr k) /\
  match under (KStr k) (pl_ms x) with [] => dict_get (pl_one x) (VStr k) = None /\ Q (pl_one x) k None | (_, v) :: _ => v <> VNone /\ dict_get (pl_one x) (VStr k) = Some v /\ Q (pl_one x) k (Some v) end.
Definition dsubs (x : place) (k : string) : Prop := one_key (KStr k) /\
  match under (KStr k) (pl_ms x) with
  | [] => dict_get (pl_one x) (VStr k) = None /\ Q (pl_one x) k None
  | c => exists ms' d', merge_maps (map_rule u c) c = Ok ms' /\ dict_get (pl_one x) (VStr k) = Some (VDict d')
  end.
Definition dpresent (x : place) (k : string) : Prop := under (KStr k) (pl_ms x) <> [].
Definition dflats (x : place) : Prop := pl_ms x <> [].
Definition dnames (x : place) (ks : list string) : Prop := same_keys (pl_ms x) (pl_one x) ks.
Definition ddown (x : place) (k : string) : place :=
  {| pl_ms := match merge_maps (map_rule u (under (KStr k) (pl_ms x))) (under (KStr k) (pl_ms x)) with Ok ms' => ms' | Exn _ => [] end;
     pl_above := NMap (pl_ms x) :: pl_above x;
     pl_keys := pl_keys x ++ [KStr k];
     pl_one := match dict_get (pl_one x) (VStr k) with Some (VDict d) => d | _ => [] end;
     pl_up := Some x |}.
Definition below_at (x : place) (k : string) (n : node -> Prop) : phase := fun _ p q =>
  good x /\ one_key (KStr k) /\ exists y, n y /\ stand (y :: NMap (pl_ms x) :: pl_above x) (pl_keys x ++ [KStr k]) p q.
Definition dstarted (x : place) (k : string) : phase := fun _ p q => dreads x k /\ exists p0 q0, dtop x p0 q0 /\ p = p_append (KStr k) p0 /\ q = p_append (KStr k) q0.
Definition dfresh (x : place) (k : string) : phase := below_at x k (fun y => exists d v rest, y = NJoin ((doc_of strict d, v) :: rest) /\ v <> VNone /\ undated v /\ dict_get (pl_one x) (VStr k) = Some v).
Definition ddone (x : place) (k : string) : phase := below_at x k (fun _ => True).
Definition dsstarted (x : place) (k : string) : phase := fun _ p q => dsubs x k /\ exists p0 q0, dtop x p0 q0 /\ p = p_append (KStr k) p0 /\ q = p_append (KStr k) q0.
Definition dsfresh (x : place) (k : string) : phase := fun e p q =>
  dsubs x k /\ dpresent x k /\ below_at x k (fun y => y = NJoin (under (KStr k) (pl_ms x))) e p q.

Lemma under_json k ms : from_json ms -> Forall (fun c : psource * val => exists d, fst c = doc_of strict d) (under k ms).
Proof.
  unfold under. induction 1 as [|sm ms J F IH]; cbn [flat_map]; [constructor|]. apply Forall_app. split; [|exact IH]. destruct (dict_get (snd sm) (val_of_key k)); repeat constructor. exact J.
Qed.
Lemma shaped_json c ms : Forall (fun c : psource * val => exists d, fst c = doc_of strict d) c -> shaped (fun _ => dict_of) c = Some ms -> from_json ms.
Proof.
  intros F. revert ms. induction F as [|[s v] c J F IH]; cbn [shaped]; intros ms; [intros [= <-]; constructor|]. destruct (is_null v); [apply IH|].
  destruct (dict_of v) as [l|]; [|discriminate]. destruct (shaped (fun _ => dict_of) c) as [r|]; [|discriminate]. intros [= <-]. constructor; [exact J|]. now apply IH.
Qed.
Lemma last_in {A} (P : A -> Prop) l : Forall P l -> Forall P (last_of l).
Proof. intros F. unfold last_of. apply Forall_rev in F. destruct (rev l); [constructor|]. inversion F; subst. repeat constructor. assumption. Qed.
Lemma merge_json m c ms : Forall (fun c : psource * val => exists d, fst c = doc_of strict d) c -> merge_maps m c = Ok ms -> from_json ms.
Proof.
  intros F. assert (F1 : Forall (fun c : psource * val => exists d, fst c = doc_of strict d) (first_of c)) by (destruct F; cbn; repeat constructor; assumption).
  unfold merge_maps. destruct m; cbn [open_maps]; try discriminate.
  all: try (destruct (shaped (fun _ => dict_of) c) as [r|] eqn:Hq; cbn [option_map]; [|discriminate]; intros [= <-]; try apply last_in; exact (shaped_json _ _ F Hq)).
  destruct (shaped (fun _ => dict_of) (first_of c)) as [r|] eqn:Hq; [|discriminate]. intros [= <-]. exact (shaped_json _ _ F1 Hq).
Qed.
Lemma down_good x k : good x -> dsubs x k -> dpresent x k -> good (ddown x k) /\ merge_maps (map_rule u (under (KStr k) (pl_ms x))) (under (KStr k) (pl_ms x)) = Ok (pl_ms (ddown x k)) /\
  dict_get (pl_one x) (VStr k) = Some (VDict (pl_one (ddown x k))).
Proof.
  intros [G1 G2 G3 G4] [K H] P. unfold dpresent in P. pose proof (under_json (KStr k) _ G3) as UJ. cbn [ddown pl_ms pl_one]. destruct (under (KStr k) (pl_ms x)) as [|c0 c1] eqn:Hq; [congruence|].
  destruct H as (ms' & d' & M & D). rewrite M, D. split; [|split; reflexivity]. split; cbn [ddown pl_ms pl_keys pl_one pl_up].
  - apply Forall_app. auto.
  - rewrite reach_app, G2. cbn [reach_val child val_of_key]. now rewrite D.
  - rewrite Hq, M. exact (merge_json _ _ _ UJ M).
  - intros y [= <-]. split; assumption.
Qed.

(** The document at a key of one of its dicts *)
Lemma doc_value e b ks d k : Forall one_key ks -> reach_val src (VDict one) ks = Some (VDict d) -> one_key (KStr k) -> (dict_get d (VStr k) = None -> Q d k None) -> sub_ok E e src b (ks ++ [KStr k]) ->
  exists b', pp_value E e b = (b', Ok (none_or (dict_get d (VStr k)))) /\ sub_ok E e src b' (ks ++ [KStr k]).
Proof.
  intros KS R K QD G. pose proof deep_src as DS. pose proof deep_data as DD. rewrite DD in DS. destruct (reach_fold E e src ks _ _ DS KS R) as [FR FD].
  assert (IN : inside_ok E e src (data_of src) (ks ++ [KStr k])).
  { intros pre x post Hq NE FN. destruct (exists_last (l := x :: post) ltac:(discriminate)) as (l & y & L). rewrite L, app_assoc in Hq. apply app_inj_tail in Hq. destruct Hq as [Hq _]. subst ks.
    rewrite reach_app in R. apply Forall_app in KS. rewrite DD in FN. destruct (reach_val src (VDict one) pre) as [w|] eqn:RX; [|discriminate].
    destruct (reach_fold E e src pre _ _ DS (proj1 KS) RX) as [FX Fx]. rewrite FX in FN. injection FN as ->. apply fine_some in Fx. discriminate. }
  destruct (pp_value_spec E e src (data_of src) (resolve_ind E e src _ deep_src) one_key one_plain b _ G (or_intror IN)) as [A B].
  destruct (pp_value E e b) as [b' r]. cbn [fst snd] in *. exists b'. split; [|exact B]. rewrite A, DD. f_equal. rewrite fold_r_app, FR. cbn [fold_r].
  destruct (dict_get d (VStr k)) as [v|] eqn:D.
  - rewrite (proj1 (child_resolve E e src (VDict d) (KStr k) v FD K D)). reflexivity.
  - cbn [none_or]. assert (RS : psource_resolve E e src [] (VDict d) (KStr k) = psource_resolve E e (doc_of strict d) [] (VDict d) (KStr k)) by (unfold src; destruct strict; reflexivity).
    assert (FD' : fine E (doc_of strict d) (VDict d)) by (unfold src in FD; destruct strict; exact FD).
    rewrite RS, (gone_resolve E e strict d k FD' K D); [reflexivity|]. exact (QN d k (QD eq_refl)).
Qed.
Lemma json_undated x k v : good x -> one_key (KStr k) -> dict_get (pl_one x) (VStr k) = Some v -> Q (pl_one x) k (Some v) -> undated v /\ is_NONE v = false.
Proof.
  intros [G1 G2 G3 G4] K D QD. pose proof deep_src as DS. rewrite deep_data in DS. destruct (reach_fold E (fun _ => []) src (pl_keys x ++ [KStr k]) (VDict one) v) as [_ F]; [exact DS|apply Forall_app; auto|rewrite reach_app, G2; cbn [reach_val child val_of_key]; now rewrite D|].
  split; [exact (QV _ _ _ QD F)|exact (fine_some E src v F)].
Qed.
Lemma stand_any e l ks a b : (forall e, at_pos E e u a l) -> up_keys a = ks -> sub_ok E e src b ks -> stand l ks (PBase (BU a)) (PBase (BP b)).
Proof. intros AT UK S. exists a, b. split; [reflexivity|]. split; [reflexivity|]. split; [exact AT|]. split; [exact UK|]. intros e'. exact (src_any e e' _ _ S). Qed.
(** Entering a key *)
Lemma stand_enter x k e p q : dtop x p q -> one_key (KStr k) -> (dict_get (pl_one x) (VStr k) = None -> Q (pl_one x) k None) ->
  exists p' q', p_exists E e (p_append (KStr k) p) = (p', Ok match under (KStr k) (pl_ms x) with [] => false | _ => true end) /\
    p_exists E e (p_append (KStr k) q) = (q', Ok (negb (is_NONE (none_or (dict_get (pl_one x) (VStr k)))))) /\
    stand (join (under (KStr k) (pl_ms x)) :: NMap (pl_ms x) :: pl_above x) (pl_keys x ++ [KStr k]) p' q'.
Proof.
  intros ([G1 G2 G3 G4] & a & b & -> & -> & AT & UK & SB) K QD.
  pose proof (sub_append E e src b _ (KStr k) (SB e) K) as S1. destruct (doc_value e _ _ _ k G1 G2 K QD S1) as (b' & V & S2).
  assert (AN : answer E u (Enter (KStr k)) (NMap (pl_ms x) :: pl_above x) = Some (OBool match join (under (KStr k) (pl_ms x)) with NGone => false | _ => true end, join (under (KStr k) (pl_ms x)) :: NMap (pl_ms x) :: pl_above x)) by reflexivity.
  destruct (enter_ok E e u deep_fine a (NMap (pl_ms x)) _ (KStr k) _ _ (AT e) K AN) as (a' & D & AT'). cbn [do_op] in D.
  pose proof (ureads_exists E e (up_append (KStr k) a)) as [UK' _]. destruct (up_exists E e (up_append (KStr k) a)) as [a'' r] eqn:UE. injection D as D ->. cbn [fst] in UK'.
  cbn [p_exists p_append bp_append bp_exists on_bp]. unfold pp_exists. rewrite UE, V. exists (PBase (BU a')), (PBase (BP b')). destruct r as [r|]; [|discriminate]. cbn [out_of] in D. injection D as ->.
  split; [destruct (under (KStr k) (pl_ms x)); reflexivity|]. split; [reflexivity|].
  exists a', b'. split; [reflexivity|]. split; [reflexivity|]. split; [intros e'; exact (pos_any e e' a' _ AT')|]. split; [|intros e'; exact (src_any e e' _ _ S2)].
  rewrite UK'. unfold up_keys, up_append in *. cbn. rewrite map_app. cbn. now rewrite UK.
Qed.
Lemma stand_leave y n above ks k p q : stand (y :: n :: above) (ks ++ [k]) p q -> exists p' q', p_pop p = (p', Ok tt) /\ p_pop q = (q', Ok tt) /\ stand (n :: above) ks p' q'.
Proof.
  intros (a & b & -> & -> & AT & UK & SB). set (e := (fun _ => []) : entries_of). destruct (leave_ok E e u a y n above (AT e)) as (a' & D & AT'). cbn [do_op] in D.
  destruct (up_pop a) as [a'' r] eqn:UP. injection D as D ->. destruct (sub_pop E e src b ks k (SB e)) as (b' & BP' & G'). exists (PBase (BU a')), (PBase (BP b')). cbn [p_pop bp_pop on_bp].
  rewrite UP, BP'. destruct r as [[]|]; [|discriminate]. split; [reflexivity|]. split; [reflexivity|]. exists a', b'. split; [reflexivity|]. split; [reflexivity|].
  split; [intros e'; exact (pos_any e e' a' _ AT')|]. split; [|intros e'; exact (src_any e e' _ _ G')].
  unfold up_pop in UP. destruct (up_parts a) as [|q0 ps0] eqn:PP; [discriminate|]. rewrite <- PP in UP. destruct (pop_all (up_paths a)) as [paths' r'].
  assert (UA : up_parts a' = removelast (up_parts a)) by (injection UP; intros _ <-; reflexivity). unfold up_keys in *. rewrite UA.
  destruct (exists_last (l := up_parts a)) as (ps & z & Hq); [rewrite PP; discriminate|]. rewrite Hq in *. rewrite removelast_last. rewrite map_app in UK. cbn in UK. apply app_inj_tail in UK. exact (proj1 UK).
Qed.
Lemma stand_str l ks p q : stand l ks p q -> p_str E p = p_str E q.
Proof.
  intros (a & b & -> & -> & AT & UK & SB). set (e := (fun _ => []) : entries_of). specialize (SB e). cbn [p_str bp_str]. unfold pp_str, pkeys_str. rewrite UK, (gp_keys _ _ _ _ _ _ _ SB), (gp_src _ _ _ _ _ _ _ SB).
  unfold src. destruct strict; cbn [doc_of json_doc native_doc psource_prefix]; destruct (keys_str E ks); reflexivity.
Qed.
Lemma from_join ms k s v rest : from_json ms -> under (KStr k) ms = (s, v) :: rest -> exists d, s = doc_of strict d.
Proof. intros J Hq. pose proof (under_json (KStr k) ms J) as U. rewrite Hq in U. inversion U as [|? ? X _]; subst. exact X. Qed.
Lemma reads_gone x k : dreads x k -> dict_get (pl_one x) (VStr k) = None -> Q (pl_one x) k None.
Proof. intros [_ H] D. destruct (under (KStr k) (pl_ms x)) as [|[s v] c]; [exact (proj2 H)|]. destruct H as (_ & D' & _). congruence. Qed.
Lemma subs_gone x k : dsubs x k -> dict_get (pl_one x) (VStr k) = None -> Q (pl_one x) k None.
Proof. intros [_ H] D. destruct (under (KStr k) (pl_ms x)) as [|c0 c]; [exact (proj2 H)|]. destruct H as (_ & d' & _ & D'). congruence. Qed.
Lemma place_alike W x : w_env W = E -> alike W (dtop x) (dstarted x) (dfresh x) (ddone x) (dreads x).
Proof.
  intros WE. split; rewrite ?WE.
  - intros k e p q RD T. split; [exact RD|]. exists p, q. auto.
  - intros k e p q (RD & p0 & q0 & T & -> & ->). pose proof (proj1 RD) as K. destruct (stand_enter x k e p0 q0 T K (reads_gone x k RD)) as (p' & q' & X1 & X2 & S). destruct T as [G _].
    exists p', q'. destruct RD as [_ RD]. destruct (under (KStr k) (pl_ms x)) as [|[s v] rest] eqn:Hq; cbn [join] in S.
    + exists false. rewrite (proj1 RD) in X2. split; [exact X1|]. split; [exact X2|]. split; [exact G|]. split; [exact K|]. eauto.
    + exists true. destruct RD as (NN & D & QD). destruct (json_undated x k v G K D QD) as [UD NV]. rewrite D in X2. cbn [none_or] in X2. rewrite NV in X2. split; [exact X1|]. split; [exact X2|].
      destruct (from_join _ _ _ _ _ (gd_json _ G) Hq) as (d & ->). split; [exact G|]. split; [exact K|]. eexists. split; [|exact S]. eauto 10.
  - intros k e p q (G & K & y & (d & v & rest & -> & NN & UD & D) & a & b & -> & -> & AT & UK & SB).
    destruct (value_here E e u a _ _ (AT e)) as (w & kss & UV & T & M & SH & LA & SU). destruct (doc_value e b _ _ k (gd_keys _ G) (gd_one _ G) K ltac:(congruence) (SB e)) as (b' & V & S'). rewrite D in V. cbn [none_or] in V.
    exists (PBase (BU a)), (PBase (BP b')). cbn [p_is_null bp_is_null on_bp]. unfold up_is_null, pp_is_null. rewrite UV, V. inversion SH; subst.
    split; [reflexivity|]. split; [destruct v; try reflexivity; congruence|]. split; [exact G|]. split; [exact K|]. eexists. split; [eauto 10|]. exact (stand_any e _ _ a b' AT UK S').
  - intros k e p q t (G & K & y & (d & v & rest & -> & NN & UD & D) & a & b & -> & -> & AT & UK & SB).
    destruct (doc_value e b _ _ k (gd_keys _ G) (gd_one _ G) K ltac:(congruence) (SB e)) as (b' & V & S'). rewrite D in V. cbn [none_or] in V.
    pose proof (gp_src _ _ _ _ _ _ _ (SB e)) as SS. pose proof (ureads_primitive E e t a) as [KU _].
    assert (AN : answer E u (Prim t) (NJoin ((doc_of strict d, v) :: rest) :: NMap (pl_ms x) :: pl_above x) =
      match psource_parse E (doc_of strict d) t v with Ok w => Some (OVal w, NVal w :: NMap (pl_ms x) :: pl_above x) | Exn z => Some (OErr z, NJoin ((doc_of strict d, v) :: rest) :: NMap (pl_ms x) :: pl_above x) end) by reflexivity.
    assert (PR : pp_primitive E e t b = (b', psource_parse E (doc_of strict d) t v)) by (unfold pp_primitive; rewrite V, SS; unfold src; now rewrite (doc_parse E strict one d)).
    assert (DN : forall y a', at_pos E e u a' (y :: NMap (pl_ms x) :: pl_above x) -> up_keys a' = up_keys a -> ddone x k e (PBase (BU a')) (PBase (BP b'))).
    { intros y a' AT' UK'. split; [exact G|]. split; [exact K|]. exists y. split; [exact I|]. exists a', b'. split; [reflexivity|]. split; [reflexivity|]. split; [intros e'; exact (pos_any e e' a' _ AT')|].
      split; [congruence|]. intros e'. exact (src_any e e' _ _ S'). }
    cbn [p_primitive bp_primitive on_bp]. rewrite PR. destruct (psource_parse E (doc_of strict d) t v) as [w|z] eqn:PS.
    all: destruct (op_ok E e u deep_fine a _ (Prim t) _ _ (AT e) I AN) as (y & a' & DO & SO & AT'); cbn [do_op] in DO; destruct (up_primitive E e t a) as [a'' r]; injection DO as DO ->; cbn [fst] in KU; eexists (PBase (BU a')), (PBase (BP b')), _; (split; [|split; [reflexivity|exact (DN _ a' AT' KU)]]).
    + assert (y = OVal w) by now inversion SO. subst y. rename H into Y. f_equal. destruct r as [r|]; [|discriminate]. destruct r; cbn in Y; try discriminate; injection Y as <-; reflexivity.
    + assert (y = OErr z) by now inversion SO. subst y. rename H into Y. f_equal. destruct r as [r|]; [destruct r; discriminate|]. cbn in Y. injection Y as <-; reflexivity.
  - intros k e p q (G & K & y & (d & v & rest & -> & NN & UD & D) & a & b & -> & -> & AT & UK & SB).
    destruct (value_here E e u a _ _ (AT e)) as (w & kss & UV & T & M & SH & LA & SU). destruct (doc_value e b _ _ k (gd_keys _ G) (gd_one _ G) K ltac:(congruence) (SB e)) as (b' & V & S'). rewrite D in V. cbn [none_or] in V.
    exists (PBase (BU a)), (PBase (BP b')), w, v. cbn [p_value bp_value on_bp]. rewrite UV, V. split; [reflexivity|]. split; [reflexivity|]. split; [inversion SH; exact I|].
    split; [exact UD|]. split; [exact G|]. split; [exact K|]. eexists. split; [eauto 10|]. exact (stand_any e _ _ a b' AT UK S').
  - intros k e p q (G & K & y & _ & S). split; [exact G|]. split; [exact K|]. eauto.
  - intros k e p q (G & K & y & _ & S). exact (stand_str _ _ _ _ S).
  - intros k e p q (G & K & y & _ & S). destruct (stand_leave _ _ _ _ _ _ _ S) as (p' & q' & A & B & S'). exists p', q'. split; [exact A|]. split; [exact B|]. split; assumption.
  - intros k e p q (RD & p0 & q0 & T & -> & ->). exists p0, q0. pose proof T as (_ & a & b & -> & -> & _). split; [apply pop_base|]. split; [apply pop_base|]. exact T.
  - intros e p q (G & a & b & -> & -> & AT & UK & SB). destruct (value_here E e u a _ _ (AT e)) as (w & kss & UV & T & M & SH & LA & SU). inversion SH; subst.
    cbn [p_mapping bp_mapping on_bp]. unfold up_mapping. rewrite UV. destruct (sub_mapping E e src b _ _ deep_src (SB e) (gd_at _ G)) as (b' & MP & S'). rewrite MP. cbn [dict_of]. eexists _, _, _, _. split; [reflexivity|]. split; [reflexivity|].
    split; [exact G|]. exact (stand_any e _ _ a b' AT UK S').
Qed.
Lemma here_value x e p q : dtop x p q -> exists a b w b', p = PBase (BU a) /\ q = PBase (BP b) /\ up_value E e a = (a, Ok w) /\
  (exists ms, w = VUMap ms /\ (pl_ms x <> [] -> ms <> [])) /\ pp_value E e b = (b', Ok (VDict (pl_one x))) /\ dtop x (PBase (BU a)) (PBase (BP b')).
Proof.
  intros (G & a & b & -> & -> & AT & UK & SB). destruct (value_here E e u a _ _ (AT e)) as (w & kss & UV & T & M & SH & LA & SU).
  destruct (sub_value E e src b _ _ deep_src (SB e) (gd_at _ G)) as (b' & V & S'). exists a, b, w, b'. split; [reflexivity|]. split; [reflexivity|]. split; [exact UV|].
  split; [inversion SH as [| |ms0 l0 SS| |]; subst; exists ms0; split; [reflexivity|intros NE ->; inversion SS; congruence]|]. split; [exact V|]. split; [exact G|]. exact (stand_any e _ _ a b' AT UK S').
Qed.
(** The keys of a union, each where it is first met *)
Lemma filter_dedup k l : filter (fun w => negb (py_eq (VStr k) w)) (dedup (map VStr l)) = dedup (map VStr (filter (fun x => negb (String.eqb k x)) l)).
Proof.
  induction l as [|a l IH]; cbn [map dedup filter]; [reflexivity|].
  assert (SW : forall P R (m : list val), filter P (filter R m) = filter R (filter P m)).
  { intros P R m. induction m as [|b m IHm]; cbn [filter]; [reflexivity|]. destruct (R b) eqn:B1, (P b) eqn:B2; cbn [filter]; rewrite ?B1, ?B2, IHm; reflexivity. }
  assert (ID : forall P (m : list val), filter P (filter P m) = filter P m).
  { intros P m. induction m as [|b m IHm]; cbn [filter]; [reflexivity|]. destruct (P b) eqn:B1; cbn [filter]; rewrite ?B1, IHm; reflexivity. }
  change (py_eq (VStr k) (VStr a)) with (String.eqb k a). destruct (String.eqb_spec k a) as [->|N]; cbn [negb].
  - rewrite ID. exact IH.
  - cbn [map dedup]. f_equal. rewrite SW, IH. reflexivity.
Qed.
Lemma once_dedup all ks : once all ks -> dedup (map VStr all) = map VStr ks.
Proof. induction 1 as [|k l l' O IH]; cbn [map dedup]; [reflexivity|]. f_equal. now rewrite filter_dedup. Qed.
Lemma shown_keys kss n v ms : shows u kss n v (NMap ms) -> exists l, v = VUMap l /\ flat_map snd l = flat_map (fun sm => map fst (snd sm)) ms.
Proof.
  intros SH. inversion SH as [| |l0 ms0 F| |]; subst. exists l0. split; [reflexivity|]. clear SH. induction F as [|[i ks] y l0 ms [_ Hq0] F IH]; [reflexivity|]. cbn [flat_map fst snd] in *. subst ks. now rewrite IH.
Qed.
Lemma set_here e v p ps q : up_parts p = ps ++ [q] -> (exists k, pk q = KStr k) -> snd (up_value E e (up_set_value v p)) = Ok v.
Proof.
  intros P (k & K). unfold up_set_value. destruct (up_parts p) as [|a l] eqn:Hq; [destruct ps; discriminate|]. rewrite P. unfold up_value. cbn [up_parts up_paths up_src up_root]. unfold set_last_cache. rewrite rev_app_distr. cbn [rev app]. rewrite rev_involutive.
  rewrite rev_app_distr. cbn [rev app last_cached pc pk]. rewrite K. cbn beta iota zeta. rewrite Nat.sub_0_r, skipn_all. cbn [union_walk]. reflexivity.
Qed.
Lemma first_keys e a a' r k c ms l ks : at_pos E e u a (NJoin c :: l) -> up_keys a = ks ++ [KStr k] -> up_mapping E e a = (a', Ok r) -> at_pos E e u a' (NMap ms :: l) ->
  exists vm, r = Ok (umap_keys vm) /\ flat_map snd vm = flat_map (fun sm => map fst (snd sm)) ms.
Proof.
  intros A UK M A'. destruct (value_here E e u a _ _ A) as (w & kss & UV & _ & _ & SH & _ & _). destruct (value_here E e u a' _ _ A') as (w' & kss' & UV' & _ & _ & SH' & _ & _).
  destruct (shown_keys _ _ _ _ SH') as (vm & -> & FM). unfold up_mapping in M. rewrite UV in M. inversion SH; subst. destruct (umap_make E e (up_src a) (up_paths a) _ None) as [paths' r']. destruct r' as [[]|]; try discriminate M.
  injection M as <- <-. assert (L : exists ps q, up_parts a = ps ++ [q] /\ pk q = KStr k).
  { unfold up_keys in UK. destruct (exists_last (l := up_parts a)) as (ps & q & Hq); [intros X; rewrite X in UK; destruct ks; discriminate|]. exists ps, q. split; [exact Hq|]. rewrite Hq, map_app in UK. cbn in UK. apply app_inj_tail in UK. exact (proj2 UK). }
  destruct L as (ps & q & L & K). pose proof (set_here e (VUMap ms0) (UPath (up_src a) (up_root a) (up_parts a) paths') ps q L (ex_intro _ k K)) as V. rewrite UV' in V. cbn [snd] in V. injection V as ->. eauto.
Qed.
Lemma place_tree W : w_env W = E -> tree W place dtop dstarted dfresh ddone dsstarted dsfresh dreads dsubs dpresent dflats dnames ddown.
Proof.
  intros WE. split; rewrite ?WE.
  - intros x. exact (place_alike W x WE).
  - intros x k e p q SU T. split; [exact SU|]. exists p, q. auto.
  - intros x k e p q (SU & p0 & q0 & T & -> & ->). exists p0, q0. pose proof T as (_ & a & b & -> & -> & _). split; [apply pop_base|]. split; [apply pop_base|]. exact T.
  - intros x k e p q (SU & p0 & q0 & T & -> & ->). pose proof (proj1 SU) as K. destruct (stand_enter x k e p0 q0 T K (subs_gone x k SU)) as (p' & q' & X1 & X2 & S). destruct T as [G _].
    exists p', q'. pose proof (proj2 SU) as H. destruct (under (KStr k) (pl_ms x)) as [|c0 c1] eqn:Hq; cbn [join] in S.
    + exists false. rewrite (proj1 H) in X2. split; [exact X1|]. split; [exact X2|]. split; [exact G|]. split; [exact K|]. eauto.
    + exists true. destruct H as (ms' & d' & M & D). rewrite D in X2. split; [exact X1|]. split; [exact X2|]. split; [exact SU|]. split; [unfold dpresent; rewrite Hq; discriminate|]. split; [exact G|]. split; [exact K|]. eexists. split; [reflexivity|rewrite Hq; exact S].
  - intros x k e p q (_ & P & _). exact P.
  - intros x k e p q (SU & P & G & K & y & -> & a & b & -> & -> & AT & UK & SB). destruct (down_good x k G SU P) as (_ & _ & D).
    destruct (value_here E e u a _ _ (AT e)) as (w & kss & UV & T & M & SH & LA & US). destruct (doc_value e b _ _ k (gd_keys _ G) (gd_one _ G) K ltac:(congruence) (SB e)) as (b' & V & S'). rewrite D in V. cbn [none_or] in V.
    exists (PBase (BU a)), (PBase (BP b')). cbn [p_is_null bp_is_null on_bp]. unfold up_is_null, pp_is_null. rewrite UV, V. inversion SH; subst.
    split; [reflexivity|]. split; [reflexivity|]. split; [exact SU|]. split; [exact P|]. split; [exact G|]. split; [exact K|]. eexists. split; [reflexivity|]. exact (stand_any e _ _ a b' AT UK S').
  - intros x k e e' p q H. exact H.
  - intros x k e p q (SU & P & G & K & y & -> & a & b & -> & -> & AT & UK & SB). destruct (down_good x k G SU P) as (G' & M & D).
    destruct (sub_mapping E e src b _ _ deep_src (SB e) (gd_at _ G')) as (b' & MP & S'). cbn [dict_of] in MP.
    assert (AN : answer E u Keys (NJoin (under (KStr k) (pl_ms x)) :: NMap (pl_ms x) :: pl_above x) = Some (OKeys (flat_map (fun sm => map fst (snd sm)) (pl_ms (ddown x k))), NMap (pl_ms (ddown x k)) :: NMap (pl_ms x) :: pl_above x)) by (unfold answer; now rewrite M).
    destruct (op_ok E e u deep_fine a _ Keys _ _ (AT e) I AN) as (y & a' & DO & SO & AT'). cbn [do_op] in DO. pose proof (ureads_mapping E e a) as [KU _].
    cbn [p_mapping bp_mapping on_bp]. rewrite MP. destruct (up_mapping E e a) as [a'' r]. injection DO as DO ->. cbn [fst] in KU.
    destruct r as [r|]; [|cbn in DO; subst y; inversion SO]. eexists _, _, _, _. split; [reflexivity|]. split; [reflexivity|].
    split; [exact G'|]. exists a', b'. split; [reflexivity|]. split; [reflexivity|]. split; [intros e'; exact (pos_any e e' a' _ AT')|]. split; [cbn [ddown pl_keys]; congruence|]. intros e'. exact (src_any e e' _ _ S').
  - intros x k ks e p q (all & FM & ON & MO) (SU & P & G & K & y & -> & a & b & -> & -> & AT & UK & SB). destruct (down_good x k G SU P) as (G' & M & D).
    destruct (sub_mapping E e src b _ _ deep_src (SB e) (gd_at _ G')) as (b' & MP & S'). cbn [dict_of] in MP. rewrite MO in MP.
    assert (AN : answer E u Keys (NJoin (under (KStr k) (pl_ms x)) :: NMap (pl_ms x) :: pl_above x) = Some (OKeys (flat_map (fun sm => map fst (snd sm)) (pl_ms (ddown x k))), NMap (pl_ms (ddown x k)) :: NMap (pl_ms x) :: pl_above x)) by (unfold answer; now rewrite M).
    destruct (op_ok E e u deep_fine a _ Keys _ _ (AT e) I AN) as (y & a' & DO & SO & AT'). cbn [do_op] in DO. pose proof (ureads_mapping E e a) as [KU _].
    cbn [p_mapping bp_mapping on_bp]. rewrite MP. destruct (up_mapping E e a) as [a'' r] eqn:UM. injection DO as DO ->. cbn [fst] in KU.
    destruct r as [r|]; [|cbn in DO; subst y; inversion SO]. destruct (first_keys e a a' r k _ _ _ _ (AT e) UK UM AT') as (vm & -> & FV).
    unfold umap_keys. rewrite FV, FM, (once_dedup _ _ ON). eexists _, _. split; [reflexivity|]. split; [reflexivity|].
    split; [exact G'|]. exists a', b'. split; [reflexivity|]. split; [reflexivity|]. split; [intros e'; exact (pos_any e e' a' _ AT')|]. split; [cbn [ddown pl_keys]; congruence|]. intros e'. exact (src_any e e' _ _ S').
  - intros x ks e p q (all & FM & ON & MO) (G & a & b & -> & -> & AT & UK & SB). destruct (value_here E e u a _ _ (AT e)) as (w & kss & UV & T & M & SH & LA & SU). destruct (shown_keys _ _ _ _ SH) as (vm & -> & FV).
    cbn [p_mapping bp_mapping on_bp]. unfold up_mapping. rewrite UV. destruct (sub_mapping E e src b _ _ deep_src (SB e) (gd_at _ G)) as (b' & MP & S'). rewrite MP. cbn [dict_of]. unfold umap_keys. rewrite FV, FM, (once_dedup _ _ ON), MO.
    eexists _, _. split; [reflexivity|]. split; [reflexivity|]. split; [exact G|]. exact (stand_any e _ _ a b' AT UK S').
  - intros x p q (_ & S). exact (stand_str _ _ _ _ S).
  - intros x e p q T. destruct (here_value x e p q T) as (a & b & w & b' & -> & -> & UV & (ms & -> & NE) & V & T'). exists (PBase (BU a)), (PBase (BP b')). cbn [p_exists bp_exists on_bp]. unfold up_exists, pp_exists. rewrite UV, V. split; [reflexivity|]. split; [reflexivity|exact T'].
  - intros x e p q FL T. destruct (here_value x e p q T) as (a & b & w & b' & -> & -> & UV & (ms & -> & NE) & V & T'). specialize (NE FL). exists (PBase (BU a)), (PBase (BP b')). cbn [p_is_null bp_is_null on_bp]. unfold up_is_null, pp_is_null. rewrite UV, V. split; [destruct ms; [congruence|reflexivity]|]. split; [reflexivity|exact T'].
  - intros x k p q (G & S). cbn [ddown pl_keys pl_above] in S. destruct (stand_leave _ _ _ _ _ _ _ S) as (p' & q' & A & B & S'). exists p', q'. split; [exact A|]. split; [exact B|]. split; [exact (gd_up _ G x eq_refl)|exact S'].
Qed.
Definition place0 : place := {| pl_ms := map (fun d => (doc_of strict d, d)) docs; pl_above := []; pl_keys := []; pl_one := one; pl_up := None |}.
Lemma place0_good : good place0.
Proof. split; cbn; [constructor|reflexivity| |discriminate]. unfold from_json, all_docs. apply Forall_map. apply Forall_forall. intros d _. exists d. reflexivity. Qed.
Lemma deep_start : start u = Some [NMap (map (fun d => (doc_of strict d, d)) docs)].
Proof. exact (docs_start strict docs u SRCS SOME). Qed.
Lemma deep_open e : exists p q, source_path E e (SBase (BUnion u)) = Ok p /\ source_path E e (SBase (BPlain src)) = Ok q /\ dtop place0 p q.
Proof.
  destruct (start_ok E e u deep_fine _ deep_plain deep_start) as (a & UP & AT). exists (PBase (BU a)), (PBase (BP (Source.PPath src (VDict one) []))).
  split; [cbn; now rewrite UP|]. split; [unfold src; destruct strict; reflexivity|]. split; [exact place0_good|]. exists a, (Source.PPath src (VDict one) []). split; [reflexivity|]. split; [reflexivity|].
  split; [intros e'; exact (pos_any e e' a _ AT)|]. split.
  - cbn. destruct (root_any E u e e a _ AT) as [P _]. unfold up_keys. now rewrite P.
  - intros e'. split; cbn; auto; [symmetry; exact deep_data|]. intros pre x post v Hq. destruct pre; discriminate.
Qed.
(** What both read alike *)
Section Reads.
Variable W : world.
Hypothesis WE : w_env W = E.
Notation tph x := (top_phase (dtop x)).
Let TR := place_tree W WE.
Lemma spot_alike n pid x k f o :
  (forall g y, reads_with Q u (pl_ms y) (pl_one y) g -> tw pid (tph y) (tph y) (field_map W n g NONEv)) ->
  (forall y id un, leaves_with Q u (pl_ms y) (pl_one y) un -> tw pid (tph y) (tph y) (form_unmapped (field_map W n) id un)) ->
  (forall y k' g, read_at Q u (pl_ms y) (pl_one y) k' g None -> o_attach_parent (f_opts g) = false -> tw pid (tph y) (tph y) (map_at W (field_map W n) (KStr k') g)) ->
  read_at Q u (pl_ms x) (pl_one x) k f o -> calm keyed f o /\ spot place dtop pid x k (field_body W (field_map W n) f NONEv).
Proof.
  intros HF HL HV R. inversion R as [m1 o1 k1 f1 q1 SF K UN D QD|m1 o1 k1 f1 q1 s v rest SF K UN NN D QD|m1 o1 k1 f1 q1 t rs un ms' o' SF K UN M D L H|m1 o1 k1 f1 q1 kf vf hook req mx ms' o' SF HQ K UN M D IT]; subst m1 o1 k1 f1 q1.
  - split; [exact SF|]. refine (spot_sub W place _ _ _ _ _ _ _ _ _ _ _ _ TR n pid x f k o SF _ _); [intros P; now apply P in UN|]. split; [exact K|]. now rewrite UN.
  - split; [eapply calm_keyed; [|exact SF]; intros []; cbn; tauto|]. refine (spot_once W place _ _ _ _ _ _ _ _ _ _ _ _ TR n pid x k f o SF _). split; [exact K|]. now rewrite UN.
  - split; [eapply calm_keyed; [|exact SF]; intros kd <-; exact I|]. refine (spot_form W place _ _ _ _ _ _ _ _ _ _ _ _ TR n pid x k f o t rs un SF _ _).
    + split; [exact K|]. destruct (under (KStr k) (pl_ms x)) as [|c0 c1]; [congruence|]. eauto.
    + intros _. assert (DM : pl_ms (ddown x k) = ms') by (cbn [ddown pl_ms]; now rewrite M). assert (DO : pl_one (ddown x k) = o') by (cbn [ddown pl_one]; now rewrite D).
      split; [intros id; apply HL; now rewrite DM, DO|]. intros g G. apply HF. rewrite DM, DO. exact (H g G).
  - split; [eapply calm_keyed; [|exact SF]; intros kd <-; exact I|]. inversion IT as [m2 o2 k2 v2 ks SK KF NA V]; subst m2 o2 k2 v2. refine (spot_dict W place _ _ _ _ _ _ _ _ _ _ _ _ TR n pid x k f o kf vf hook req mx SF HQ KF _ _).
    + split; [exact K|]. destruct (under (KStr k) (pl_ms x)) as [|c0 c1]; [congruence|]. eauto.
    + intros _. assert (DM : pl_ms (ddown x k) = ms') by (cbn [ddown pl_ms]; now rewrite M). assert (DO : pl_one (ddown x k) = o') by (cbn [ddown pl_one]; now rewrite D).
      exists ks. split; [unfold dnames; now rewrite DM, DO|]. intros k' I. apply HV; [rewrite DM, DO; exact (V k' I)|exact NA].
Qed.
Lemma tw_alike pid n :
  (forall g y, reads_with Q u (pl_ms y) (pl_one y) g -> tw pid (tph y) (tph y) (field_map W n g NONEv)) /\
  (forall y id un, leaves_with Q u (pl_ms y) (pl_one y) un -> tw pid (tph y) (tph y) (form_unmapped (field_map W n) id un)) /\
  (forall y k' g, read_at Q u (pl_ms y) (pl_one y) k' g None -> o_attach_parent (f_opts g) = false -> tw pid (tph y) (tph y) (map_at W (field_map W n) (KStr k') g)).
Proof.
  assert (LV : forall n, (forall m, n = S m -> forall y k' g, read_at Q u (pl_ms y) (pl_one y) k' g None -> o_attach_parent (f_opts g) = false -> tw pid (tph y) (tph y) (map_at W (field_map W m) (KStr k') g)) ->
    forall y id un, leaves_with Q u (pl_ms y) (pl_one y) un -> tw pid (tph y) (tph y) (form_unmapped (field_map W n) id un)).
  { intros n0 HV y id un L.
    assert (RS : forall kf vf, pl_ms y <> [] -> items_with Q u (pl_ms y) (pl_one y) kf vf -> tw pid (tph y) (tph y) (form_unmapped (field_map W n0) id (UPair kf vf))).
    { intros kf vf NE IT. inversion IT as [m2 o2 k2 v2 ks SK KF NA V]; subst m2 o2 k2 v2. refine (tw_rest W place _ _ _ _ _ _ _ _ _ _ _ _ TR n0 pid y id kf vf ks KF NE SK _). intros m Hm k I. exact (HV m Hm y k vf (V k I) NA). }
    inversion L as [m1 o1 u1 U|m1 o1 NE IT|m1 o1 vf NE IT|m1 o1 kf vf NE IT]; subst.
    - apply tw_ignoring. exact U.
    - exact (RS plain_string plain_field NE IT).
    - exact (RS plain_string vf NE IT).
    - exact (RS kf vf NE IT). }
  induction n as [|n (HF & HL & HV)].
  - split; [intros g y _; apply tw_raise|]. split; [apply LV; discriminate|]. intros y k f R NA. apply (spot_out W place dtop pid y k).
    inversion R as [m1 o1 k1 f1 q1 SF K UN D QD|m1 o1 k1 f1 q1 s v rest SF K UN NN D QD|m1 o1 k1 f1 q1 t rs un ms' o' SF K UN M D L H|m1 o1 k1 f1 q1 kf vf hook req mx ms' o' SF HQ K UN M D IT]; subst m1 o1 k1 f1 q1.
    + apply (spot_subs W place _ _ _ _ _ _ _ _ _ _ _ _ TR pid y k). split; [exact K|]. now rewrite UN.
    + apply (spot_reads W place _ _ _ _ _ _ _ _ _ _ _ _ TR pid y k). split; [exact K|]. now rewrite UN.
    + apply (spot_subs W place _ _ _ _ _ _ _ _ _ _ _ _ TR pid y k). split; [exact K|]. destruct (under (KStr k) (pl_ms y)) as [|c0 c1]; [congruence|]. eauto.
    + apply (spot_subs W place _ _ _ _ _ _ _ _ _ _ _ _ TR pid y k). split; [exact K|]. destruct (under (KStr k) (pl_ms y)) as [|c0 c1]; [congruence|]. eauto.
  - split; [|split].
    + intros g y R. inversion R as [m1 o1 f1 k R'|m1 o1 f1 t rs un SF NE L H|m1 o1 f1 kf vf hook req mx SF HQ NE IT]; subst m1 o1 f1.
      * destruct (spot_alike n pid y k g _ HF HL HV R') as [SF SP]. exact (spot_field W place dtop n pid y k g SF SP).
      * refine (twf_field W place _ _ _ _ _ _ _ _ _ _ _ _ TR n pid y g t rs un SF (fun id => HL y id un L) NE _). intros f I. exact (HF f y (H f I)).
      * inversion IT as [m2 o2 k2 v2 ks SK KF NA V]; subst m2 o2 k2 v2. refine (twd_field W place _ _ _ _ _ _ _ _ _ _ _ _ TR n pid y g kf vf hook req mx ks SF HQ KF NE SK _). intros k I. exact (HV y k vf (V k I) NA).
    + apply LV. intros m [= <-]. exact HV.
    + intros y k f R NA. destruct (spot_alike n pid y k f None HF HL HV R) as [SF SP]. exact (spot_value W place dtop n pid y k f SF NA SP).
Qed.
End Reads.
End Deep.

Lemma deep_any W n (Q : list (val * val) -> string -> option val -> Prop) strict docs one us id tags rs u m s t l tg : us_srcs us = map (doc_of strict) docs ->
  docs <> [] -> Forall (fun d => plain_src (w_env W) (doc_of strict d)) docs -> plain_src (w_env W) (doc_of strict one) ->
  Forall (fun d => steady (w_env W) (doc_of strict d)) docs -> steady (w_env W) (doc_of strict one) ->
  (forall d k, Q d k None -> strict = None -> e_attr (w_env W) (VDict d) k = None) ->
  (forall d k v, Q d k (Some v) -> fine (w_env W) (doc_of strict one) v -> undated v) ->
  leaves_with Q us (map (fun d => (doc_of strict d, d)) docs) one u -> in_force s tags tg -> nth_error (forms s) id = Some (t, l) ->
  (forall f, In f (ft_fields t) -> chosen tg f -> reads_with Q us (map (fun d => (doc_of strict d, d)) docs) one f) ->
  let x := Form_map W n id (ASrc (SBase (BUnion us))) tags rs u m s in
  let y := Form_map W n id (ASrc (SBase (BPlain (doc_of strict one)))) tags rs u m s in
  fst x = fst y /\ forms (snd x) = forms (snd y) /\ errs (snd x) = errs (snd y) /\ stk (snd x) = stk (snd y).
Proof.
  intros SR NE JD JO AD AO QN QV U IF N H.
  pose proof (place_tree (w_env W) Q strict docs one us SR JD JO AD AO QN QV W eq_refl) as TR. set (x0 := place0 strict docs one).
  pose proof (tr_alike _ _ _ _ _ _ _ _ _ _ _ _ _ _ TR x0) as AL. intros x y. change (same_answer x y). unfold x, y, Form_map.
  refine (tw_map_gen W _ (al_mapping _ _ _ _ _ _ AL) _ _ _ n id tags rs u m s t l tg _ IF N _).
  - intros e. exact (deep_open (w_env W) Q strict docs one us SR NE JD JO AD AO QN QV e).
  - intros pid. exact (proj1 (proj2 (tw_alike (w_env W) Q strict docs one us SR JD JO AD AO QN QV W eq_refl pid n)) x0 id u U).
  - intros f pid I C. exact (proj1 (tw_alike (w_env W) Q strict docs one us SR JD JO AD AO QN QV W eq_refl pid n) f x0 (H f I C)).
Qed.
Lemma deep_lem W n strict docs one mm sm dp id tags rs u m s t l tg :
  docs <> [] -> Forall (fun d => json_val (VDict d) = true) docs -> json_val (VDict one) = true ->
  leaves (USource (map (json_doc strict) docs) mm sm dp) (all_docs strict docs) one u -> in_force s tags tg -> nth_error (forms s) id = Some (t, l) ->
  (forall f, In f (ft_fields t) -> chosen tg f -> reads_alike (USource (map (json_doc strict) docs) mm sm dp) (all_docs strict docs) one f) ->
  let x := Form_map W n id (ASrc (SBase (BUnion (USource (map (json_doc strict) docs) mm sm dp)))) tags rs u m s in
  let y := Form_map W n id (ASrc (SBase (BPlain (json_doc strict one)))) tags rs u m s in
  fst x = fst y /\ forms (snd x) = forms (snd y) /\ errs (snd x) = errs (snd y) /\ stk (snd x) = stk (snd y).
Proof.
  intros NE JD JO U IF N H. refine (deep_any W n json_read (Some strict) docs one (USource (map (json_doc strict) docs) mm sm dp) id tags rs u m s t l tg eq_refl NE _ _ _ _ _ _ U IF N H).
  - eapply Forall_impl; [|exact JD]. intros d J. now constructor.
  - now constructor.
  - eapply Forall_impl; [|exact JD]. intros d J. exact (json_steady _ _ _ _ J).
  - exact (json_steady _ _ _ _ JO).
  - discriminate.
  - intros d k v _ F. destruct v; try exact I; discriminate F.
Qed.
Lemma native_lem W n P docs one mm sm dp id tags rs u m s t l tg :
  docs <> [] -> plain_native (w_env W) P -> sentinel_ok (w_env W) P -> Forall (fun d => P (VDict d)) docs -> P (VDict one) ->
  leaves_with (native_read (w_env W)) (USource (map native_doc docs) mm sm dp) (all_native docs) one u -> in_force s tags tg -> nth_error (forms s) id = Some (t, l) ->
  (forall f, In f (ft_fields t) -> chosen tg f -> reads_with (native_read (w_env W)) (USource (map native_doc docs) mm sm dp) (all_native docs) one f) ->
  let x := Form_map W n id (ASrc (SBase (BUnion (USource (map native_doc docs) mm sm dp)))) tags rs u m s in
  let y := Form_map W n id (ASrc (SBase (BPlain (native_doc one)))) tags rs u m s in
  fst x = fst y /\ forms (snd x) = forms (snd y) /\ errs (snd x) = errs (snd y) /\ stk (snd x) = stk (snd y).
Proof.
  intros NE PN SE JD JO U IF N H. refine (deep_any W n (native_read (w_env W)) None docs one (USource (map native_doc docs) mm sm dp) id tags rs u m s t l tg eq_refl NE _ _ _ _ _ _ U IF N H).
  - eapply Forall_impl; [|exact JD]. intros d J. exact (ps_native _ P _ _ PN J).
  - exact (ps_native _ P _ _ PN JO).
  - eapply Forall_impl; [|exact JD]. intros d J. exact (native_steady _ P _ _ PN SE J).
  - exact (native_steady _ P _ _ PN SE JO).
  - intros d k R _. exact R.
  - intros d k v R _. destruct v; try exact I; destruct R.
Qed.
