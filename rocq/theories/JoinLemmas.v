(** * JoinLemmas: a union of JSON documents answers single keys as the merged document does (C102). *)
From Verif Require Import PyBase PyStr Source Field Context Fields SpecSrc Eval SpecUnion SrcPath Shape SpecField SpecForm UnionProofs SpecJoin JoinProofs.
From Coq Require Import Lia.

(** Documents of one kind: JSON, strict or not, or native *)
Definition doc_of (o : option bool) (d : list (val * val)) : psource := match o with Some strict => json_doc strict d | None => native_doc d end.
Lemma doc_data o d : data_of (doc_of o d) = VDict d. Proof. now destruct o. Qed.
Lemma doc_parse E o d d' : psource_parse E (doc_of o d) = psource_parse E (doc_of o d'). Proof. now destruct o. Qed.
Lemma shaped_docs strict l : shaped (fun _ => dict_of) (map (fun s => (s, data_of s)) (map (doc_of strict) l)) = Some (map (fun d => (doc_of strict d, d)) l).
Proof. induction l as [|d l IH]; [reflexivity|]. cbn [map shaped]. rewrite doc_data. cbn [is_null dict_of]. now rewrite IH. Qed.

Lemma gone_resolve E e o one k : fine E (doc_of o one) (VDict one) -> one_key (KStr k) -> dict_get one (VStr k) = None -> (o = None -> e_attr E (VDict one) k = None) ->
  psource_resolve E e (doc_of o one) [] (VDict one) (KStr k) = Ok (VConst NONE).
Proof.
  intros J [K1 K2] D RD. destruct o as [st|]; cbn [doc_of] in *.
  - destruct (json_resolve_steps E e (VDict one) (KStr k) J I) as [R _].
    change (psource_resolve E e (json_doc st one) [] (VDict one) (KStr k)) with (json_resolve E e (VDict one) (KStr k)). rewrite R. cbn [key_steps]. rewrite (split_no_dot k K2). cbn [map json_steps json_step val_of_key]. now rewrite D.
  - specialize (RD eq_refl).
    assert (S1 : default_resolve1 E e [] [] [] (VDict one) (KStr k) = Ok (VConst NONE)).
    { unfold default_resolve1. cbn [is_ignored existsb]. unfold as_item. cbn [py_getitem val_of_key]. rewrite D. cbn [or_NONE is_lookup_or_type is_NONE negb as_alias alookup as_attr py_getattr]. now rewrite RD. }
    cbn [native_doc psource_resolve]. destruct (String.length k) eqn:L; cbn [default_resolve]; rewrite K1, S1; cbn [is_NONE]; rewrite (split_no_dot k K2); cbn [walk_atoms]; rewrite S1; reflexivity.
Qed.
(** Dropping the key just added *)
Lemma pop_added k b : bp_pop (bp_append k b) = (b, Ok tt).
Proof.
  assert (PP : forall p, pp_pop (pp_append k p) = (p, Ok tt)).
  { intros [s r ps]. unfold pp_pop, pp_append. cbn. destruct (ps ++ [Part k None]) eqn:Q; [destruct ps; discriminate|]. rewrite <- Q, removelast_last. reflexivity. }
  assert (PA : forall l, pop_all (map (pp_append k) l) = (l, Ok tt)) by (induction l as [|p l IH]; cbn [map pop_all]; [reflexivity|]; now rewrite PP, IH).
  destruct b as [p|[s r ps l]]; cbn [bp_append]; unfold bp_pop, on_bp; [now rewrite PP|]. unfold up_pop, up_append. cbn [up_src up_root up_parts up_paths].
  assert (Q : exists a l', ps ++ [Part k None] = a :: l') by (destruct ps; cbn; eauto). destruct Q as (a & l' & Q). rewrite Q, PA, <- Q, removelast_last. reflexivity.
Qed.
Lemma pop_base k b : p_pop (p_append k (PBase b)) = (PBase b, Ok tt).
Proof. cbn [p_append p_pop]. now rewrite pop_added. Qed.
Section Join.
Variables (E : env) (strict : option bool) (docs : list (list (val * val))) (one : list (val * val)) (u : usource).
Hypothesis SRCS : us_srcs u = map (doc_of strict) docs.
Hypothesis SOME : docs <> [].
Hypothesis JD : Forall (fun d => plain_src E (doc_of strict d)) docs.
Hypothesis JO : plain_src E (doc_of strict one).
Hypothesis FW : first_wins docs one.
Let src := doc_of strict one.
Let ms := map (fun d => (doc_of strict d, d)) docs.
Lemma docs_plain : Forall (plain_src E) (us_srcs u).
Proof. rewrite SRCS. apply Forall_map. exact JD. Qed.
Lemma docs_fine : Forall (fun s => fine E s (data_of s)) (us_srcs u).
Proof. eapply Forall_impl; [|exact docs_plain]. intros s. apply plain_fine. Qed.
Lemma src_fine : fine E src (VDict one).
Proof. pose proof (plain_fine E src JO) as F. unfold src in *. now rewrite doc_data in F. Qed.
Lemma docs_start : start u = Some [NMap ms].
Proof.
  unfold start. rewrite SRCS. pose proof (shaped_docs strict docs) as X. fold ms in X. destruct (map (doc_of strict) docs) as [|x y] eqn:R; [apply map_eq_nil in R; contradiction|]. now rewrite X.
Qed.
Lemma docs_under k : match first_with docs k with
  | None => under (KStr k) ms = []
  | Some v => exists d rest, under (KStr k) ms = (doc_of strict d, v) :: rest
  end.
Proof.
  unfold ms. clear. induction docs as [|d l IH]; [reflexivity|]. cbn [first_with map under flat_map fst snd val_of_key]. destruct (dict_get d (VStr k)) as [v|].
  - exists d. eexists. reflexivity.
  - exact IH.
Qed.
(** At the root nothing has been read from the documents. *)
Lemma root_any e e' p n : at_pos E e u p [n] -> up_parts p = [] /\ at_pos E e' u p [n].
Proof.
  intros (S & kss & T & M). assert (P : up_parts p = []).
  { destruct (rev (up_parts p)) as [|q r] eqn:R; [apply (f_equal (@rev part)) in R; now rewrite rev_involutive in R|]. cbn in M. destruct M as (_ & _ & M). destruct r; contradiction. }
  split; [exact P|]. split; [exact S|]. exists kss. rewrite P in *. split; [|exact M]. destruct T as (A & B & C). split; [exact A|]. split; [exact B|].
  intros i s0 q ks N1 N2 N3. destruct (C i s0 q ks N1 N2 N3) as [[Gs Gr Gk Gp Gc] L]. cbn in L. destruct ks; [|discriminate]. split; [|reflexivity].
  split; auto. unfold pp_keys in Gk. apply map_eq_nil in Gk. rewrite Gk. intros pre x post v Q. destruct pre; discriminate.
Qed.

Definition jtop (p q : path) : Prop := exists a, p = PBase (BU a) /\ (forall e, at_pos E e u a [NMap ms]) /\ up_parts a = [] /\
  q = PBase (BP (Source.PPath src (VDict one) [])).
Definition jreads (k : string) : Prop := one_key (KStr k) /\ match first_with docs k with Some v => v <> VNone /\ undated v | None => strict = None -> e_attr E (VDict one) k = None end.
Definition jstarted (k : string) : phase := fun _ p q => jreads k /\ exists p0 q0, jtop p0 q0 /\ p = p_append (KStr k) p0 /\ q = p_append (KStr k) q0.
Definition jat (k : string) (n : node -> Prop) : phase := fun e p q => jreads k /\ exists a b x, p = PBase (BU a) /\ q = PBase (BP b) /\ n x /\
  at_pos E e u a [x; NMap ms] /\ up_keys a = [KStr k] /\ sub_ok E e src b [KStr k].
Definition jfresh (k : string) : phase := jat k (fun x => exists d v rest, x = NJoin ((doc_of strict d, v) :: rest) /\ v <> VNone /\ undated v /\ dict_get one (VStr k) = Some v).
Definition jdone (k : string) : phase := jat k (fun _ => True).

Lemma one_value e b k : jreads k -> sub_ok E e src b [KStr k] ->
  exists b', pp_value E e b = (b', Ok (none_or (dict_get one (VStr k)))) /\ sub_ok E e src b' [KStr k].
Proof.
  intros [K RD] G. assert (IN : inside_ok E e src (data_of src) [KStr k]).
  { intros pre x post Q NE. destruct pre as [|y pre]; [congruence|]. destruct pre; discriminate. }
  destruct (pp_value_spec E e src (data_of src) (resolve_ind E e src _ src_fine) one_key one_plain b [KStr k] G (or_intror IN)) as [A B].
  destruct (pp_value E e b) as [b' r]. cbn [fst snd] in *. exists b'. split; [|exact B]. rewrite A. f_equal. cbn [fold_r]. unfold src. rewrite doc_data. fold src.
  rewrite <- (FW k) in RD. destruct (dict_get one (VStr k)) as [v|] eqn:D.
  - rewrite (proj1 (child_resolve E e src (VDict one) (KStr k) v src_fine K D)). reflexivity.
  - cbn [none_or]. unfold src. rewrite (gone_resolve E e strict one k src_fine K D RD). reflexivity.
Qed.
Lemma docs_alike W : w_env W = E -> alike W jtop jstarted jfresh jdone jreads.
Proof.
  intros WE. split; rewrite ?WE.
  - intros k e p q RD T. split; [exact RD|]. exists p, q. auto.
  - intros k e p q (RD & p0 & q0 & (a & -> & AT & PA & ->) & -> & ->). pose proof (proj1 RD) as K.
    assert (KA : up_keys (up_append (KStr k) a) = [KStr k]) by (unfold up_keys, up_append; cbn; now rewrite PA).
    assert (G0 : sub_ok E e src (Source.PPath src (VDict one) []) []).
    { split; cbn; auto; [unfold src; now rewrite doc_data|]. intros pre x post v Q. destruct pre; discriminate. }
    pose proof (sub_append E e src _ [] (KStr k) G0 K) as G1. cbn [app] in G1. destruct (one_value e _ k RD G1) as (b' & V & G2). rewrite FW in V.
    assert (AN : answer E u (Enter (KStr k)) [NMap ms] = Some (OBool match join (under (KStr k) ms) with NGone => false | _ => true end, [join (under (KStr k) ms); NMap ms])) by reflexivity.
    destruct (enter_ok E e u docs_fine a (NMap ms) [] (KStr k) _ _ (AT e) K AN) as (a' & D & AT'). cbn [do_op] in D.
    pose proof (ureads_exists E e (up_append (KStr k) a)) as [UK _]. destruct (up_exists E e (up_append (KStr k) a)) as [a'' r] eqn:UE. injection D as D ->. cbn [fst] in UK. rewrite KA in UK.
    pose proof (docs_under k) as DU. pose proof (FW k) as DG.
    cbn [p_exists p_append bp_append bp_exists on_bp]. unfold pp_exists. rewrite UE, V. exists (PBase (BU a')), (PBase (BP b')).
    destruct (first_with docs k) as [v|] eqn:FK.
    + destruct DU as (d & rest & DU). rewrite DU in D, AT'. cbn [join] in D, AT'. destruct r as [b|]; [|discriminate]. injection D as ->. exists true.
      assert (NV : is_NONE v = false) by exact (fine_some E src v (proj2 (child_resolve E e src (VDict one) (KStr k) v src_fine K DG))).
      cbn [none_or]. rewrite NV. split; [reflexivity|]. split; [reflexivity|]. split; [exact RD|]. exists a', b', (NJoin ((doc_of strict d, v) :: rest)). split; [reflexivity|]. split; [reflexivity|].
      pose proof (proj2 RD) as RV. rewrite FK in RV. destruct RV as [RV1 RV2]. split; [exists d, v, rest; auto|]. auto.
    + rewrite DU in D, AT'. cbn [join] in D, AT'. destruct r as [b|]; [|discriminate]. injection D as ->. exists false. split; [reflexivity|]. split; [reflexivity|].
      split; [exact RD|]. exists a', b', NGone. auto 10.
  - intros k e p q (RD & a & b & x & -> & -> & (d & v & rest & -> & NN & UD & DG) & AT & UK & G). pose proof (proj1 RD) as K.
    destruct (value_here E e u a _ _ AT) as (w & kss & UV & T & M & SH & LA & SU). destruct (one_value e b k RD G) as (b' & V & G'). rewrite DG in V. cbn [none_or] in V.
    exists (PBase (BU a)), (PBase (BP b')). cbn [p_is_null bp_is_null on_bp]. unfold up_is_null, pp_is_null. rewrite UV, V. inversion SH; subst.
    split; [reflexivity|]. split; [destruct v; try reflexivity; congruence|]. split; [exact RD|]. exists a, b', (NJoin ((doc_of strict d, v) :: rest)). split; [reflexivity|]. split; [reflexivity|]. split; [eauto 10|]. auto.
  - intros k e p q t (RD & a & b & x & -> & -> & (d & v & rest & -> & NN & UD & DG) & AT & UK & G). pose proof (proj1 RD) as K.
    destruct (one_value e b k RD G) as (b' & V & G'). rewrite DG in V. cbn [none_or] in V.
    pose proof (gp_src _ _ _ _ _ _ _ G) as SB.
    pose proof (ureads_primitive E e t a) as [KU _].
    assert (AN : answer E u (Prim t) [NJoin ((doc_of strict d, v) :: rest); NMap ms] =
      match psource_parse E (doc_of strict d) t v with Ok w => Some (OVal w, [NVal w; NMap ms]) | Exn x => Some (OErr x, [NJoin ((doc_of strict d, v) :: rest); NMap ms]) end) by reflexivity.
    assert (PR : pp_primitive E e t b = (b', psource_parse E (doc_of strict d) t v)) by (unfold pp_primitive; rewrite V, SB; unfold src; now rewrite (doc_parse E strict one d)).
    cbn [p_primitive bp_primitive on_bp]. rewrite PR. destruct (psource_parse E (doc_of strict d) t v) as [w|x] eqn:PS.
    + destruct (op_ok E e u docs_fine a _ (Prim t) _ _ AT I AN) as (y & a' & D & SO & AT'). cbn [do_op] in D. destruct (up_primitive E e t a) as [a'' r]. injection D as D ->. cbn [fst] in KU.
      exists (PBase (BU a')), (PBase (BP b')), (Ok w). split; [|split; [reflexivity|split; [exact RD|]; exists a', b', (NVal w); rewrite KU; auto 10]].
      assert (y = OVal w) by now inversion SO. subst y. rename H into Y. f_equal. destruct r as [r|]; [|discriminate]. destruct r; cbn in Y; try discriminate; injection Y as <-; reflexivity.
    + destruct (op_ok E e u docs_fine a _ (Prim t) _ _ AT I AN) as (y & a' & D & SO & AT'). cbn [do_op] in D. destruct (up_primitive E e t a) as [a'' r]. injection D as D ->. cbn [fst] in KU.
      exists (PBase (BU a')), (PBase (BP b')), (Exn x). split; [|split; [reflexivity|split; [exact RD|]; eexists a', b', _; rewrite KU; eauto 10]].
      assert (y = OErr x) by now inversion SO. subst y. rename H into Y. f_equal. destruct r as [r|]; [destruct r; discriminate|]. cbn in Y. injection Y as <-; reflexivity.
  - intros k e p q (RD & a & b & x & -> & -> & (d & v & rest & -> & NN & UD & DG) & AT & UK & G). pose proof (proj1 RD) as K.
    destruct (value_here E e u a _ _ AT) as (w & kss & UV & T & M & SH & LA & SU). destruct (one_value e b k RD G) as (b' & V & G'). rewrite DG in V. cbn [none_or] in V.
    exists (PBase (BU a)), (PBase (BP b')), w, v. cbn [p_value bp_value on_bp]. rewrite UV, V. split; [reflexivity|]. split; [reflexivity|]. split; [inversion SH; exact I|].
    split; [exact UD|]. split; [exact RD|]. exists a, b', (NJoin ((doc_of strict d, v) :: rest)). split; [reflexivity|]. split; [reflexivity|]. split; [eauto 10|]. auto.
  - intros k e p q (RD & a & b & x & -> & -> & _ & R). split; [exact RD|]. exists a, b, x. auto 10.
  - intros k e p q (RD & a & b & x & -> & -> & _ & AT & UK & G). cbn [p_str bp_str]. unfold pp_str, pkeys_str. rewrite UK, (gp_keys _ _ _ _ _ _ _ G), (gp_src _ _ _ _ _ _ _ G).
    assert (PX : psource_prefix src = []) by (unfold src; clear; destruct strict; reflexivity). rewrite PX. destruct (keys_str E [KStr k]); reflexivity.
  - intros k e p q (RD & a & b & x & -> & -> & _ & AT & UK & G). destruct (leave_ok E e u a x (NMap ms) [] AT) as (a' & D & AT'). cbn [do_op] in D. destruct (up_pop a) as [a'' r] eqn:UP. injection D as D ->.
    destruct (sub_pop E e src b [] (KStr k) G) as (b' & BP' & G'). exists (PBase (BU a')), (PBase (BP b')). cbn [p_pop bp_pop on_bp]. rewrite UP, BP'. destruct r as [[]|]; [|discriminate].
    split; [reflexivity|]. split; [reflexivity|]. exists a'. split; [reflexivity|]. split; [intros e'; apply (root_any e e' a' _ AT')|]. split; [apply (root_any e e a' _ AT')|].
    f_equal. f_equal. destruct G' as [Gs Gr Gk _ _]. assert (DS : data_of src = VDict one) by apply doc_data. rewrite DS in Gr. clear DS. destruct b' as [x1 x2 x3]. cbn in Gs, Gr, Gk. unfold pp_keys in Gk. apply map_eq_nil in Gk. cbn in Gk. now subst.
  - intros k e p q (RD & p0 & q0 & T & -> & ->). destruct T as (a & -> & AT & PA & ->). exists (PBase (BU a)), (PBase (BP (Source.PPath src (VDict one) []))).
    split; [apply pop_base|]. split; [apply pop_base|]. exists a. auto.
  - intros e p q (a & -> & AT & PA & ->). destruct (value_here E e u a _ _ (AT e)) as (w & kss & UV & T & M & SH & LA & SU). inversion SH; subst.
    cbn [p_mapping bp_mapping on_bp]. unfold up_mapping. rewrite UV.
    assert (MP : pp_mapping E e (Source.PPath src (VDict one) []) = (Source.PPath src (VDict one) [], Ok (Ok (map fst one)))) by (unfold src; clear; destruct strict; reflexivity). rewrite MP. eexists _, _, _, _. split; [reflexivity|]. split; [reflexivity|]. exists a. auto.
Qed.
Lemma docs_open e : exists p q, source_path E e (SBase (BUnion u)) = Ok p /\ source_path E e (SBase (BPlain src)) = Ok q /\ jtop p q.
Proof.
  destruct (start_ok E e u docs_fine _ docs_plain docs_start) as (a & UP & AT). exists (PBase (BU a)), (PBase (BP (Source.PPath src (VDict one) []))).
  split; [cbn; now rewrite UP|]. split; [unfold src; clear; destruct strict; reflexivity|]. exists a. split; [reflexivity|]. split; [intros e'; apply (root_any e e' a _ AT)|]. split; [apply (root_any e e a _ AT)|reflexivity].
Qed.
End Join.

Lemma join_gen W n strict docs one mm sm dp id tags rs u m s t l tg :
  docs <> [] -> Forall (fun d => plain_src (w_env W) (doc_of strict d)) docs -> plain_src (w_env W) (doc_of strict one) -> first_wins docs one ->
  ignoring u -> in_force s tags tg -> nth_error (forms s) id = Some (t, l) ->
  (forall f, In f (ft_fields t) -> chosen tg f -> exists k, simple_field f k /\
     match first_with docs k with Some v => v <> VNone /\ undated v | None => strict = None -> e_attr (w_env W) (VDict one) k = None end) ->
  same_answer (Form_map W n id (ASrc (SBase (BUnion (USource (map (doc_of strict) docs) mm sm dp)))) tags rs u m s)
              (Form_map W n id (ASrc (SBase (BPlain (doc_of strict one)))) tags rs u m s).
Proof.
  intros NE JD JO FW U IF N H. set (us := USource (map (doc_of strict) docs) mm sm dp).
  pose proof (docs_alike (w_env W) strict docs one us eq_refl JD JO FW W eq_refl) as AL.
  unfold Form_map. refine (tw_map W _ (al_mapping _ _ _ _ _ _ AL) _ _ _ n id tags rs u m s t l tg U IF N _).
  - intros e. exact (docs_open (w_env W) strict docs one us eq_refl NE JD e).
  - intros f pid I C. destruct (H f I C) as (k & SF & NN). refine (tw_field W pid _ _ _ _ _ AL n f k SF _). split; [exact (sf_key _ _ _ SF)|exact NN].
Qed.
Lemma first_json docs k v : Forall (fun d => json_val (VDict d) = true) docs -> first_with docs k = Some v -> undated v.
Proof.
  intros JD. induction JD as [|d docs J JD IH]; cbn [first_with]; [discriminate|]. destruct (dict_get d (VStr k)) as [w|] eqn:D; [|exact IH].
  intros [= ->]. assert (J' : json_val v = true).
  { cbn [json_val] in J. clear IH JD. unfold dict_get in D. destruct (find _ d) as [[a b]|] eqn:F; [|discriminate]. cbn in D. injection D as ->. apply find_some in F. destruct F as [F _].
    rewrite forallb_forall in J. specialize (J _ F). cbn in J. destruct a; try discriminate. exact J. }
  destruct v; try discriminate; exact I.
Qed.
Lemma join_lem W n strict docs one mm sm dp id tags rs u m s t l tg :
  docs <> [] -> Forall (fun d => json_val (VDict d) = true) docs -> json_val (VDict one) = true -> first_wins docs one ->
  ignoring u -> in_force s tags tg -> nth_error (forms s) id = Some (t, l) ->
  (forall f, In f (ft_fields t) -> chosen tg f -> exists k, simple_field f k /\ first_with docs k <> Some VNone) ->
  let x := Form_map W n id (ASrc (SBase (BUnion (USource (map (json_doc strict) docs) mm sm dp)))) tags rs u m s in
  let y := Form_map W n id (ASrc (SBase (BPlain (json_doc strict one)))) tags rs u m s in
  fst x = fst y /\ forms (snd x) = forms (snd y) /\ errs (snd x) = errs (snd y) /\ stk (snd x) = stk (snd y).
Proof.
  intros NE JD JO FW U IF N H. refine (join_gen W n (Some strict) docs one mm sm dp id tags rs u m s t l tg NE _ _ FW U IF N _).
  - eapply Forall_impl; [|exact JD]. intros d J. now constructor.
  - now constructor.
  - intros f I C. destruct (H f I C) as (k & SF & NN). exists k. split; [exact SF|]. destruct (first_with docs k) as [v|] eqn:Q; [|discriminate].
    split; [congruence|exact (first_json docs k v JD Q)].
Qed.
Lemma join_native_lem W n docs one mm sm dp id tags rs u m s t l tg P :
  docs <> [] -> plain_native (w_env W) P -> Forall (fun d => P (VDict d)) docs -> P (VDict one) -> first_wins docs one ->
  ignoring u -> in_force s tags tg -> nth_error (forms s) id = Some (t, l) ->
  (forall f, In f (ft_fields t) -> chosen tg f -> exists k, simple_field f k /\ plain_read (w_env W) docs one k) ->
  let x := Form_map W n id (ASrc (SBase (BUnion (USource (map native_doc docs) mm sm dp)))) tags rs u m s in
  let y := Form_map W n id (ASrc (SBase (BPlain (native_doc one)))) tags rs u m s in
  fst x = fst y /\ forms (snd x) = forms (snd y) /\ errs (snd x) = errs (snd y) /\ stk (snd x) = stk (snd y).
Proof.
  intros NE PN PD PO FW U IF N H. refine (join_gen W n None docs one mm sm dp id tags rs u m s t l tg NE _ _ FW U IF N _).
  - eapply Forall_impl; [|exact PD]. intros d J. now apply (ps_native _ P).
  - now apply (ps_native _ P).
  - intros f I C. destruct (H f I C) as (k & SF & NN). exists k. split; [exact SF|]. unfold plain_read in NN. destruct (first_with docs k) as [v|]; [|auto].
    destruct v; try contradiction; (split; [discriminate|constructor]).
Qed.
