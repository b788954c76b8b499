(** Proofs about classes made on the fly: type probes and [from_fields]. *)
From Coq Require Import Lia Permutation Sorted.
From Verif Require Import PyBase PyStr Meta SpecMeta Balance MetaProofs LineProofs MetaLemmas BuiltProofs.

(** ** Sorted lists *)
Lemma sorted_unique {A} (key : A -> nat) : forall l l', Permutation l l' -> NoDup (map key l) ->
  StronglySorted (fun a b => (key a <= key b)%nat) l -> StronglySorted (fun a b => (key a <= key b)%nat) l' -> l = l'.
Proof.
  induction l as [|a l IH]; intros l' P ND S S'.
  - apply Permutation_nil in P. now subst.
  - destruct l' as [|b l']; [apply Permutation_sym, Permutation_nil in P; discriminate|].
    inversion S as [|? ? S1 S2]; subst. inversion S' as [|? ? S1' S2']; subst. cbn [map] in ND. inversion ND as [|? ? N1 N2]; subst.
    assert (a = b).
    { assert (Ia : In a (b :: l')) by (apply (Permutation_in _ P); now left).
      assert (Ib : In b (a :: l)) by (apply (Permutation_in _ (Permutation_sym P)); now left).
      destruct Ia as [->|Ia]; [reflexivity|]. destruct Ib as [->|Ib]; [reflexivity|].
      rewrite Forall_forall in S2, S2'. specialize (S2 b Ib). specialize (S2' a Ia). exfalso. apply N1.
      replace (key a) with (key b) by lia. now apply in_map. }
    subst b. f_equal. apply IH; auto. now apply Permutation_cons_inv with a.
Qed.

(** ** What is known of reachable states *)
Record listed (s : mst) : Prop := {
  li_shown : forall f o, nth_error (m_fields s) f = Some o -> fo_parent o <> None -> exists n k, fo_name o = Some n /\ fo_src o = Some k;
  li_fields : forall c f, In f (fields_of s c) -> exists o, nth_error (m_fields s) f = Some o /\ fo_parent o <> None;
  li_sorted : forall c, StronglySorted (fun a b => (count_of s a <= count_of s b)%nat) (fields_of s c);
  li_parent : forall f o c, nth_error (m_fields s) f = Some o -> fo_parent o = Some (InClass c) -> In f (fields_of s c);
  li_nodup : forall c, NoDup (fields_of s c)
}.
Lemma sorted_ext {A} (R R' : A -> A -> Prop) l : (forall a b, In a l -> In b l -> R a b -> R' a b) -> StronglySorted R l -> StronglySorted R' l.
Proof.
  intros H S. induction S as [|a l S IH F]; constructor.
  - apply IH. intros x y X Y. apply H; now right.
  - rewrite Forall_forall in *. intros b B. apply H; [now left|now right|now apply F].
Qed.
Lemma snoc_listed s o : fo_parent o = None -> listed s -> listed (MkS (m_fields s ++ [o]) (m_classes s) (m_count s)) /\
  forall k, listed (MkS (m_fields s ++ [o]) (m_classes s) k).
Proof.
  intros P0 L. assert (X : forall k, listed (MkS (m_fields s ++ [o]) (m_classes s) k)); [|split; [apply X|exact X]].
  intros cnt. assert (FO : forall c, fields_of (MkS (m_fields s ++ [o]) (m_classes s) cnt) c = fields_of s c) by reflexivity.
  assert (AT : forall f x, nth_error (m_fields s ++ [o]) f = Some x -> fo_parent x <> None -> nth_error (m_fields s) f = Some x).
  { intros f x H P. destruct (lt_dec f (length (m_fields s))) as [J|J]; [now rewrite nth_error_app1 in H by exact J|].
    rewrite nth_error_app2 in H by lia. destruct (f - length (m_fields s))%nat as [|z]; cbn in H; [injection H as <-; contradiction|now destruct z]. }
  assert (OLD : forall f x, nth_error (m_fields s) f = Some x -> nth_error (m_fields s ++ [o]) f = Some x).
  { intros f x H. rewrite nth_error_app1; [exact H|]. apply nth_error_Some. congruence. }
  constructor; cbn [m_fields].
  - intros f x H P. apply (li_shown _ L f x); auto.
  - intros c f I. rewrite FO in I. destruct (li_fields _ L c f I) as (x & X & P). exists x. auto.
  - intros c. rewrite FO. eapply sorted_ext; [|exact (li_sorted _ L c)]. intros a b A B. cbv beta. unfold count_of. cbn [m_fields].
    destruct (li_fields _ L c a A) as (x & X & _), (li_fields _ L c b B) as (y & Y & _). rewrite X, Y, (OLD _ _ X), (OLD _ _ Y). auto.
  - intros f x c H P. rewrite FO. apply (li_parent _ L f x); [apply AT; [exact H|congruence]|exact P].
  - intros c. rewrite FO. apply (li_nodup _ L).
Qed.
Lemma built_listed s : built s -> listed s.
Proof.
  induction 1 as [|s src choices B IH|s h B IH|s bases mro dict B IH HB HM HD].
  - constructor; cbn.
    + intros f o H. now destruct f.
    + intros c f. unfold fields_of. cbn. destruct c; cbn; intros [].
    + intros c. unfold fields_of. cbn. destruct c; cbn; constructor.
    + intros f o c H. now destruct f.
    + intros c. unfold fields_of. cbn. destruct c; cbn; constructor.
  - unfold new_field. cbn [snd]. now apply snoc_listed.
  - unfold clone_field. destruct (nth_error (m_fields s) h); [|exact IH]. cbn [snd]. now apply snoc_listed.
  - pose proof (built_sound _ B) as SO.
    destruct (define_lem s bases mro dict (so_mro _ SO) HM (sound_attached s mro SO)) as (L & OK & OLD & (fs & K & ND & IN & SRT) & A & _ & FL & X).
    set (s' := define_class bases mro dict s) in *. set (c0 := length (m_classes s)) in *.
    assert (FO : forall c, ((c < c0)%nat /\ fields_of s' c = fields_of s c) \/ (c = c0 /\ fields_of s' c = fs) \/ ((c0 < c)%nat /\ fields_of s' c = [])).
    { intros c. unfold fields_of. destruct (lt_eq_lt_dec c c0) as [[J|J]|J].
      - left. split; [exact J|]. now rewrite OLD.
      - right. left. subst c. split; [reflexivity|]. now rewrite K.
      - right. right. split; [exact J|]. assert (N : nth_error (m_classes s') c = None) by (apply nth_error_None; lia). now rewrite N. }
    assert (REG : forall f o, nth_error (m_fields s) f = Some o -> fo_parent o <> None -> nth_error (m_fields s') f = Some o).
    { intros f o H P. destruct (X f o H) as [[E _]|(E & _)]; [exact E|contradiction]. }
    assert (GET : forall f o', nth_error (m_fields s') f = Some o' -> exists o, nth_error (m_fields s) f = Some o).
    { intros f o' H. assert (F : (f < length (m_fields s))%nat) by (rewrite <- FL; apply nth_error_Some; congruence).
      destruct (nth_error (m_fields s) f) as [o|] eqn:O; [now exists o|apply nth_error_None in O; lia]. }
    assert (NEW : forall f, In f fs -> exists o, nth_error (m_fields s') f = Some o /\ fo_parent o <> None).
    { intros f I. apply IN in I. destruct I as (n & I).
      assert (G : (f < length (m_fields s))%nat).
      { unfold in_class in I. destruct (alookup dict n) as [m|] eqn:Q.
        - injection I as ->. apply alookup_pair in Q. now apply HD with n.
        - eapply mro_attr_ref; [exact (so_dict _ SO)|exact I]. }
      destruct (nth_error (m_fields s) f) as [o|] eqn:O; [|apply nth_error_None in O; lia].
      destruct (X f o O) as [[E [P|P]]|(_ & m & _ & E)]; [exists o; auto|exfalso; exact (P n I)|]. eexists. split; [exact E|discriminate]. }
    constructor.
    + intros f o' H P. destruct (GET f o' H) as (o & O). destruct (X f o O) as [[E _]|(_ & m & _ & E)]; rewrite H in E; injection E as ->.
      * exact (li_shown _ IH f o O P).
      * unfold as_attached. cbn [fo_name fo_src]. destruct (fo_src o) as [k|]; eexists; eexists; split; reflexivity.
    + intros c f I. destruct (FO c) as [[_ E]|[[_ E]|[_ E]]]; rewrite E in I.
      * destruct (li_fields _ IH c f I) as (o & O & P). exists o. split; [now apply REG|exact P].
      * now apply NEW.
      * destruct I.
    + intros c. destruct (FO c) as [[_ E]|[[_ E]|[_ E]]]; rewrite E.
      * eapply sorted_ext; [|exact (li_sorted _ IH c)]. intros a b Ia Ib. cbv beta. unfold count_of.
        destruct (li_fields _ IH c a Ia) as (x & Xx & Px), (li_fields _ IH c b Ib) as (y & Y & Py). rewrite (REG _ _ Xx Px), (REG _ _ Y Py), Xx, Y. auto.
      * exact SRT.
      * constructor.
    + intros f o' c H P. destruct (GET f o' H) as (o & O). destruct (X f o O) as [[E _]|(_ & m & M & E)]; rewrite H in E; injection E as ->.
      * pose proof (so_parent _ SO f o c O P) as Lc. fold c0 in Lc. destruct (FO c) as [[_ F]|[[Q F]|[Q F]]]; try lia. rewrite F. exact (li_parent _ IH f o c O P).
      * cbn in P. injection P as <-. destruct (FO c0) as [[Q F]|[[Q F]|[Q F]]]; try lia. rewrite F. apply IN. now exists m.
    + intros c. destruct (FO c) as [[_ E]|[[_ E]|[_ E]]]; rewrite E; [apply (li_nodup _ IH)|exact ND|constructor].
Qed.

(** ** The members of a probe *)
Definition copy_of (o : fobj) : fobj := MkF (fo_count o) None (fo_name o) (fo_src o) (fo_choices o).
Lemma set_fresh d n m : ~ In n (map fst d) -> set_member d n m = d ++ [(n, m)].
Proof.
  induction d as [|[k x] d IH]; cbn [set_member map fst app In]; intros N; [reflexivity|].
  destruct (String.eqb_spec k n) as [->|D]; [exfalso; apply N; now left|]. rewrite IH by tauto. reflexivity.
Qed.
Definition nm (s : mst) (f : nat) : string := match nth_error (m_fields s) f with Some (MkF _ _ (Some n) _ _) => n | _ => ""%string end.
Lemma members_run tf : forall pre d s post os, nth_error (m_fields s) tf <> None -> ~ In tf pre ->
  (forall f, In f pre -> nth_error (m_fields s) f <> None) ->
  NoDup (map fst d ++ map (nm s) (pre ++ [tf])) ->
  map (nth_error (m_fields s)) (pre ++ [tf]) = map Some os ->
  probe_members (pre ++ tf :: post) tf d s =
    (Some (d ++ map (fun ni => (fst ni, MField (snd ni))) (combine (map (nm s) (pre ++ [tf])) (seq (length (m_fields s)) (S (length pre))))),
     MkS (m_fields s ++ map copy_of os) (m_classes s) (m_count s)).
Proof.
  induction pre as [|f pre IH]; intros d s post os T N F ND OS.
  - cbn [app probe_members]. unfold clone_field. destruct os as [|o [|]]; try discriminate. cbn [app map] in OS. injection OS as OS. rewrite OS. rewrite Nat.eqb_refl.
    cbn [app map length seq combine fst snd]. f_equal. f_equal. unfold nm. rewrite OS.
    rewrite set_fresh; [reflexivity|]. cbn [app map] in ND. unfold nm in ND. rewrite OS in ND.
    apply NoDup_remove_2 in ND. now rewrite app_nil_r in ND.
  - cbn [app probe_members]. destruct os as [|o os]; [discriminate|]. cbn [app map] in OS. injection OS as O OS.
    unfold clone_field. rewrite O. assert (D : (f =? tf)%nat = false) by (apply Nat.eqb_neq; intros ->; apply N; now left). rewrite D.
    set (s1 := MkS (m_fields s ++ [_]) (m_classes s) (m_count s)).
    assert (OLD : forall g, nth_error (m_fields s) g <> None -> nth_error (m_fields s1) g = nth_error (m_fields s) g).
    { intros g G. cbn [s1 m_fields]. apply nth_error_app1, nth_error_Some, G. }
    assert (ALL : forall g, In g (pre ++ [tf]) -> nth_error (m_fields s) g <> None).
    { intros g I. apply in_app_or in I. destruct I as [I|[<-|[]]]; [apply F; now right|exact T]. }
    assert (NM : map (nm s1) (pre ++ [tf]) = map (nm s) (pre ++ [tf])).
    { apply map_ext_in. intros g G. unfold nm. now rewrite (OLD g (ALL g G)). }
    assert (NF : nm s f = match o with MkF _ _ (Some n) _ _ => n | _ => ""%string end) by (unfold nm; now rewrite O).
    rewrite <- NF.
    assert (FR : ~ In (nm s f) (map fst d)).
    { intros I. cbn [app map] in ND. apply NoDup_remove_2 in ND. apply ND. apply in_or_app. now left. }
    rewrite (set_fresh d (nm s f) _ FR).
    rewrite (IH (d ++ [(nm s f, MField (length (m_fields s)))]) s1 post os).
    + rewrite NM. cbn [s1 m_fields m_classes m_count]. f_equal.
      * f_equal. rewrite <- app_assoc. f_equal. cbn [app map length seq combine fst snd]. rewrite app_length. cbn [length]. rewrite Nat.add_1_r. reflexivity.
      * f_equal. rewrite <- app_assoc. reflexivity.
    + rewrite (OLD tf T). exact T.
    + intros I. apply N. now right.
    + intros g G. rewrite OLD; apply F; now right.
    + rewrite NM, map_app. cbn [map fst]. rewrite <- app_assoc. cbn [app map] in ND. exact ND.
    + rewrite <- OS. apply map_ext_in. intros g G. apply OLD. now apply ALL.
Qed.
Lemma map_seq {A B} (f : nat -> B) (g : A -> B) : forall l N, (forall i x, nth_error l i = Some x -> f (N + i)%nat = g x) ->
  map f (seq N (length l)) = map g l.
Proof.
  induction l as [|a l IH]; intros N H; [reflexivity|]. cbn [length seq map]. f_equal.
  - rewrite <- (H 0%nat a eq_refl). now rewrite Nat.add_0_r.
  - apply IH. intros i x X. rewrite <- (H (S i) x X). f_equal. lia.
Qed.
Lemma sorted_map {A} (key : A -> nat) l : StronglySorted (fun a b => (key a <= key b)%nat) l <-> StronglySorted le (map key l).
Proof.
  induction l as [|a l IH]; [split; constructor|]. cbn [map]. split; intros S; inversion S as [|? ? S1 S2]; subst; constructor; try now apply IH.
  - rewrite Forall_map. exact S2.
  - rewrite Forall_map in S2. exact S2.
Qed.
Lemma sorted_prefix {A} (R : A -> A -> Prop) l l' : StronglySorted R (l ++ l') -> StronglySorted R l.
Proof.
  induction l as [|a l IH]; intros S; [constructor|]. cbn [app] in S. inversion S as [|? ? S1 S2]; subst. constructor; [now apply IH|].
  rewrite Forall_app in S2. apply S2.
Qed.
Lemma alookup_combine names : forall N n m, NoDup names ->
  (alookup (map (fun ni : string * nat => (fst ni, MField (snd ni))) (combine names (seq N (length names)))) n = Some m <->
   exists i, nth_error names i = Some n /\ m = MField (N + i)).
Proof.
  induction names as [|a names IH]; intros N n m ND; cbn [length seq combine map alookup fst snd].
  - split; [discriminate|]. intros (i & H & _). now destruct i.
  - inversion ND as [|? ? N1 N2]; subst. destruct (String.eqb_spec a n) as [->|D].
    + split.
      * intros [= <-]. exists 0%nat. split; [reflexivity|]. now rewrite Nat.add_0_r.
      * intros (i & H & ->). destruct i as [|i]; [now rewrite Nat.add_0_r|]. cbn in H. apply nth_error_In in H. contradiction.
    + rewrite IH by exact N2. split; intros (i & H & ->).
      * exists (S i). split; [exact H|]. f_equal. lia.
      * destruct i as [|i]; [cbn in H; congruence|]. exists i. split; [exact H|]. f_equal. lia.
Qed.
Lemma nth_split_some {A} (l : list (option A)) os : l = map Some os -> forall i x, nth_error os i = Some x -> nth_error l i = Some (Some x).
Proof. intros -> i x H. rewrite nth_error_map, H. reflexivity. Qed.

Lemma C88_lem s form tf o c pre post : built s -> fieldless s form -> nth_error (m_fields s) tf = Some o -> fo_parent o = Some (InClass c) ->
  fields_of s c = pre ++ tf :: post -> NoDup (map (name_of s) (pre ++ [tf])) -> NoDup (map (count_of s) (pre ++ [tf])) ->
  exists p s', for_field form tf s = (Some p, s') /\ only_adds s s' /\
    (length (m_classes s) <= p)%nat /\ (forall f, In f (fields_of s' p) -> (length (m_fields s) <= f)%nat) /\
    map (shows s') (fields_of s' p) = map (shows s) (pre ++ [tf]) /\
    map (count_of s') (fields_of s' p) = map (count_of s) (pre ++ [tf]).
Proof.
  intros B (k & K & FL) T P FO NN NC. pose proof (built_sound _ B) as SO. pose proof (built_listed _ B) as LI.
  set (l := pre ++ [tf]) in *. set (N := length (m_fields s)).
  assert (L2 : fields_of s c = l ++ post) by (unfold l; rewrite <- app_assoc; exact FO).
  assert (NT : ~ In tf pre). { pose proof (li_nodup _ LI c) as X. rewrite FO in X. apply NoDup_remove_2 in X. intros I. apply X. apply in_or_app. now left. }
  assert (OK : forall f, In f l -> exists x n q, nth_error (m_fields s) f = Some x /\ fo_name x = Some n /\ fo_src x = Some q).
  { intros f I. destruct (li_fields _ LI c f) as (x & X & Px); [rewrite L2; apply in_or_app; now left|].
    destruct (li_shown _ LI f x X Px) as (n & q & Q1 & Q2). exists x, n, q. auto. }
  assert (OS : exists os, map (nth_error (m_fields s)) l = map Some os).
  { clear - OK. clearbody l. induction l as [|f l IH]; [now exists []|]. destruct (OK f (or_introl eq_refl)) as (x & _ & _ & X & _).
    destruct IH as (os & E); [intros g I; apply OK; now right|]. exists (x :: os). cbn [map]. now rewrite X, E. }
  destruct OS as (os & OS).
  assert (NMN : map (name_of s) l = map (fun f => Some (nm s f)) l).
  { apply map_ext_in. intros f I. destruct (OK f I) as (x & n & q & X & Xn & _). unfold name_of, nm. rewrite X, Xn. destruct x as [? ? m ? ?]; cbn in Xn; subst m. reflexivity. }
  assert (NM : NoDup (map (nm s) l)). { rewrite NMN, <- map_map in NN. now apply NoDup_map_inv in NN. }
  assert (LO : length os = length l) by (apply (f_equal (@length _)) in OS; rewrite !map_length in OS; lia).
  assert (AT : forall i f x, nth_error l i = Some f -> nth_error (m_fields s) f = Some x -> nth_error os i = Some x).
  { intros i f x I X. apply (f_equal (fun z => nth_error z i)) in OS. rewrite !nth_error_map, I in OS. cbn in OS. rewrite X in OS.
    destruct (nth_error os i); [|discriminate]. now injection OS as ->. }
  unfold for_field. rewrite T. destruct o as [oc op on osr och]. cbn in P. subst op. rewrite FO.
  rewrite (members_run tf pre [] s post os).
  2:{ congruence. } 2:{ exact NT. } 2:{ intros f I. destruct (OK f) as (x & _ & _ & X & _); [apply in_or_app; now left|]. congruence. }
  2:{ exact NM. } 2:{ exact OS. }
  cbn [app]. fold l. replace (S (length pre)) with (length l) by (unfold l; rewrite app_length; cbn; lia).
  set (d := map _ (combine _ _)). set (s1 := MkS (m_fields s ++ map copy_of os) (m_classes s) (m_count s)).
  eexists _, _. split; [reflexivity|]. cbn [s1 m_classes]. fold s1. unfold subclass_of. cbn [s1 m_classes]. rewrite K. fold s1.
  assert (CA : forall b n, class_attr s1 b n = class_attr s b n) by (intros; now apply class_attr_shape).
  assert (Lf : (form < length (m_classes s))%nat) by (apply nth_error_Some; congruence).
  assert (BD : forall b, In b (form :: c_mro k) -> (b < length (m_classes s1))%nat).
  { intros b [<-|I]; [exact Lf|]. exact (so_mro _ SO form k b K I). }
  assert (BA : bases_attached (form :: c_mro k) s1). { intros b n g I A. rewrite CA in A. exfalso. exact (FL b n g I A). }
  assert (MO : mro_ok s1) by exact (so_mro _ SO).
  destruct (define_lem s1 [form] (form :: c_mro k) d MO BD BA) as (_ & _ & OLD & (fs & KF & ND & IN & SRT) & _ & _ & _ & X).
  set (s' := define_class [form] (form :: c_mro k) d s1) in *. set (p := length (m_classes s1)) in *.
  assert (IC : forall n f, in_class s1 (form :: c_mro k) d n = Some (MField f) <-> exists i, nth_error (map (nm s) l) i = Some n /\ f = (N + i)%nat).
  { intros n f. unfold in_class. 
    assert (AC : forall m, NoDup (map (nm s) l) -> (alookup d n = Some m <-> exists i, nth_error (map (nm s) l) i = Some n /\ m = MField (N + i))).
    { intros m D. pose proof (alookup_combine (map (nm s) l) N n m D) as AC. rewrite map_length in AC. exact AC. }
    destruct (alookup d n) as [m|] eqn:Q.
    - destruct (proj1 (AC m NM) eq_refl) as (i & I & ->). split.
      + intros [= <-]. exists i. auto.
      + intros (j & J & ->). assert (i = j) as ->; [|reflexivity].
        apply (proj1 (NoDup_nth_error (map (nm s) l)) NM); [apply nth_error_Some; congruence|congruence].
    - split.
      + intros H. exfalso. assert (E : mro_attr s1 (form :: c_mro k) n = class_attr s form n).
        { rewrite <- CA. unfold class_attr. cbn [s1 m_classes]. now rewrite K. }
        rewrite E in H. exact (FL form n f (or_introl eq_refl) H).
      + intros (i & I & ->). exfalso. assert (A : exists j, nth_error (map (nm s) l) j = Some n /\ MField (N + i) = MField (N + j)) by eauto.
        apply (AC _ NM) in A. congruence. }
  assert (NEW : forall i f x, nth_error l i = Some f -> nth_error (m_fields s) f = Some x ->
     nth_error (m_fields s') (N + i) = Some (MkF (fo_count x) (Some (InClass p)) (fo_name x) (fo_src x) (fo_choices x))).
  { intros i f x I Hx. pose proof (AT i f x I Hx) as Oi.
    assert (G : nth_error (m_fields s1) (N + i) = Some (copy_of x)).
    { cbn [s1 m_fields]. rewrite nth_error_app2 by (unfold N; lia). replace (N + i - length (m_fields s))%nat with i by (unfold N; lia).
      rewrite nth_error_map, Oi. reflexivity. }
    assert (In f l) as If by (eapply nth_error_In; exact I). destruct (OK f If) as (x' & n & q & X' & Xn & Xq). rewrite Hx in X'. injection X' as <-.
    assert (Nf : nth_error (map (nm s) l) i = Some n).
    { rewrite nth_error_map, I. cbn. unfold nm. rewrite Hx. destruct x as [? ? m ? ?]; cbn in Xn; subst m. reflexivity. }
    destruct (X _ _ G) as [[_ [H|H]]|(_ & m & M & E)].
    - contradiction H. reflexivity.
    - exfalso. apply (H n). apply IC. exists i. auto.
    - apply IC in M. destruct M as (j & J & EJ). assert (j = i) by lia. subst j. assert (m = n) by congruence. subst m.
      rewrite E. unfold as_attached. rewrite base_count_none; [|intros b g Ib A; rewrite CA in A; exact (FL b n g Ib A)].
      cbn [copy_of fo_count fo_src fo_choices]. rewrite Xn, Xq. reflexivity. }
  assert (FS : fs = seq N (length l)).
  { apply (sorted_unique (count_of s')).
    - apply NoDup_Permutation; [exact ND|apply seq_NoDup|]. intros f. rewrite IN, in_seq. split.
      + intros (n & H). apply IC in H. destruct H as (i & I & ->). assert ((i < length l)%nat) by (rewrite <- (map_length (nm s)); apply nth_error_Some; congruence). lia.
      + intros H. destruct (nth_error l (f - N)) as [g|] eqn:G; [|apply nth_error_None in G; lia].
        exists (nm s g). apply IC. exists (f - N)%nat. split; [now rewrite nth_error_map, G|lia].
    - apply (Permutation_NoDup (l := map (count_of s) l)); [|exact NC].
      rewrite <- (map_seq (count_of s') (count_of s) l N).
      + apply Permutation_map. apply NoDup_Permutation; [apply seq_NoDup|exact ND|]. intros f. rewrite IN, in_seq. split.
        * intros H. destruct (nth_error l (f - N)) as [g|] eqn:G; [|apply nth_error_None in G; lia].
          exists (nm s g). apply IC. exists (f - N)%nat. split; [now rewrite nth_error_map, G|lia].
        * intros (n & H). apply IC in H. destruct H as (i & I & ->). assert ((i < length l)%nat) by (rewrite <- (map_length (nm s)); apply nth_error_Some; congruence). lia.
      + intros i f I. destruct (OK f) as (x & _ & _ & Hx & _); [eapply nth_error_In; exact I|]. unfold count_of. rewrite (NEW i f x I Hx), Hx. reflexivity.
    - exact SRT.
    - apply sorted_map. rewrite (map_seq (count_of s') (count_of s) l N).
      + apply (proj1 (sorted_map (count_of s) l)). apply (sorted_prefix _ l post). pose proof (li_sorted _ LI c) as SC. rewrite L2 in SC. exact SC.
      + intros i f I. destruct (OK f) as (x & _ & _ & Hx & _); [eapply nth_error_In; exact I|]. unfold count_of. rewrite (NEW i f x I Hx), Hx. reflexivity. }
  assert (FP : fields_of s' p = seq N (length l)) by (unfold fields_of; rewrite KF; exact FS).
  split; [|split; [|split; [|split]]].
  - split; [exact OLD|]. intros f Lt. destruct (nth_error (m_fields s) f) as [x|] eqn:Hx; [|apply nth_error_None in Hx; lia].
    assert (G : nth_error (m_fields s1) f = Some x) by (cbn [s1 m_fields]; rewrite nth_error_app1 by exact Lt; exact Hx).
    destruct (X f x G) as [[E _]|(_ & n & H & _)]; [exact E|]. apply IC in H. destruct H as (i & _ & ->). unfold N in Lt. lia.
  - unfold p. cbn [s1 m_classes]. lia.
  - change (length (m_classes s)) with p. rewrite FP. intros f I. apply in_seq in I. unfold N in I. lia.
  - change (length (m_classes s)) with p. rewrite FP. apply map_seq. intros i f I. destruct (OK f) as (x & _ & _ & Hx & _); [eapply nth_error_In; exact I|].
    unfold shows. rewrite (NEW i f x I Hx), Hx. reflexivity.
  - change (length (m_classes s)) with p. rewrite FP. apply map_seq. intros i f I. destruct (OK f) as (x & _ & _ & Hx & _); [eapply nth_error_In; exact I|].
    unfold count_of. rewrite (NEW i f x I Hx), Hx. reflexivity.
Qed.
Lemma members_found tf : forall l d s, In tf l -> exists d' s', probe_members l tf d s = (Some d', s').
Proof.
  induction l as [|f l IH]; intros d s I; [destruct I|]. cbn [probe_members]. destruct (clone_field f s) as [g s1].
  destruct (f =? tf)%nat eqn:E; [eauto|]. destruct I as [->|I]; [rewrite Nat.eqb_refl in E; discriminate|]. now apply IH.
Qed.
Lemma C88_found_lem s form tf o c : built s -> nth_error (m_fields s) tf = Some o -> fo_parent o = Some (InClass c) ->
  exists p s', for_field form tf s = (Some p, s').
Proof.
  intros B T P. pose proof (li_parent _ (built_listed _ B) tf o c T P) as I. unfold for_field. rewrite T. destruct o as [? op ? ? ?]. cbn in P. subst op.
  destruct (members_found tf (fields_of s c) [] s I) as (d & s' & ->). eauto.
Qed.

(** ** Keyword order *)
Record alike (s s' : mst) : Prop := {
  al_fields : m_fields s' = m_fields s;
  al_count : m_count s' = m_count s;
  al_classes : Forall2 (fun k k' => c_bases k' = c_bases k /\ c_mro k' = c_mro k /\ c_fields k' = c_fields k /\ forall n, alookup (c_dict k') n = alookup (c_dict k) n)
    (m_classes s) (m_classes s')
}.
Lemma forall2_nth {A} (R : A -> A -> Prop) l l' : Forall2 R l l' -> forall c,
  match nth_error l c, nth_error l' c with Some x, Some y => R x y | None, None => True | _, _ => False end.
Proof. induction 1 as [|x y l l' H F IH]; intros [|c]; [exact I|exact I|exact H|exact (IH c)]. Qed.
Lemma alike_mro s s' l n : alike s s' -> mro_attr s' l n = mro_attr s l n.
Proof.
  intros A. induction l as [|c l IH]; [reflexivity|]. cbn [mro_attr]. pose proof (forall2_nth _ _ _ (al_classes _ _ A) c) as H.
  destruct (nth_error (m_classes s) c), (nth_error (m_classes s') c); try contradiction; [|exact IH].
  destruct H as (_ & _ & _ & ->). now rewrite IH.
Qed.
Lemma alike_attr s s' c n : alike s s' -> class_attr s' c n = class_attr s c n.
Proof.
  intros A. unfold class_attr. pose proof (forall2_nth _ _ _ (al_classes _ _ A) c) as H.
  destruct (nth_error (m_classes s) c), (nth_error (m_classes s') c); try contradiction; [|reflexivity].
  destruct H as (_ & -> & _ & _). now apply alike_mro.
Qed.
Lemma alike_base s s' l n : alike s s' -> base_count s' l n = base_count s l n.
Proof.
  intros A. induction l as [|b l IH]; [reflexivity|]. cbn [base_count]. rewrite (alike_attr s s' b n A), IH.
  unfold count_of. now rewrite (al_fields _ _ A).
Qed.
Lemma alike_attach f c n s s' : alike s s' -> alike (attach f c n s) (attach f c n s').
Proof.
  intros A. pose proof (forall2_nth _ _ _ (al_classes _ _ A) c) as H. unfold attach. rewrite (al_fields _ _ A).
  destruct (nth_error (m_fields s) f) as [o|]; [|exact A].
  destruct (nth_error (m_classes s) c) as [k|], (nth_error (m_classes s') c) as [k'|]; try contradiction; [|exact A].
  destruct H as (_ & M & _ & _). rewrite M, (alike_base s s' _ n A). constructor; cbn [m_fields m_count m_classes]; [reflexivity|exact (al_count _ _ A)|exact (al_classes _ _ A)].
Qed.
Lemma alike_collect c : forall names acc s s', alike s s' ->
  fst (collect c names acc s') = fst (collect c names acc s) /\ alike (snd (collect c names acc s)) (snd (collect c names acc s')).
Proof.
  induction names as [|n names IH]; intros acc s s' A; [split; [reflexivity|exact A]|]. cbn [collect]. rewrite (alike_attr s s' c n A).
  destruct (class_attr s c n) as [[f|]|]; try now apply IH.
  assert (E : is_attached s' f = is_attached s f) by (unfold is_attached; now rewrite (al_fields _ _ A)). rewrite E.
  apply IH. destruct (is_attached s f); [exact A|now apply alike_attach].
Qed.

(** Sorted without repetitions: determined by what is in it *)
Definition slt (a b : string) : Prop := String.compare a b = Lt.
Lemma slt_trans a b c : slt a b -> slt b c -> slt a c.
Proof.
  unfold slt. revert b c. induction a as [|x a IH]; intros [|y b] [|z c]; cbn; try discriminate; auto.
  unfold Ascii.compare. destruct (N.compare_spec (Ascii.N_of_ascii x) (Ascii.N_of_ascii y)) as [E|E|E]; intros H; try discriminate;
    destruct (N.compare_spec (Ascii.N_of_ascii y) (Ascii.N_of_ascii z)) as [F|F|F]; intros H'; try discriminate.
  - rewrite E, F, N.compare_refl. eauto.
  - rewrite E. now apply N.compare_lt_iff in F as ->.
  - rewrite <- F. now apply N.compare_lt_iff in E as ->.
  - assert (L : N.lt (Ascii.N_of_ascii x) (Ascii.N_of_ascii z)) by (eapply N.lt_trans; eassumption). now apply N.compare_lt_iff in L as ->.
Qed.
Lemma slt_irrefl a : ~ slt a a.
Proof. unfold slt. induction a as [|x a IH]; cbn; [discriminate|]. unfold Ascii.compare. rewrite N.compare_refl. exact IH. Qed.
Lemma compare_gt n m : String.compare n m = Gt -> slt m n.
Proof. unfold slt. rewrite String.compare_antisym. destruct (String.compare m n); cbn; congruence. Qed.
Lemma insert_name_sorted n l : StronglySorted slt l -> StronglySorted slt (insert_name n l).
Proof.
  induction l as [|m l IH]; intros S; cbn [insert_name]; [repeat constructor|]. destruct (String.compare n m) eqn:C.
  - exact S.
  - constructor; [exact S|]. inversion S as [|? ? S1 S2]; subst. constructor; [exact C|]. eapply Forall_impl; [|exact S2]. intros x. apply slt_trans. exact C.
  - inversion S as [|? ? S1 S2]; subst. constructor; [now apply IH|]. rewrite Forall_forall in *. intros x I. apply insert_name_in in I.
    destruct I as [->|I]; [now apply compare_gt|now apply S2].
Qed.
Lemma sorted_same : forall l l', StronglySorted slt l -> StronglySorted slt l' -> (forall x, In x l <-> In x l') -> l = l'.
Proof.
  induction l as [|a l IH]; intros l' S S' E.
  - destruct l' as [|b l']; [reflexivity|]. exfalso. apply (proj2 (E b)). now left.
  - destruct l' as [|b l']; [exfalso; apply (proj1 (E a)); now left|].
    inversion S as [|? ? S1 S2]; subst. inversion S' as [|? ? S1' S2']; subst. rewrite Forall_forall in S2, S2'.
    assert (a = b).
    { destruct (proj1 (E a) (or_introl eq_refl)) as [->|I]; [reflexivity|]. destruct (proj2 (E b) (or_introl eq_refl)) as [->|J]; [reflexivity|].
      exfalso. apply (slt_irrefl a). apply slt_trans with b; [now apply S2|now apply S2']. }
    subst b. f_equal. apply IH; auto. intros x. split; intros I.
    + destruct (proj1 (E x) (or_intror I)) as [->|J]; [|exact J]. exfalso. exact (slt_irrefl _ (S2 _ I)).
    + destruct (proj2 (E x) (or_intror I)) as [->|J]; [|exact J]. exfalso. exact (slt_irrefl _ (S2' _ I)).
Qed.
Lemma dir_sorted s l : StronglySorted slt (dir s l).
Proof. unfold dir. induction (flat_map _ l) as [|n r IH]; cbn [fold_right]; [constructor|now apply insert_name_sorted]. Qed.
Lemma dir_in s l n : In n (dir s l) <-> exists c k, In c l /\ nth_error (m_classes s) c = Some k /\ In n (map fst (c_dict k)).
Proof.
  unfold dir. rewrite fold_insert_in, in_flat_map. split.
  - intros (c & I & H). destruct (nth_error (m_classes s) c) as [k|] eqn:K; [|destruct H]. exists c, k. auto.
  - intros (c & k & I & K & H). exists c. rewrite K. auto.
Qed.
Lemma alike_names (d d' : list (string * member)) : (forall n, alookup d' n = alookup d n) -> forall n, In n (map fst d') <-> In n (map fst d).
Proof.
  assert (X : forall (d : list (string * member)) n, In n (map fst d) <-> alookup d n <> None).
  { clear. induction d as [|[k x] d IH]; intros n; cbn [map fst alookup In]; [tauto|]. destruct (String.eqb_spec k n) as [->|D].
    - split; [discriminate|]. now left.
    - rewrite <- IH. tauto. }
  intros H n. rewrite !X, H. reflexivity.
Qed.
Lemma alike_dir s s' l : alike s s' -> dir s' l = dir s l.
Proof.
  intros A. apply sorted_same; [apply dir_sorted|apply dir_sorted|]. intros n. rewrite !dir_in.
  pose proof (forall2_nth _ _ _ (al_classes _ _ A)) as F.
  split; intros (c & k & I & K & H); specialize (F c); rewrite K in F; exists c.
  - destruct (nth_error (m_classes s) c) as [k0|]; [|contradiction]. exists k0. split; [exact I|]. split; [reflexivity|]. apply (alike_names (c_dict k0) (c_dict k)); [apply F|exact H].
  - destruct (nth_error (m_classes s') c) as [k0|]; [|contradiction]. exists k0. split; [exact I|]. split; [reflexivity|]. apply (alike_names (c_dict k) (c_dict k0)); [apply F|exact H].
Qed.
Lemma define_alike s bases mro d d' : (forall n, alookup d' n = alookup d n) ->
  alike (define_class bases mro d s) (define_class bases mro d' s).
Proof.
  intros E. unfold define_class. set (c := length (m_classes s)).
  set (s1 := MkS (m_fields s) (m_classes s ++ [MkC bases mro d []]) (m_count s)). set (s1' := MkS (m_fields s) (m_classes s ++ [MkC bases mro d' []]) (m_count s)).
  assert (RF : forall l : list cls, Forall2 (fun k k' => c_bases k' = c_bases k /\ c_mro k' = c_mro k /\ c_fields k' = c_fields k /\ forall n, alookup (c_dict k') n = alookup (c_dict k) n) l l).
  { induction l; constructor; auto. }
  assert (A1 : alike s1 s1').
  { constructor; [reflexivity|reflexivity|]. cbn [s1 s1' m_classes]. apply Forall2_app; [apply RF|]. constructor; [|constructor]. cbn. auto. }
  rewrite (alike_dir s1 s1' _ A1). destruct (alike_collect c (dir s1 (c :: mro)) [] s1 s1' A1) as [F A2].
  destruct (collect c (dir s1 (c :: mro)) [] s1) as [fs s2], (collect c (dir s1 (c :: mro)) [] s1') as [fs' s2']. cbn [fst snd] in *. subst fs'.
  constructor; cbn [m_fields m_count m_classes]; [exact (al_fields _ _ A2)|exact (al_count _ _ A2)|].
  assert (CO : count_of s2' = count_of s2) by (unfold count_of; now rewrite (al_fields _ _ A2)). rewrite CO.
  assert (RP : forall (R : cls -> cls -> Prop) l l' i x y, Forall2 R l l' -> R x y -> Forall2 R (replace_nth i x l) (replace_nth i y l')).
  { clear. intros R l l' i x y H XY. revert i. induction H as [|a b l l' AB F IH]; intros [|i]; unfold replace_nth; cbn [nth_error]; try constructor; auto.
    specialize (IH i). unfold replace_nth in IH. destruct (nth_error l i) eqn:N1, (nth_error l' i) eqn:N2; cbn [firstn skipn app] in *; try (constructor; auto);
      pose proof (forall2_nth _ _ _ F i) as Z; rewrite N1, N2 in Z; contradiction. }
  apply RP; [exact (al_classes _ _ A2)|]. cbn. auto.
Qed.
Lemma alookup_perm {A} (d d' : list (string * A)) : Permutation d d' -> NoDup (map fst d) -> forall n, alookup d' n = alookup d n.
Proof.
  intros P. induction P as [|[k x] d d' P IH|[k x] [k' x'] d|d d' d'' P1 IH1 P2 IH2]; intros ND n; cbn [alookup map fst] in *.
  - reflexivity.
  - inversion ND; subst. destruct (String.eqb k n); [reflexivity|now apply IH].
  - inversion ND as [|? ? N1 N2]; subst. cbn in N1. destruct (String.eqb_spec k n) as [->|], (String.eqb_spec k' n) as [->|]; try reflexivity. exfalso. apply N1. now left.
  - rewrite IH2, IH1; [reflexivity|exact ND|]. apply (Permutation_NoDup (Permutation_map fst P1) ND).
Qed.
Lemma C89_order_lem s base fs fs' : Permutation fs fs' -> NoDup (map fst fs) ->
  let c := fst (from_fields base fs s) in let s1 := snd (from_fields base fs s) in let s2 := snd (from_fields base fs' s) in
  fst (from_fields base fs' s) = c /\ m_fields s2 = m_fields s1 /\ forall b, fields_of s2 b = fields_of s1 b.
Proof.
  intros P ND. cbv zeta. unfold from_fields, subclass_of. cbn [fst snd].
  set (mro := base :: match nth_error (m_classes s) base with Some k => c_mro k | None => [] end). assert (A : alike (define_class [base] mro (map (fun nf => (fst nf, MField (snd nf))) fs) s)
    (define_class [base] mro (map (fun nf => (fst nf, MField (snd nf))) fs') s)).
  { apply define_alike. apply alookup_perm; [now apply Permutation_map|]. now rewrite map_map. }
  split; [reflexivity|]. split; [exact (al_fields _ _ A)|]. intros b. unfold fields_of. pose proof (forall2_nth _ _ _ (al_classes _ _ A) b) as H.
  destruct (nth_error (m_classes (define_class [base] mro (map (fun nf => (fst nf, MField (snd nf))) fs) s)) b), (nth_error (m_classes (define_class [base] mro (map (fun nf => (fst nf, MField (snd nf))) fs') s)) b); try contradiction; [|reflexivity].
  apply H.
Qed.

Lemma alookup_nodup {A} (d : list (string * A)) n x : NoDup (map fst d) -> (alookup d n = Some x <-> In (n, x) d).
Proof.
  induction d as [|[k y] d IH]; cbn [alookup map fst In]; intros ND; [split; [discriminate|intros []]|].
  inversion ND as [|? ? N1 N2]; subst. destruct (String.eqb_spec k n) as [->|D].
  - split; [intros [= ->]; now left|]. intros [[= ->]|I]; [reflexivity|]. exfalso. apply N1. now apply (in_map fst) in I.
  - rewrite IH by exact N2. split; [now right|]. intros [[= <- <-]|I]; [contradiction|exact I].
Qed.
Lemma C89_names_lem s base fs : built s -> fieldless s base -> NoDup (map fst fs) -> NoDup (map snd fs) ->
  (forall n f, In (n, f) fs -> unregistered s f) ->
  let c := fst (from_fields base fs s) in let s' := snd (from_fields base fs s) in
  Permutation (fields_of s' c) (map snd fs) /\
  StronglySorted (fun a b => (count_of s a <= count_of s b)%nat) (fields_of s' c) /\
  (forall n f, In (n, f) fs -> name_of s' f = Some n).
Proof.
  intros B (k & K & FL) NN NF UN c s'. pose proof (built_sound _ B) as SO.
  assert (Lb : (base < length (m_classes s))%nat) by (apply nth_error_Some; congruence).
  assert (BD : forall b, In b (base :: c_mro k) -> (b < length (m_classes s))%nat).
  { intros b [<-|I]; [exact Lb|]. exact (so_mro _ SO base k b K I). }
  set (d := map (fun nf => (fst nf, MField (snd nf))) fs).
  assert (S' : s' = define_class [base] (base :: c_mro k) d s) by (unfold s', from_fields, subclass_of; cbn [snd]; now rewrite K).
  destruct (define_lem s [base] (base :: c_mro k) d (so_mro _ SO) BD (sound_attached _ _ SO)) as (_ & _ & _ & (l & KF & ND & IN & SRT) & _ & _ & _ & X).
  rewrite <- S' in *. change (length (m_classes s)) with c in *.
  assert (IC : forall n f, in_class s (base :: c_mro k) d n = Some (MField f) <-> In (n, f) fs).
  { intros n f. unfold in_class. destruct (alookup d n) as [m|] eqn:Q.
    - pose proof Q as Q'. apply alookup_nodup in Q; [|unfold d; now rewrite map_map]. unfold d in Q. apply in_map_iff in Q. destruct Q as ([n' f'] & [= -> <-] & I). split.
      + intros [= <-]. exact I.
      + intros J. assert (Z : alookup d n = Some (MField f)); [|congruence]. apply alookup_nodup; [unfold d; now rewrite map_map|]. apply in_map_iff. now exists (n, f).
    - split.
      + intros H. exfalso. assert (E : mro_attr s (base :: c_mro k) n = class_attr s base n) by (unfold class_attr; now rewrite K).
        rewrite E in H. exact (FL base n f (or_introl eq_refl) H).
      + intros J. exfalso. assert (Z : alookup d n = Some (MField f)); [|congruence]. apply alookup_nodup; [unfold d; now rewrite map_map|]. apply in_map_iff. now exists (n, f). }
  assert (FC : fields_of s' c = l) by (unfold fields_of; now rewrite KF). rewrite FC.
  assert (AT : forall n f, In (n, f) fs -> exists o, nth_error (m_fields s) f = Some o /\ nth_error (m_fields s') f = Some (as_attached s c (base :: c_mro k) n o)).
  { intros n f I. destruct (UN n f I) as (o & O & P). exists o. split; [exact O|]. destruct (X f o O) as [[_ [H|H]]|(_ & m & M & E)].
    - contradiction.
    - exfalso. apply (H n). now apply IC.
    - apply IC in M. rewrite E. f_equal. f_equal. clear - NF I M. induction fs as [|[a b] fs IH]; [destruct I|].
      cbn [map snd] in NF. inversion NF as [|? ? N1 N2]; subst. destruct I as [[= -> ->]|I], M as [[= ->]|M].
      + reflexivity.
      + exfalso. apply N1. now apply (in_map snd) in M.
      + exfalso. subst. apply N1. now apply (in_map snd) in I.
      + now apply IH. }
  assert (PM : Permutation l (map snd fs)).
  { apply NoDup_Permutation; [exact ND|exact NF|]. intros f. rewrite IN, in_map_iff. split.
    - intros (n & H). apply IC in H. now exists (n, f).
    - intros ([n g] & <- & I). exists n. now apply IC. }
  split; [exact PM|]. split.
  - eapply sorted_ext; [|exact SRT]. intros a b Ia Ib. cbv beta.
    assert (CO : forall f, In f l -> count_of s' f = count_of s f).
    { intros f I. apply (Permutation_in _ PM), in_map_iff in I. destruct I as ([n g] & <- & I). cbn [snd]. destruct (AT n g I) as (o & O & O').
      unfold count_of. rewrite O, O'. cbn [as_attached fo_count]. rewrite base_count_none; [reflexivity|]. intros b0 h Ib0. now apply FL. }
    rewrite (CO a Ia), (CO b Ib). auto.
  - intros n f I. destruct (AT n f I) as (o & _ & O'). unfold name_of. rewrite O'. reflexivity.
Qed.
