(** Proof of the field order along a line of classes. *)
From Coq Require Import Lia Permutation Sorted.
From Verif Require Import PyBase PyStr Meta SpecMeta Balance MetaProofs.

Fixpoint fi (n : string) (l : list string) : nat :=
  match l with [] => O | m :: r => if string_dec n m then O else S (fi n r) end.
Lemma fi_in n l : In n l -> nth_error l (fi n l) = Some n.
Proof. induction l as [|m r IH]; [easy|]. intros I. cbn [fi]. destruct (string_dec n m) as [<-|D]; [reflexivity|]. destruct I as [E|I]; [congruence|]. now apply IH. Qed.
Lemma fi_app n l r : In n l -> fi n (l ++ r) = fi n l.
Proof. induction l as [|m l IH]; [easy|]. intros I. cbn [app fi]. destruct (string_dec n m) as [<-|D]; [reflexivity|]. destruct I as [E|I]; [congruence|]. now rewrite IH. Qed.
Lemma fi_skip n l r : ~ In n l -> fi n (l ++ r) = (length l + fi n r)%nat.
Proof. induction l as [|m l IH]; intros I; [reflexivity|]. cbn [app fi length]. destruct (string_dec n m) as [<-|D]; [exfalso; apply I; now left|]. rewrite IH; [reflexivity|]. intros J. apply I. now right. Qed.
Lemma fi_nth n l i : NoDup l -> nth_error l i = Some n -> fi n l = i.
Proof.
  intros ND. revert i. induction ND as [|m l NI ND IH]; intros i H; [now destruct i|]. cbn [fi]. destruct i as [|i]; cbn in H.
  - injection H as ->. now destruct (string_dec n n).
  - destruct (string_dec n m) as [<-|D]; [exfalso; apply NI; now apply nth_error_In with i|]. f_equal. now apply IH.
Qed.
Lemma fi_inj n m l : In n l -> In m l -> fi n l = fi m l -> n = m.
Proof. intros I J E. apply fi_in in I, J. rewrite E in I. congruence. Qed.

(** ** Sorted lists with the same elements *)
Lemma same_sorted (key : string -> nat) l1 l2 :
  StronglySorted (fun a b => (key a < key b)%nat) l1 -> StronglySorted (fun a b => (key a < key b)%nat) l2 ->
  (forall x, In x l1 <-> In x l2) -> l1 = l2.
Proof.
  revert l2. induction l1 as [|a l1 IH]; intros l2 S1 S2 E.
  - destruct l2 as [|b l2]; [reflexivity|]. exfalso. apply (E b). now left.
  - destruct l2 as [|b l2]; [exfalso; apply (E a); now left|]. inversion S1 as [|? ? S1' F1]. inversion S2 as [|? ? S2' F2]. subst.
    rewrite Forall_forall in F1, F2. assert (a = b).
    { destruct (proj1 (E a) (or_introl eq_refl)) as [H|H]; [now symmetry|].
      destruct (proj2 (E b) (or_introl eq_refl)) as [H'|H']; [exact H'|]. specialize (F1 b H'). specialize (F2 a H). lia. }
    subst b. f_equal. apply IH; [assumption|assumption|]. intros x. split; intros I.
    + destruct (proj1 (E x) (or_intror I)) as [<-|H]; [|exact H]. specialize (F1 _ I). lia.
    + destruct (proj2 (E x) (or_intror I)) as [<-|H]; [|exact H]. specialize (F2 _ I). lia.
Qed.

(** ** The expected names *)
Lemma firsts_in l seen x : In x (firsts l seen) <-> In x l /\ ~ In x seen.
Proof.
  revert seen. induction l as [|n l IH]; intros seen; cbn [firsts]; [firstorder|].
  destruct (in_dec string_dec n seen) as [I|I].
  - rewrite IH. split; [intros [A B]; split; [now right|exact B]|]. intros [[<-|A] B]; [contradiction|]. now split.
  - cbn [In]. rewrite IH. split.
    + intros [<-|[A B]]; [split; [now left|exact I]|]. split; [now right|]. intros J. apply B. now right.
    + intros [[<-|A] B]; [now left|]. destruct (string_dec n x) as [<-|D]; [now left|]. right. split; [exact A|]. intros [E|J]; [congruence|contradiction].
Qed.
Lemma firsts_sorted l : forall pre seen, (forall x, In x seen <-> In x pre) ->
  StronglySorted (fun a b => (fi a (pre ++ l) < fi b (pre ++ l))%nat) (firsts l seen).
Proof.
  induction l as [|n l IH]; intros pre seen E; cbn [firsts]; [constructor|].
  assert (SH : forall L, StronglySorted (fun a b => (fi a ((pre ++ [n]) ++ l) < fi b ((pre ++ [n]) ++ l))%nat) L ->
               StronglySorted (fun a b => (fi a (pre ++ n :: l) < fi b (pre ++ n :: l))%nat) L).
  { intros L. now rewrite <- app_assoc. }
  destruct (in_dec string_dec n seen) as [I|I].
  - apply SH, IH. intros x. rewrite E, in_app_iff. cbn. split; [now left|]. intros [A|[<-|[]]]; [exact A|]. now apply E.
  - constructor.
    + apply SH, IH. intros x. rewrite in_app_iff. cbn. rewrite E. tauto.
    + apply Forall_forall. intros x J. apply firsts_in in J. destruct J as [J K].
      assert (~ In n pre) by (intros Q; apply I, E, Q). assert (~ In x pre) by (intros Q; apply K; right; apply E, Q).
      rewrite !fi_skip by assumption. cbn [fi]. destruct (string_dec n n); [|congruence]. destruct (string_dec x n) as [->|]; [exfalso; apply K; now left|]. lia.
Qed.
Lemma filter_sorted {A} (R : A -> A -> Prop) p l : StronglySorted R l -> StronglySorted R (filter p l).
Proof.
  induction 1 as [|a l S IH F]; [constructor|]. cbn [filter]. destruct (p a); [|exact IH]. constructor; [exact IH|].
  rewrite Forall_forall in *. intros x I. apply filter_In in I. now apply F.
Qed.
Lemma alookup_pair {A} (l : list (string * A)) n m : alookup l n = Some m -> In (n, m) l.
Proof.
  induction l as [|[k v] l IH]; cbn [alookup In]; [discriminate|]. destruct (String.eqb k n) eqn:E; [|intros H; right; now apply IH].
  apply String.eqb_eq in E as ->. intros H. injection H as ->. now left.
Qed.
Lemma pair_alookup {A} (l : list (string * A)) n m : NoDup (map fst l) -> In (n, m) l -> alookup l n = Some m.
Proof.
  induction l as [|[k v] l IH]; [easy|]. cbn [map fst alookup In]. intros ND. inversion ND as [|? ? NI ND']. subst. intros [E|I].
  - injection E as -> ->. now rewrite String.eqb_refl.
  - destruct (String.eqb k n) eqn:E; [|now apply IH]. apply String.eqb_eq in E as ->. exfalso. apply NI. apply in_map_iff. now exists (n, m).
Qed.
Lemma last_said_field bodies n : forall sofar, last_said bodies n sofar = Some DField -> sofar = Some DField \/ In n (declared bodies).
Proof.
  induction bodies as [|b bs IH]; intros sofar H; cbn in H; [now left|]. apply IH in H.
  unfold declared in *. cbn [flat_map]. rewrite in_app_iff. destruct H as [H|H]; [|tauto].
  destruct (alookup b n) as [d|] eqn:A; [|now left]. injection H as ->. right. left. apply alookup_pair in A.
  unfold field_names. apply in_flat_map. exists (n, DField). split; [exact A|]. now left.
Qed.

(** ** Writing a body *)
Definition meant (d : decl) (base : nat) (D : list string) (n : string) : member :=
  match d with DOther => MOther | DField => MField (base + fi n D) end.
Lemma declare_lem b : forall s d s1, NoDup (map fst b) -> declare b s = (d, s1) -> m_count s = length (m_fields s) ->
  m_classes s1 = m_classes s /\
  m_fields s1 = m_fields s ++ map (fun i => MkF (S i) None None None None) (seq (length (m_fields s)) (length (field_names b))) /\
  m_count s1 = length (m_fields s1) /\
  (forall n, alookup d n = option_map (fun x => meant x (length (m_fields s)) (field_names b) n) (alookup b n)).
Proof.
  induction b as [|[n dc] b IH]; intros s d s1 ND H C.
  - cbn in H. injection H as <- <-. cbn. rewrite app_nil_r. now repeat split.
  - cbn [map fst] in ND. inversion ND as [|? ? NI ND']. subst. cbn [declare] in H. destruct dc.
    + unfold new_field in H. destruct (declare b _) as [d' s2] eqn:Q. injection H as <- <-.
      destruct (IH _ _ _ ND' Q) as (A & B & E & F); [cbn [m_count m_fields]; rewrite app_length; cbn; lia|].
      cbn [m_classes m_fields] in *. split; [exact A|]. split; [|split; [exact E|]].
      * rewrite B. cbn [field_names flat_map snd fst app length seq map]. rewrite app_length. cbn [length]. rewrite <- app_assoc. cbn [app].
        rewrite C. now rewrite Nat.add_1_r.
      * intros m. cbn [alookup]. destruct (String.eqb n m) eqn:M.
        -- apply String.eqb_eq in M as ->. cbn [option_map meant field_names flat_map snd fst app fi].
           destruct (string_dec m m); [|congruence]. now rewrite Nat.add_0_r.
        -- rewrite F. apply String.eqb_neq in M. destruct (alookup b m) as [[]|]; cbn [option_map meant]; try reflexivity.
           cbn [field_names flat_map snd fst app fi]. destruct (string_dec m n); [congruence|]. rewrite app_length. cbn [length]. do 2 f_equal. fold (field_names b). lia.
    + destruct (declare b s) as [d' s2] eqn:Q. injection H as <- <-. destruct (IH _ _ _ ND' Q C) as (A & B & E & F).
      split; [exact A|]. split; [exact B|]. split; [exact E|]. intros m. cbn [alookup]. destruct (String.eqb n m) eqn:M; [reflexivity|]. rewrite F. reflexivity.
Qed.

Lemma field_names_in b n : NoDup (map fst b) -> (In n (field_names b) <-> alookup b n = Some DField).
Proof.
  intros ND. unfold field_names. rewrite in_flat_map. split.
  - intros ([m d] & I & J). destruct d; cbn in J; [|easy]. destruct J as [<-|[]]. now apply pair_alookup.
  - intros A. apply alookup_pair in A. exists (n, DField). split; [exact A|now left].
Qed.
Lemma field_names_nodup b : NoDup (map fst b) -> NoDup (field_names b).
Proof.
  induction b as [|[n d] b IH]; [constructor|]. cbn [map fst]. intros ND. inversion ND as [|? ? NI ND']. subst.
  destruct d; cbn [field_names flat_map snd fst app]; [|now apply IH]. constructor; [|now apply IH].
  intros I. apply in_flat_map in I. destruct I as ([m d] & I & J). destruct d; cbn in J; [|easy]. destruct J as [<-|[]]. apply NI. apply in_map_iff. now exists (m, DField).
Qed.

(** ** The invariant *)
Definition agrees (D : list string) (n : string) (d : option decl) (m : option member) : Prop :=
  match d with
  | None => m = None
  | Some DOther => m = Some MOther
  | Some DField => exists f, m = Some (MField f) /\ nth_error D f = Some n
  end.
Record inv (bodies : list body) (s : mst) : Prop := MkInv {
  i_classes : length (m_classes s) = length bodies;
  i_mro : forall j k, nth_error (m_classes s) j = Some k -> c_mro k = rev (seq 0 j);
  i_fields : length (m_fields s) = length (declared bodies);
  i_count : m_count s = length (m_fields s);
  i_each : forall f o, nth_error (m_fields s) f = Some o ->
    exists n, nth_error (declared bodies) f = Some n /\ fo_name o = Some n /\ fo_parent o <> None /\
              fo_count o = S (fi n (declared bodies));
  i_last : forall n, agrees (declared bodies) n (last_said bodies n None) (mro_attr s (rev (seq 0 (length bodies))) n);
  i_attr : forall j n f, class_attr s j n = Some (MField f) -> nth_error (declared bodies) f = Some n;
  i_some : forall n, In n (declared bodies) -> exists j f, (j < length bodies)%nat /\ class_attr s j n = Some (MField f)
}.
Lemma inv_mro_ok bodies s : inv bodies s -> mro_ok s.
Proof.
  intros I c k b H B. rewrite (i_mro _ _ I _ _ H) in B. apply in_rev in B. apply in_seq in B.
  assert ((c < length (m_classes s))%nat) by (apply nth_error_Some; congruence). lia.
Qed.
Lemma rev_seq_S k : rev (seq 0 (S k)) = k :: rev (seq 0 k).
Proof. rewrite seq_S, rev_app_distr. reflexivity. Qed.
Lemma declared_snoc bodies b : declared (bodies ++ [b]) = declared bodies ++ field_names b.
Proof. unfold declared. rewrite flat_map_app. cbn [flat_map]. now rewrite app_nil_r. Qed.
Lemma last_said_snoc bodies b n : forall sofar,
  last_said (bodies ++ [b]) n sofar = match alookup b n with Some d => Some d | None => last_said bodies n sofar end.
Proof. induction bodies as [|c bs IH]; intros sofar; cbn [app last_said]; [now destruct (alookup b n)|]. apply IH. Qed.

Lemma derive_lem bodies b s : inv bodies s -> NoDup (map fst b) ->
  inv (bodies ++ [b]) (derive b s) /\
  (forall f, In f (fields_of (derive b s) (length bodies)) <->
             exists n, class_attr (derive b s) (length bodies) n = Some (MField f)) /\
  NoDup (fields_of (derive b s) (length bodies)) /\
  StronglySorted (fun x y => (count_of (derive b s) x <= count_of (derive b s) y)%nat) (fields_of (derive b s) (length bodies)) /\
  (forall n, agrees (declared (bodies ++ [b])) n (last_said (bodies ++ [b]) n None) (class_attr (derive b s) (length bodies) n)).
Proof.
  intros I ND. unfold derive. destruct (declare b s) as [d s1] eqn:Q.
  destruct (declare_lem b s d s1 ND Q (i_count _ _ I)) as (C1 & F1 & N1 & A1).
  set (k := length bodies) in *. set (D := declared bodies) in *. set (B := field_names b) in *.
  assert (K : length (m_classes s1) = k) by (rewrite C1; apply (i_classes _ _ I)).
  assert (BL : length (m_fields s) = length D) by apply (i_fields _ _ I).
  assert (OK1 : mro_ok s1).
  { intros c x y. rewrite C1. exact (inv_mro_ok _ _ I c x y). }
  assert (CA : forall c n, class_attr s1 c n = class_attr s c n).
  { intros c n. apply class_attr_shape, shape_classes, C1. }
  assert (MA : forall l n, mro_attr s1 l n = mro_attr s l n).
  { intros l n. apply mro_attr_shape, shape_classes, C1. }
  set (mro := rev (seq 0 k)) in *.
  assert (LT1 : forall x, In x mro -> (x < length (m_classes s1))%nat).
  { intros x X. unfold mro in X. apply in_rev, in_seq in X. lia. }
  assert (DN : forall f n, nth_error D f = Some n -> exists o, nth_error (m_fields s) f = Some o /\ nth_error (m_fields s1) f = Some o).
  { intros f n H. destruct (nth_error (m_fields s) f) as [o|] eqn:E.
    - exists o. split; [reflexivity|]. rewrite F1, nth_error_app1; [exact E|]. apply nth_error_Some. congruence.
    - exfalso. apply nth_error_None in E. assert ((f < length D)%nat) by (apply nth_error_Some; congruence). lia. }
  assert (BA1 : bases_attached mro s1).
  { intros x n g _ H. rewrite CA in H. apply (i_attr _ _ I) in H. fold D in H. destruct (DN g n H) as (o & O & O1).
    destruct (i_each _ _ I g o O) as (_ & _ & _ & P & _). unfold is_attached. rewrite O1. now destruct (fo_parent o). }
  destruct (define_lem s1 (match length (m_classes s1) with O => [] | S j => [j] end) mro d OK1 LT1 BA1)
    as (L' & OK' & OLD' & (fs & FS & FND & FIN & FSO) & A' & N' & FL' & X').
  rewrite K in *. fold mro. set (s' := define_class _ mro d s1) in *. fold s' in L', OK', OLD', FS, FIN, FSO, A', N', FL', X'.
  assert (D' : declared (bodies ++ [b]) = D ++ B) by apply declared_snoc.
  assert (AG : forall n, agrees (D ++ B) n (last_said (bodies ++ [b]) n None) (in_class s1 mro d n)).
  { intros n. rewrite last_said_snoc. unfold in_class. rewrite A1. destruct (alookup b n) as [[]|] eqn:E; cbn [option_map meant].
    - exists (length (m_fields s) + fi n B)%nat. split; [reflexivity|]. rewrite nth_error_app2 by lia.
      replace (length (m_fields s) + fi n B - length D)%nat with (fi n B) by lia. apply fi_in. unfold B. now apply field_names_in.
    - reflexivity.
    - rewrite MA. pose proof (i_last _ _ I n) as G. fold k D mro in G. destruct (last_said bodies n None) as [[]|]; cbn [agrees] in *; try exact G.
      destruct G as (f & G1 & G2). exists f. split; [exact G1|]. rewrite nth_error_app1; [exact G2|]. apply nth_error_Some. congruence. }
  assert (INF : forall n f, in_class s1 mro d n = Some (MField f) -> nth_error (D ++ B) f = Some n).
  { intros n f H. specialize (AG n). rewrite H in AG. destruct (last_said (bodies ++ [b]) n None) as [[]|]; cbn [agrees] in AG; try discriminate.
    destruct AG as (g & E & G). congruence. }
  assert (AG' : forall n, agrees (declared (bodies ++ [b])) n (last_said (bodies ++ [b]) n None) (class_attr s' k n)).
  { intros n. rewrite A', D'. apply AG. }
  assert (FO : fields_of s' k = fs) by (unfold fields_of; now rewrite FS).
  split; [|rewrite FO; split; [|split; [exact FND|split; [exact FSO|exact AG']]]].
  2:{ intros f. rewrite FIN. split; intros (n & H); exists n; [now rewrite A'|now rewrite <- A']. }
  constructor.
  - rewrite L', app_length. cbn. fold k. lia.
  - intros j x H. destruct (lt_eq_lt_dec j k) as [[J|J]|J].
    + rewrite OLD', C1 in H by exact J. exact (i_mro _ _ I _ _ H).
    + subst j. rewrite FS in H. injection H as <-. reflexivity.
    + assert ((j < length (m_classes s'))%nat) by (apply nth_error_Some; congruence). lia.
  - rewrite FL', F1, app_length, map_length, seq_length, D', app_length. lia.
  - rewrite N', FL'. exact N1.
  - intros f o' H. rewrite D'. assert (LF : (f < length (m_fields s1))%nat) by (rewrite <- FL'; apply nth_error_Some; congruence).
    destruct (nth_error (m_fields s1) f) as [o|] eqn:O; [|apply nth_error_None in O; lia].
    destruct (lt_dec f (length D)) as [FD|FD].
    + assert (O0 : nth_error (m_fields s) f = Some o) by (rewrite F1, nth_error_app1 in O by lia; exact O).
      destruct (i_each _ _ I f o O0) as (n & E1 & E2 & E3 & E4). fold D in E1, E4. destruct (X' f o O) as [[Y _]|[P _]]; [|congruence].
      exists n. replace o' with o by congruence. split; [now rewrite nth_error_app1|]. split; [exact E2|]. split; [exact E3|].
      rewrite fi_app; [exact E4|]. now apply nth_error_In with f.
    + assert (O1 : o = MkF (S f) None None None None).
      { rewrite F1, nth_error_app2 in O by lia. rewrite F1, app_length, map_length, seq_length in LF.
        rewrite nth_error_map in O. rewrite nth_error_nth' with (d := 0%nat) in O by (rewrite seq_length; lia). rewrite seq_nth in O by lia.
        cbn [option_map] in O. injection O as <-. f_equal. lia. }
      destruct (nth_error B (f - length D)) as [n|] eqn:NB.
      2:{ exfalso. apply nth_error_None in NB. rewrite F1, app_length, map_length, seq_length in LF. fold B in LF. lia. }
      assert (FN : fi n B = (f - length D)%nat) by (apply fi_nth; [now apply field_names_nodup|exact NB]).
      assert (NF : in_class s1 mro d n = Some (MField f)).
      { unfold in_class. rewrite A1. assert (E : alookup b n = Some DField) by (apply field_names_in; [exact ND|]; now apply nth_error_In with (f - length D)%nat).
        rewrite E. cbn [option_map meant]. fold B. rewrite FN. do 2 f_equal. lia. }
      assert (ND'' : nth_error (D ++ B) f = Some n) by (apply INF, NF).
      destruct (X' f o O) as [[_ [P|P]]|(_ & m & M & Y)].
      * subst o. now elim P.
      * exfalso. exact (P n NF).
      * assert (m = n) by (apply INF in M; congruence). subst m. exists n. split; [exact ND''|].
        replace o' with (as_attached s1 k mro n o) by congruence. cbn [as_attached fo_name fo_parent fo_count]. split; [reflexivity|]. split; [discriminate|].
        destruct (in_dec string_dec n D) as [J|J].
        -- rewrite fi_app by exact J. destruct (i_some _ _ I n J) as (j & g & Jk & JG). fold k in Jk.
           assert (BC : base_count s1 mro n = Some (S (fi n D))); [|now rewrite BC].
           assert (JM : In j mro) by (unfold mro; apply in_rev; rewrite rev_involutive; apply in_seq; lia).
           assert (CG : forall g' j', class_attr s1 j' n = Some (MField g') -> count_of s1 g' = S (fi n D)).
           { intros g' j' H'. rewrite CA in H'. apply (i_attr _ _ I) in H'. fold D in H'. destruct (DN _ _ H') as (o2 & O2 & O3).
             unfold count_of. rewrite O3. destruct (i_each _ _ I _ _ O2) as (n2 & E1 & _ & _ & E4). fold D in E1, E4. congruence. }
           rewrite <- CA in JG. clear - JM JG CG. induction mro as [|x l IH]; [easy|]. cbn [base_count].
           destruct (class_attr s1 x n) as [[y|]|] eqn:Y; [f_equal; now apply CG with x|..];
             (destruct JM as [->|JM]; [congruence|]; now apply IH).
        -- rewrite base_count_none; [|].
           ++ subst o. cbn [fo_count]. rewrite fi_skip by exact J. rewrite FN. lia.
           ++ intros x g _ H'. rewrite CA in H'. apply (i_attr _ _ I) in H'. apply J. now apply nth_error_In with g.
  - intros n. rewrite app_length. cbn [length]. replace (length bodies + 1)%nat with (S k) by (fold k; lia). rewrite rev_seq_S. fold mro.
    specialize (AG' n). unfold class_attr in AG'. rewrite FS in AG'. exact AG'.
  - intros j n f H. rewrite D'. destruct (lt_eq_lt_dec j k) as [[J|J]|J].
    + rewrite (class_attr_older s1 s') in H; [|exact OK1|lia|rewrite K; exact OLD']. rewrite CA in H. apply (i_attr _ _ I) in H. fold D in H.
      rewrite nth_error_app1; [exact H|]. apply nth_error_Some. congruence.
    + subst j. rewrite A' in H. now apply INF.
    + unfold class_attr in H. destruct (nth_error (m_classes s') j) eqn:E; [|discriminate].
      assert ((j < length (m_classes s'))%nat) by (apply nth_error_Some; congruence). lia.
  - intros n. rewrite D', in_app_iff. rewrite app_length. cbn [length]. fold k. intros [J|J].
    + destruct (i_some _ _ I n J) as (j & g & Jk & JG). fold k in Jk. exists j, g. split; [lia|].
      rewrite (class_attr_older s1 s'); [now rewrite CA|exact OK1|lia|rewrite K; exact OLD'].
    + exists k, (length (m_fields s) + fi n B)%nat. split; [lia|]. rewrite A'. unfold in_class. rewrite A1.
      apply field_names_in in J; [|exact ND]. rewrite J. reflexivity.
Qed.

Lemma inv_nil : inv [] (MkS [] [] 0).
Proof. constructor; try reflexivity; try easy; intros; cbn in *; try (now destruct f); try (now destruct j); unfold class_attr in *; try (now destruct j in * ). Qed.

Lemma line_inv (bodies : list body) : Forall (fun b : body => NoDup (map fst b)) bodies -> inv bodies (line bodies).
Proof.
  induction bodies as [|b bs IH] using rev_ind; intros F; [exact inv_nil|]. apply Forall_app in F. destruct F as [F1 F2]. inversion F2. subst.
  unfold line. rewrite fold_left_app. cbn [fold_left]. apply derive_lem; auto.
Qed.
Lemma C54_line_lem (bodies : list body) : bodies <> [] -> Forall (fun b : body => NoDup (map fst b)) bodies ->
  map (name_of (line bodies)) (fields_of (line bodies) (length bodies - 1)) = map Some (expected_names bodies).
Proof.
  destruct bodies as [|b bs _] using rev_ind; [easy|]. intros _ F. apply Forall_app in F. destruct F as [F1 F2].
  assert (ND : NoDup (map fst b)) by now inversion F2.
  replace (line (bs ++ [b])) with (derive b (line bs)) by (unfold line; now rewrite fold_left_app).
  rewrite app_length. cbn [length]. replace (length bs + 1 - 1)%nat with (length bs) by lia.
  destruct (derive_lem bs b (line bs) (line_inv bs F1) ND) as (I & FI & FN & FS & AG). set (s := derive b (line bs)) in *.
  set (fs := fields_of s (length bs)) in *. set (W := bs ++ [b]) in *. set (D := declared W) in *.
  assert (ON : forall f, In f fs -> exists n, nth_error D f = Some n /\ class_attr s (length bs) n = Some (MField f) /\
                 name_of s f = Some n /\ count_of s f = S (fi n D)).
  { intros f H. apply FI in H. destruct H as (n & H). pose proof (i_attr _ _ I _ _ _ H) as G. fold D in G. exists n. split; [exact G|]. split; [exact H|].
    assert (LF : (f < length (m_fields s))%nat) by (rewrite (i_fields _ _ I); apply nth_error_Some; fold D; congruence).
    destruct (nth_error (m_fields s) f) as [o|] eqn:O; [|apply nth_error_None in O; lia]. unfold name_of, count_of. rewrite O.
    destruct (i_each _ _ I _ _ O) as (n' & E1 & E2 & _ & E4). fold D in E1, E4. replace n' with n in * by congruence. now split. }
  set (nm := fun f => match name_of s f with Some n => n | None => EmptyString end).
  assert (E1 : map (name_of s) fs = map Some (map nm fs)).
  { rewrite map_map. apply map_ext_in. intros f H. destruct (ON f H) as (n & _ & _ & E & _). unfold nm. now rewrite E. }
  rewrite E1. f_equal. apply (same_sorted (fun n => fi n D)).
  - assert (SUB : forall l, (forall f, In f l -> In f fs) -> NoDup l -> StronglySorted (fun x y => (count_of s x <= count_of s y)%nat) l ->
       StronglySorted (fun x y => (fi x D < fi y D)%nat) (map nm l)); [|apply SUB; auto].
    intros l. induction l as [|f l IH]; intros SB NL SL; [constructor|]. inversion NL as [|? ? NI NL']. inversion SL as [|? ? SL' FL]. subst. cbn [map].
    constructor; [apply IH; auto; intros; apply SB; now right|]. rewrite Forall_forall in *. intros x X. apply in_map_iff in X. destruct X as (g & <- & G).
    specialize (FL g G). destruct (ON f (SB f (or_introl eq_refl))) as (n & A1 & A2 & A3 & A4). destruct (ON g (SB g (or_intror G))) as (m & B1 & B2 & B3 & B4).
    unfold nm. rewrite A3, B3. rewrite A4, B4 in FL. assert (n <> m).
    { intros ->. apply NI. replace f with g by congruence. exact G. }
    assert (fi n D <> fi m D); [|lia]. intros E. apply fi_inj in E; [contradiction|now apply nth_error_In with f|now apply nth_error_In with g].
  - unfold expected_names. apply filter_sorted. apply (firsts_sorted D [] []). easy.
  - intros x. unfold expected_names. rewrite filter_In, firsts_in. fold D. split.
    + intros X. apply in_map_iff in X. destruct X as (f & <- & F). destruct (ON f F) as (n & A1 & A2 & A3 & A4). unfold nm. rewrite A3.
      split; [split; [now apply nth_error_In with f|easy]|]. specialize (AG n). unfold still_field. change (bs ++ [b]) with W in AG. rewrite A2 in AG.
      destruct (last_said W n None) as [[]|]; cbn in AG; congruence || reflexivity.
    + intros [[X _] SF]. specialize (AG x). unfold still_field in SF. change (bs ++ [b]) with W in AG. destruct (last_said W x None) as [[]|]; try discriminate.
      destruct AG as (f & A & B). apply in_map_iff. exists f. assert (F : In f fs) by (apply FI; now exists x). split; [|exact F].
      destruct (ON f F) as (n & A1 & A2 & A3 & A4). unfold nm. rewrite A3. fold D in B. congruence.
Qed.
