(** Proofs about reachable class heaps. *)
From Coq Require Import Lia Permutation Sorted.
From Verif Require Import PyBase PyStr Meta SpecMeta Balance MetaProofs LineProofs MetaLemmas.

Record sound (s : mst) : Prop := MkSound {
  so_mro : mro_ok s;
  so_bases : bases_first s;
  so_dict : forall c k n f, nth_error (m_classes s) c = Some k -> In (n, MField f) (c_dict k) -> (f < length (m_fields s))%nat;
  so_attr : forall c n g, class_attr s c n = Some (MField g) -> exists o, nth_error (m_fields s) g = Some o /\ fo_parent o <> None;
  so_parent : forall f o c, nth_error (m_fields s) f = Some o -> fo_parent o = Some (InClass c) -> (c < length (m_classes s))%nat
}.
Lemma sound_attached s mro : sound s -> bases_attached mro s.
Proof. intros S b n g _ H. destruct (so_attr _ S _ _ _ H) as (o & O & P). unfold is_attached. rewrite O. now destruct (fo_parent o). Qed.
Lemma mro_attr_ref s l n g : (forall c k m f, nth_error (m_classes s) c = Some k -> In (m, MField f) (c_dict k) -> (f < length (m_fields s))%nat) ->
  mro_attr s l n = Some (MField g) -> (g < length (m_fields s))%nat.
Proof.
  intros D. induction l as [|c l IH]; cbn [mro_attr]; [discriminate|]. destruct (nth_error (m_classes s) c) as [k|] eqn:K; [|exact IH].
  destruct (alookup (c_dict k) n) as [m|] eqn:A; [|exact IH]. intros [= ->]. apply alookup_pair in A. now apply (D c k n).
Qed.
Lemma built_sound s : built s -> sound s.
Proof.
  induction 1 as [|s src choices B IH|s h B IH|s bases mro dict B IH HB HM HD].
  - constructor.
    + intros c k b H. now destruct c.
    + intros c k b H. now destruct c.
    + intros c k n f H. now destruct c.
    + intros c n g H. unfold class_attr in H. cbn in H. now destruct c.
    + intros f o c H. now destruct f.
  - unfold new_field. cbn [snd]. constructor; cbn [m_fields m_classes].
    + exact (so_mro _ IH).
    + exact (so_bases _ IH).
    + intros c k n f H I. pose proof (so_dict _ IH c k n f H I). rewrite app_length. lia.
    + intros c n g H. destruct (so_attr _ IH c n g) as (o & O & P).
      * rewrite <- H. now apply class_attr_shape, shape_classes.
      * exists o. split; [|exact P]. rewrite nth_error_app1; [exact O|]. apply nth_error_Some. congruence.
    + intros f o c H P. destruct (lt_dec f (length (m_fields s))) as [L|L].
      * rewrite nth_error_app1 in H by exact L. exact (so_parent _ IH f o c H P).
      * rewrite nth_error_app2 in H by lia. destruct (f - length (m_fields s))%nat as [|x]; cbn in H; [injection H as <-; discriminate|now destruct x].
  - unfold clone_field. destruct (nth_error (m_fields s) h) as [oh|] eqn:OH; [|exact IH]. cbn [snd]. constructor; cbn [m_fields m_classes].
    + exact (so_mro _ IH).
    + exact (so_bases _ IH).
    + intros c k n f H I. pose proof (so_dict _ IH c k n f H I). rewrite app_length. lia.
    + intros c n g H. destruct (so_attr _ IH c n g) as (o & O & P).
      * rewrite <- H. now apply class_attr_shape, shape_classes.
      * exists o. split; [|exact P]. rewrite nth_error_app1; [exact O|]. apply nth_error_Some. congruence.
    + intros f o c H P. destruct (lt_dec f (length (m_fields s))) as [L|L].
      * rewrite nth_error_app1 in H by exact L. exact (so_parent _ IH f o c H P).
      * rewrite nth_error_app2 in H by lia. destruct (f - length (m_fields s))%nat as [|x]; cbn in H; [injection H as <-; discriminate|now destruct x].
  - destruct (define_lem s bases mro dict (so_mro _ IH) HM (sound_attached s mro IH)) as (L & OK & OLD & (fs & K & _) & A & _ & FL & X).
    set (s' := define_class bases mro dict s) in *. set (c0 := length (m_classes s)) in *.
    assert (ST : forall c k, nth_error (m_classes s') c = Some k -> ((c < c0)%nat /\ nth_error (m_classes s) c = Some k) \/ (c = c0 /\ k = MkC bases mro dict fs)).
    { intros c k H. destruct (lt_eq_lt_dec c c0) as [[J|J]|J].
      - left. split; [exact J|]. now rewrite <- OLD.
      - right. subst c. split; [reflexivity|]. congruence.
      - assert ((c < length (m_classes s'))%nat) by (apply nth_error_Some; congruence). lia. }
    assert (DICT : forall n f, In (n, MField f) dict -> (f < length (m_fields s))%nat) by exact HD.
    constructor.
    + exact OK.
    + intros c k b H I. destruct (ST c k H) as [[J H']|[-> ->]]; [exact (so_bases _ IH c k b H' I)|]. cbn in I. now apply HB.
    + intros c k n f H I. rewrite FL. destruct (ST c k H) as [[J H']|[-> ->]]; [exact (so_dict _ IH c k n f H' I)|]. cbn in I. now apply DICT with n.
    + intros c n g H. assert (C : (c < length (m_classes s'))%nat) by (unfold class_attr in H; apply nth_error_Some; destruct (nth_error (m_classes s') c); congruence).
      destruct (lt_dec c c0) as [J|J].
      * rewrite (class_attr_older s s') in H; [|exact (so_mro _ IH)|exact J|exact OLD]. destruct (so_attr _ IH c n g H) as (o & O & P).
        destruct (X g o O) as [[E _]|[E _]]; [now exists o|contradiction].
      * assert (c = c0) as -> by lia. rewrite A in H.
        assert (G : (g < length (m_fields s))%nat).
        { unfold in_class in H. destruct (alookup dict n) as [m|] eqn:Q.
          - injection H as ->. apply alookup_pair in Q. now apply DICT with n.
          - eapply mro_attr_ref; [exact (so_dict _ IH)|exact H]. }
        destruct (nth_error (m_fields s) g) as [o|] eqn:O; [|apply nth_error_None in O; lia].
        destruct (X g o O) as [[E [P|P]]|(_ & m & _ & E)].
        -- now exists o.
        -- exfalso. exact (P n H).
        -- eexists. split; [exact E|discriminate].
    + intros f o' c H P. assert (F : (f < length (m_fields s))%nat) by (rewrite <- FL; apply nth_error_Some; congruence).
      destruct (nth_error (m_fields s) f) as [o|] eqn:O; [|apply nth_error_None in O; lia]. rewrite L. destruct (X f o O) as [[E _]|(_ & m & _ & E)].
      * rewrite H in E. injection E as ->. pose proof (so_parent _ IH f o c O P) as Q. fold c0 in Q. lia.
      * rewrite H in E. injection E as ->. cbn in P. injection P as <-. lia.
Qed.

(** ** The theorems, for reachable heaps *)
Lemma B54_fields s bases mro dict : built s -> (forall b, In b mro -> (b < length (m_classes s))%nat) ->
  let c := length (m_classes s) in let s' := define_class bases mro dict s in
  NoDup (fields_of s' c) /\
  (forall f, In f (fields_of s' c) <-> exists n, class_attr s' c n = Some (MField f)) /\
  StronglySorted (fun a b => (count_of s' a <= count_of s' b)%nat) (fields_of s' c).
Proof. intros B LT. pose proof (built_sound _ B) as S. exact (C54_fields_lem s bases mro dict (so_mro _ S) LT (sound_attached _ _ S)). Qed.
Lemma B54_override s bases mro dict n f o : built s -> (forall b, In b mro -> (b < length (m_classes s))%nat) ->
  let s' := define_class bases mro dict s in
  nth_error (m_fields s) f = Some o -> fo_parent o = None -> alookup dict n = Some (MField f) ->
  (forall m, alookup dict m = Some (MField f) -> m = n) ->
  name_of s' f = Some n /\
  (forall g, nearest s mro n g -> count_of s' f = count_of s g) /\
  ((forall b g, In b mro -> class_attr s b n <> Some (MField g)) -> count_of s' f = count_of s f).
Proof.
  intros B LT s' F P D U. pose proof (built_sound _ B) as S.
  apply (C54_override_lem s bases mro dict n f o (so_mro _ S) LT (sound_attached _ _ S) F P D U).
  intros m _ H. assert (exists c, In c mro /\ class_attr s c m = Some (MField f)) as (c & _ & Q).
  { clear - H LT. induction mro as [|c l IH]; cbn [mro_attr] in H; [discriminate|].
    destruct (nth_error (m_classes s) c) as [k|] eqn:K.
    - destruct (alookup (c_dict k) m) as [x|] eqn:A.
      + injection H as ->. exists c. split; [now left|]. unfold class_attr. rewrite K. cbn [mro_attr]. now rewrite K, A.
      + destruct IH as (d & I & Q); [intros; apply LT; now right|exact H|]. exists d. split; [now right|exact Q].
    - destruct IH as (d & I & Q); [intros; apply LT; now right|exact H|]. exists d. split; [now right|exact Q]. }
  destruct (so_attr _ S _ _ _ Q) as (o' & O' & P'). congruence.
Qed.
Lemma B54_new s bases mro dict n f o b m g : built s -> (forall b, In b mro -> (b < length (m_classes s))%nat) ->
  let s' := define_class bases mro dict s in
  nth_error (m_fields s) f = Some o -> fo_parent o = None -> alookup dict n = Some (MField f) ->
  (forall m, alookup dict m = Some (MField f) -> m = n) ->
  (forall b h, In b mro -> class_attr s b n <> Some (MField h)) ->
  (forall b m h, In b mro -> class_attr s b m = Some (MField h) -> (count_of s h < fo_count o)%nat) ->
  In b mro -> class_attr s b m = Some (MField g) -> In g (fields_of s' (length (m_classes s))) ->
  before g f (fields_of s' (length (m_classes s))).
Proof.
  intros B LT s' F P D U NB NEW IB A G. pose proof (built_sound _ B) as S.
  destruct (B54_fields s bases mro dict B LT) as (_ & I & SO). fold s' in I, SO.
  destruct (B54_override s bases mro dict n f o B LT F P D U) as (_ & _ & C). fold s' in C. specialize (C NB).
  apply (sorted_before (count_of s')); [exact SO|exact G| |].
  - apply I. exists n. destruct (define_lem s bases mro dict (so_mro _ S) LT (sound_attached _ _ S)) as (_ & _ & _ & _ & A' & _). fold s' in A'. rewrite A'. unfold in_class. now rewrite D.
  - unfold s'. rewrite (inherited_count s bases mro dict g b m (so_mro _ S) LT (sound_attached _ _ S) IB A). fold s'. rewrite C. unfold count_of at 2. rewrite F. now apply (NEW b m g).
Qed.
Lemma B55_table s f o c name : built s ->
  nth_error (m_fields s) f = Some o -> fo_parent o = Some (InClass c) -> fo_name o = Some name ->
  exists table, types_map s f = Some table /\
    (forall v d, alookup table v = Some d -> descends s c d /\ lists s name d v) /\
    (forall v d, descends s c d -> lists s name d v -> exists d', alookup table v = Some d') /\
    (forall v d, descends s c d -> lists s name d v -> (forall d', descends s c d' -> lists s name d' v -> d' = d) ->
       alookup table v = Some d).
Proof.
  intros B F P N. pose proof (built_sound _ B) as S. exact (C55_table_lem s f o c name (so_bases _ S) F P N (so_parent _ S f o c F P)).
Qed.
