(** * Proofs about form classes. *)
From Coq Require Import Lia Sorting Permutation.
From Verif Require Import PyBase PyStr Meta SpecMeta Balance.

(** ** Sorting *)
Lemma insert_by_perm key f l : Permutation (insert_by key f l) (f :: l).
Proof.
  induction l as [|g l IH]; [reflexivity|]. cbn [insert_by]. destruct (key f <=? key g)%nat; [reflexivity|].
  rewrite IH. apply perm_swap.
Qed.
Lemma sort_by_perm key l : Permutation (sort_by key l) l.
Proof. induction l as [|f l IH]; [reflexivity|]. cbn [sort_by fold_right]. fold (sort_by key l). rewrite insert_by_perm. now constructor. Qed.
Lemma insert_by_sorted key f l : StronglySorted (fun a b => (key a <= key b)%nat) l ->
  StronglySorted (fun a b => (key a <= key b)%nat) (insert_by key f l).
Proof.
  induction 1 as [|g l S IH F]; cbn [insert_by]; [constructor; constructor|].
  destruct (key f <=? key g)%nat eqn:E.
  - apply Nat.leb_le in E. constructor; [now constructor|]. constructor; [exact E|]. eapply Forall_impl; [|exact F]. cbn. lia.
  - apply Nat.leb_gt in E. constructor; [exact IH|]. apply Forall_forall. intros x X.
    apply (Permutation_in _ (insert_by_perm key f l)) in X. destruct X as [<-|X]; [lia|]. rewrite Forall_forall in F. now apply F.
Qed.
Lemma sort_by_sorted key l : StronglySorted (fun a b => (key a <= key b)%nat) (sort_by key l).
Proof. induction l as [|f l IH]; [constructor|]. cbn [sort_by fold_right]. now apply insert_by_sorted. Qed.

(** ** Names *)
Lemma insert_name_in n x l : In x (insert_name n l) <-> x = n \/ In x l.
Proof.
  induction l as [|m l IH]; cbn [insert_name In]; [intuition|].
  destruct (String.compare n m) eqn:C; cbn [In].
  - apply String.compare_eq_iff in C. subst m. intuition.
  - intuition.
  - rewrite IH. intuition.
Qed.
Lemma fold_insert_in x l : In x (fold_right insert_name [] l) <-> In x l.
Proof. induction l as [|n l IH]; [reflexivity|]. cbn [fold_right In]. rewrite insert_name_in, IH. intuition. Qed.
Lemma alookup_in {A} (l : list (string * A)) n m : alookup l n = Some m -> In n (map fst l).
Proof.
  induction l as [|[k v] l IH]; cbn [alookup map In fst]; [discriminate|]. destruct (String.eqb k n) eqn:E; [|intros H; right; now apply IH].
  apply String.eqb_eq in E. now left.
Qed.
Lemma mro_attr_dir s l n m : mro_attr s l n = Some m -> In n (dir s l).
Proof.
  intros H. unfold dir. apply fold_insert_in. induction l as [|c l IH]; cbn [mro_attr flat_map] in *; [discriminate|].
  apply in_or_app. destruct (nth_error (m_classes s) c) as [k|]; [|right; now apply IH].
  destruct (alookup (c_dict k) n) eqn:A; [left; now apply alookup_in in A|right; now apply IH].
Qed.

(** ** Lookups depend on the class bodies only *)
Definition shape (s : mst) : list (list nat * list (string * member)) := map (fun k => (c_mro k, c_dict k)) (m_classes s).
Lemma shape_nth s s' c : shape s = shape s' ->
  option_map (fun k => (c_mro k, c_dict k)) (nth_error (m_classes s) c) = option_map (fun k => (c_mro k, c_dict k)) (nth_error (m_classes s') c).
Proof. intros E. unfold shape in E. rewrite <- !nth_error_map. now rewrite E. Qed.
Lemma mro_attr_shape s s' l n : shape s = shape s' -> mro_attr s l n = mro_attr s' l n.
Proof.
  intros E. induction l as [|c l IH]; [reflexivity|]. cbn [mro_attr]. pose proof (shape_nth s s' c E) as H.
  destruct (nth_error (m_classes s) c), (nth_error (m_classes s') c); cbn in H; try discriminate; [|exact IH].
  injection H as _ ->. now rewrite IH.
Qed.
Lemma class_attr_shape s s' c n : shape s = shape s' -> class_attr s c n = class_attr s' c n.
Proof.
  intros E. unfold class_attr. pose proof (shape_nth s s' c E) as H.
  destruct (nth_error (m_classes s) c), (nth_error (m_classes s') c); cbn in H; try discriminate; [|reflexivity].
  injection H as -> _. now apply mro_attr_shape.
Qed.

(** ** Attaching *)
Definition as_attached (s : mst) (c : nat) (mro : list nat) (n : string) (o : fobj) : fobj :=
  MkF (match base_count s mro n with Some x => x | None => fo_count o end)
      (Some (InClass c)) (Some n) (match fo_src o with None => Some n | x => x end) (fo_choices o).
Lemma attach_classes f c n s : m_classes (attach f c n s) = m_classes s.
Proof. unfold attach. destruct (nth_error (m_fields s) f), (nth_error (m_classes s) c); reflexivity. Qed.
Lemma attach_count f c n s : m_count (attach f c n s) = m_count s.
Proof. unfold attach. destruct (nth_error (m_fields s) f), (nth_error (m_classes s) c); reflexivity. Qed.
Lemma attach_length f c n s : length (m_fields (attach f c n s)) = length (m_fields s).
Proof. unfold attach. destruct (nth_error (m_fields s) f), (nth_error (m_classes s) c); try reflexivity. apply replace_nth_length. Qed.
Lemma attach_at f c n s o k : nth_error (m_fields s) f = Some o -> nth_error (m_classes s) c = Some k ->
  nth_error (m_fields (attach f c n s)) f = Some (as_attached s c (c_mro k) n o).
Proof. intros F K. unfold attach. rewrite F, K. apply nth_replace_eq. apply nth_error_Some. congruence. Qed.
Lemma attach_other f g c n s : f <> g -> nth_error (m_fields (attach f c n s)) g = nth_error (m_fields s) g.
Proof.
  intros D. unfold attach. destruct (nth_error (m_fields s) f), (nth_error (m_classes s) c); try reflexivity. now apply nth_replace_neq.
Qed.

(** [calm mro s s']: same classes, and every field some base shows is untouched. *)
Definition calm (mro : list nat) (s s' : mst) : Prop :=
  m_classes s' = m_classes s /\
  forall b n g, In b mro -> class_attr s b n = Some (MField g) -> nth_error (m_fields s') g = nth_error (m_fields s) g.
Definition bases_attached (mro : list nat) (s : mst) : Prop :=
  forall b n g, In b mro -> class_attr s b n = Some (MField g) -> is_attached s g = true.
Lemma shape_classes s s' : m_classes s' = m_classes s -> shape s' = shape s.
Proof. unfold shape. now intros ->. Qed.
Lemma base_count_calm s s' mro : calm mro s s' -> forall l n, (forall b, In b l -> In b mro) -> base_count s' l n = base_count s l n.
Proof.
  intros [C K] l n. induction l as [|b l IH]; intros I; [reflexivity|]. cbn [base_count].
  rewrite (class_attr_shape s' s) by now apply shape_classes. destruct (class_attr s b n) as [[g|]|] eqn:A; try (apply IH; intros; apply I; now right).
  unfold count_of. now rewrite (K b n g (I b (or_introl eq_refl)) A).
Qed.
Lemma attach_calm f c n s mro : is_attached s f = false -> bases_attached mro s -> calm mro s (attach f c n s).
Proof.
  intros NA BA. split; [apply attach_classes|]. intros b m g I A. apply attach_other. intros ->. rewrite (BA b m g I A) in NA. discriminate.
Qed.
Lemma calm_trans mro a b c : calm mro a b -> calm mro b c -> calm mro a c.
Proof.
  intros [C1 K1] [C2 K2]. split; [congruence|]. intros x n g I A. rewrite (K2 x n g I); [now apply (K1 x n)|].
  rewrite (class_attr_shape b a) by now apply shape_classes. exact A.
Qed.
Lemma calm_attached mro s s' : calm mro s s' -> bases_attached mro s -> bases_attached mro s'.
Proof.
  intros [C K] BA b n g I A. rewrite (class_attr_shape s' s) in A by now apply shape_classes.
  unfold is_attached. rewrite (K b n g I A). exact (BA b n g I A).
Qed.

(** ** Collecting the fields of a class *)
Lemma existsb_eqb f l : existsb (Nat.eqb f) l = true <-> In f l.
Proof. rewrite existsb_exists. split; [intros (x & I & E); apply Nat.eqb_eq in E; now subst x|intros I; exists f; split; [exact I|apply Nat.eqb_refl]]. Qed.

Lemma nodup_snoc {A} (l : list A) x : NoDup l -> ~ In x l -> NoDup (l ++ [x]).
Proof. intros N I. apply (Permutation_NoDup (Permutation_cons_append l x)). now constructor. Qed.

Lemma collect_lem c k : forall names acc s fs s2,
  nth_error (m_classes s) c = Some k -> bases_attached (c_mro k) s ->
  collect c names acc s = (fs, s2) ->
  calm (c_mro k) s s2 /\ m_count s2 = m_count s /\ length (m_fields s2) = length (m_fields s) /\
  (NoDup acc -> NoDup fs) /\
  (forall f, In f fs <-> In f acc \/ exists n, In n names /\ class_attr s c n = Some (MField f)) /\
  (forall f o, nth_error (m_fields s) f = Some o ->
     (nth_error (m_fields s2) f = Some o /\
      (fo_parent o <> None \/ forall n, In n names -> class_attr s c n <> Some (MField f))) \/
     (fo_parent o = None /\ exists n, In n names /\ class_attr s c n = Some (MField f) /\
        nth_error (m_fields s2) f = Some (as_attached s c (c_mro k) n o))).
Proof.
  induction names as [|n names IH]; intros acc s fs s2 K BA H.
  - injection H as <- <-. split; [split; [reflexivity|auto]|]. split; [reflexivity|]. split; [reflexivity|]. split; [auto|]. split.
    + intros f. split; [auto|intros [I|(n & [] & _)]; exact I].
    + intros f o F. left. split; [exact F|]. right. intros n [].
  - cbn [collect] in H. destruct (class_attr s c n) as [[f|]|] eqn:A.
    + set (s1 := if is_attached s f then s else attach f c n s) in H.
      assert (C1 : calm (c_mro k) s s1).
      { unfold s1. destruct (is_attached s f) eqn:IA; [split; [reflexivity|auto]|now apply attach_calm]. }
      assert (K1 : nth_error (m_classes s1) c = Some k) by (rewrite (proj1 C1); exact K).
      destruct (IH _ s1 fs s2 K1 (calm_attached _ _ _ C1 BA) H) as (C2 & N2 & L2 & D2 & I2 & F2).
      assert (AT : forall m, class_attr s1 c m = class_attr s c m) by (intros m; apply class_attr_shape, shape_classes, C1).
      split; [exact (calm_trans _ _ _ _ C1 C2)|]. split; [rewrite N2; unfold s1; destruct (is_attached s f); [reflexivity|apply attach_count]|].
      split; [rewrite L2; unfold s1; destruct (is_attached s f); [reflexivity|apply attach_length]|]. split.
      { intros ND. apply D2. destruct (existsb (Nat.eqb f) acc) eqn:E; [exact ND|]. apply nodup_snoc; [exact ND|]. intros I. apply existsb_eqb in I. congruence. }
      split.
      { intros g. rewrite I2. split.
        - intros [I|(m & I & M)].
          + destruct (existsb (Nat.eqb f) acc) eqn:E; [now left|]. apply in_app_or in I. destruct I as [I|[<-|[]]]; [now left|].
            right. exists n. split; [now left|exact A].
          + right. exists m. split; [now right|]. now rewrite <- AT.
        - intros [I|(m & [<-|I] & M)].
          + left. destruct (existsb (Nat.eqb f) acc); [exact I|]. apply in_or_app. now left.
          + rewrite A in M. injection M as <-. left. destruct (existsb (Nat.eqb f) acc) eqn:E; [now apply existsb_eqb|]. apply in_or_app. right. now left.
          + right. exists m. split; [exact I|]. now rewrite AT. }
      intros g o G. destruct (Nat.eq_dec f g) as [<-|D].
      * destruct (is_attached s f) eqn:IA.
        -- unfold s1 in *. unfold is_attached in IA. rewrite G in IA. destruct (F2 f o G) as [[E _]|(P & _)]; [|rewrite P in IA; discriminate].
           left. split; [exact E|]. left. intros P. rewrite P in IA. discriminate.
        -- unfold s1 in *. pose proof (attach_at f c n s o k G K) as G1. right. split.
           { unfold is_attached in IA. rewrite G in IA. destruct (fo_parent o); [discriminate|reflexivity]. }
           exists n. split; [now left|]. split; [exact A|]. destruct (F2 f _ G1) as [[E _]|(P & _)]; [exact E|discriminate P].
      * assert (G1 : nth_error (m_fields s1) g = Some o) by (unfold s1; destruct (is_attached s f); [exact G|rewrite attach_other by exact D; exact G]).
        destruct (F2 g o G1) as [[E P]|(P & m & I & M & E)].
        -- left. split; [exact E|]. destruct P as [P|P]; [now left|]. right. intros m [<-|I] M; [rewrite A in M; injection M as M; congruence|].
           apply (P m I). now rewrite AT.
        -- right. split; [exact P|]. exists m. split; [now right|]. rewrite AT in M. split; [exact M|].
           rewrite E. unfold as_attached. now rewrite (base_count_calm s s1 (c_mro k) C1) by auto.
    + destruct (IH _ s fs s2 K BA H) as (C2 & N2 & L2 & D2 & I2 & F2). split; [exact C2|]. split; [exact N2|]. split; [exact L2|]. split; [exact D2|]. split.
      * intros g. rewrite I2. split; (intros [I|(m & I & M)]; [now left|right]); [exists m; split; [now right|exact M]|].
        destruct I as [<-|I]; [congruence|]. exists m. auto.
      * intros g o G. destruct (F2 g o G) as [[E P]|(P & m & I & M & E)].
        -- left. split; [exact E|]. destruct P as [P|P]; [now left|]. right. intros m [<-|I]; [congruence|now apply P].
        -- right. split; [exact P|]. exists m. split; [now right|]. auto.
    + destruct (IH _ s fs s2 K BA H) as (C2 & N2 & L2 & D2 & I2 & F2). split; [exact C2|]. split; [exact N2|]. split; [exact L2|]. split; [exact D2|]. split.
      * intros g. rewrite I2. split; (intros [I|(m & I & M)]; [now left|right]); [exists m; split; [now right|exact M]|].
        destruct I as [<-|I]; [congruence|]. exists m. auto.
      * intros g o G. destruct (F2 g o G) as [[E P]|(P & m & I & M & E)].
        -- left. split; [exact E|]. destruct P as [P|P]; [now left|]. right. intros m [<-|I]; [congruence|now apply P].
        -- right. split; [exact P|]. exists m. split; [now right|]. auto.
Qed.

(** ** Defining a class *)
Definition mro_ok (s : mst) : Prop :=
  forall c k b, nth_error (m_classes s) c = Some k -> In b (c_mro k) -> (b < length (m_classes s))%nat.
Lemma mro_attr_older s s' l n : (forall c, In c l -> (c < length (m_classes s))%nat) ->
  (forall c, (c < length (m_classes s))%nat -> nth_error (m_classes s') c = nth_error (m_classes s) c) ->
  mro_attr s' l n = mro_attr s l n.
Proof.
  intros L E. induction l as [|c l IH]; [reflexivity|]. cbn [mro_attr]. rewrite E by (apply L; now left).
  rewrite IH by (intros; apply L; now right). reflexivity.
Qed.
Lemma class_attr_older s s' c n : mro_ok s -> (c < length (m_classes s))%nat ->
  (forall c, (c < length (m_classes s))%nat -> nth_error (m_classes s') c = nth_error (m_classes s) c) ->
  class_attr s' c n = class_attr s c n.
Proof.
  intros OK L E. unfold class_attr. rewrite E by exact L. destruct (nth_error (m_classes s) c) as [k|] eqn:K; [|reflexivity].
  apply mro_attr_older; [|exact E]. intros b [<-|I]; [exact L|exact (OK c k b K I)].
Qed.

Lemma base_count_older s s' l n : mro_ok s -> (forall c, In c l -> (c < length (m_classes s))%nat) ->
  (forall c, (c < length (m_classes s))%nat -> nth_error (m_classes s') c = nth_error (m_classes s) c) -> m_fields s' = m_fields s ->
  base_count s' l n = base_count s l n.
Proof.
  intros OK L E F. induction l as [|b l IH]; [reflexivity|]. cbn [base_count].
  rewrite (class_attr_older s s') by (auto; apply L; now left). rewrite IH by (intros; apply L; now right).
  unfold count_of. rewrite F. reflexivity.
Qed.

Definition in_class (s : mst) (mro : list nat) (dict : list (string * member)) (n : string) : option member :=
  match alookup dict n with Some m => Some m | None => mro_attr s mro n end.

Lemma define_lem s bases mro dict : mro_ok s -> (forall b, In b mro -> (b < length (m_classes s))%nat) -> bases_attached mro s ->
  let c := length (m_classes s) in let s' := define_class bases mro dict s in
  length (m_classes s') = S c /\ mro_ok s' /\
  (forall b, (b < c)%nat -> nth_error (m_classes s') b = nth_error (m_classes s) b) /\
  (exists fs, nth_error (m_classes s') c = Some (MkC bases mro dict fs) /\ NoDup fs /\
     (forall f, In f fs <-> exists n, in_class s mro dict n = Some (MField f)) /\
     StronglySorted (fun a b => (count_of s' a <= count_of s' b)%nat) fs) /\
  (forall n, class_attr s' c n = in_class s mro dict n) /\
  m_count s' = m_count s /\ length (m_fields s') = length (m_fields s) /\
  (forall f o, nth_error (m_fields s) f = Some o ->
     (nth_error (m_fields s') f = Some o /\
      (fo_parent o <> None \/ forall n, in_class s mro dict n <> Some (MField f))) \/
     (fo_parent o = None /\ exists n, in_class s mro dict n = Some (MField f) /\
        nth_error (m_fields s') f = Some (as_attached s c mro n o))).
Proof.
  intros OK LT BA c s'. unfold s', define_class. fold c.
  set (s1 := MkS (m_fields s) (m_classes s ++ [MkC bases mro dict []]) (m_count s)).
  assert (OLD : forall b, (b < c)%nat -> nth_error (m_classes s1) b = nth_error (m_classes s) b).
  { intros b B. cbn [s1 m_classes]. now apply nth_error_app1. }
  assert (K1 : nth_error (m_classes s1) c = Some (MkC bases mro dict [])).
  { cbn [s1 m_classes]. unfold c. now rewrite nth_error_app2, Nat.sub_diag by lia. }
  assert (BA1 : bases_attached mro s1).
  { intros b n g I A. rewrite (class_attr_older s s1) in A by (auto; now apply LT). exact (BA b n g I A). }
  assert (AT : forall n, class_attr s1 c n = in_class s mro dict n).
  { intros n. unfold class_attr. rewrite K1. cbn [mro_attr c_mro]. rewrite K1. cbn [c_dict]. unfold in_class.
    destruct (alookup dict n); [reflexivity|]. now apply mro_attr_older. }
  destruct (collect c (dir s1 (c :: mro)) [] s1) as [fs s2] eqn:Q.
  destruct (collect_lem c (MkC bases mro dict []) _ _ _ _ _ K1 BA1 Q) as ([C2 C3] & N2 & L2 & D2 & I2 & F2). cbn [c_mro] in *.
  assert (DIR : forall n f, class_attr s1 c n = Some (MField f) -> In n (dir s1 (c :: mro))).
  { intros n f A. unfold class_attr in A. rewrite K1 in A. cbn [c_mro] in A. now apply mro_attr_dir in A. }
  assert (BC : forall n, base_count s1 mro n = base_count s mro n).
  { intros n. now apply base_count_older. }
  assert (LC : length (m_classes s2) = S c) by (rewrite C2; cbn [s1 m_classes]; rewrite app_length; cbn; unfold c; lia).
  cbn [m_classes m_fields m_count]. split; [now rewrite replace_nth_length|]. split; [|split; [|split; [|split; [|split; [|split]]]]].
  - intros d k b H I. cbn [m_classes] in *. rewrite replace_nth_length, LC. destruct (Nat.eq_dec c d) as [<-|D].
    + rewrite nth_replace_eq in H by lia. injection H as <-. cbn [c_mro] in I. apply LT in I. fold c in I. lia.
    + rewrite nth_replace_neq in H by exact D. rewrite C2 in H. assert (d < c)%nat.
      { assert (Hd : (d < length (m_classes s1))%nat) by (apply nth_error_Some; congruence). cbn [s1 m_classes] in Hd. rewrite app_length in Hd. cbn in Hd. unfold c in *. lia. }
      rewrite OLD in H by assumption. specialize (OK d k b H I). fold c in OK. lia.
  - intros b B. rewrite nth_replace_neq by lia. rewrite C2. now apply OLD.
  - exists (sort_by (count_of s2) fs). split; [apply nth_replace_eq; lia|]. split; [|split].
    + apply (Permutation_NoDup (Permutation_sym (sort_by_perm (count_of s2) fs))). apply D2. constructor.
    + intros f. split.
      * intros I. apply (Permutation_in _ (sort_by_perm _ _)) in I. apply I2 in I. destruct I as [[]|(n & _ & A)]. exists n. now rewrite <- AT.
      * intros (n & A). apply (Permutation_in _ (Permutation_sym (sort_by_perm _ _))). apply I2. right. exists n. rewrite AT. split; [|exact A].
        apply DIR with f. now rewrite AT.
    + apply sort_by_sorted.
  - intros n. rewrite <- AT. apply class_attr_shape. unfold shape. cbn [m_classes]. rewrite C2. clear - K1.
    assert (G : forall (l : list cls) i x y, nth_error l i = Some x -> (c_mro x, c_dict x) = (c_mro y, c_dict y) ->
      map (fun k => (c_mro k, c_dict k)) (replace_nth i y l) = map (fun k => (c_mro k, c_dict k)) l).
    { intros l i x y N E. unfold replace_nth. rewrite N. rewrite map_app. cbn [map]. rewrite <- E.
      rewrite <- (firstn_skipn i l) at 3. rewrite map_app. f_equal. clear E. revert i N. induction l as [|a l IH]; intros [|i] N; cbn in *; try discriminate.
      - now injection N as ->.
      - now apply IH. }
    eapply G; [exact K1|reflexivity].
  - rewrite N2. reflexivity.
  - rewrite L2. reflexivity.
  - intros f o H. destruct (F2 f o H) as [[E P]|(P & n & _ & A & E)].
    + left. split; [exact E|]. destruct P as [P|P]; [now left|]. right. intros n A. rewrite <- AT in A. apply (P n); [|exact A]. now apply DIR with f.
    + right. split; [exact P|]. exists n. rewrite <- AT. split; [exact A|]. rewrite E. unfold as_attached. now rewrite BC.
Qed.

(** ** C54, any hierarchy *)
Lemma C54_fields_lem s bases mro dict : mro_ok s -> (forall b, In b mro -> (b < length (m_classes s))%nat) -> bases_attached mro s ->
  let c := length (m_classes s) in let s' := define_class bases mro dict s in
  NoDup (fields_of s' c) /\
  (forall f, In f (fields_of s' c) <-> exists n, class_attr s' c n = Some (MField f)) /\
  StronglySorted (fun a b => (count_of s' a <= count_of s' b)%nat) (fields_of s' c).
Proof.
  intros OK LT BA c s'. destruct (define_lem s bases mro dict OK LT BA) as (_ & _ & _ & (fs & K & ND & I & S) & A & _).
  fold c in K, A. fold s' in K, I, S, A. unfold fields_of. rewrite K. cbn [c_fields]. split; [exact ND|]. split; [|exact S].
  intros f. rewrite I. split; intros (n & H); exists n; [now rewrite A|now rewrite <- A].
Qed.
Lemma base_count_nearest s mro n g : nearest s mro n g -> base_count s mro n = Some (count_of s g).
Proof.
  intros (pre & b & post & -> & A & P). induction pre as [|x pre IH]; cbn [app base_count].
  - now rewrite A.
  - destruct (class_attr s x n) as [[y|]|] eqn:X.
    + exfalso. apply (P x y); [now left|exact X].
    + apply IH. intros b' g' I. apply P. now right.
    + apply IH. intros b' g' I. apply P. now right.
Qed.
Lemma base_count_none s mro n : (forall b g, In b mro -> class_attr s b n <> Some (MField g)) -> base_count s mro n = None.
Proof.
  induction mro as [|b mro IH]; intros H; [reflexivity|]. cbn [base_count]. destruct (class_attr s b n) as [[g|]|] eqn:X.
  - exfalso. apply (H b g); [now left|exact X].
  - apply IH. intros b' g' I. apply H. now right.
  - apply IH. intros b' g' I. apply H. now right.
Qed.
Lemma C54_override_lem s bases mro dict n f o : mro_ok s -> (forall b, In b mro -> (b < length (m_classes s))%nat) -> bases_attached mro s ->
  let s' := define_class bases mro dict s in
  nth_error (m_fields s) f = Some o -> fo_parent o = None -> alookup dict n = Some (MField f) ->
  (forall m, alookup dict m = Some (MField f) -> m = n) ->
  (forall m, alookup dict m = None -> mro_attr s mro m <> Some (MField f)) ->
  name_of s' f = Some n /\
  (forall g, nearest s mro n g -> count_of s' f = count_of s g) /\
  ((forall b g, In b mro -> class_attr s b n <> Some (MField g)) -> count_of s' f = count_of s f).
Proof.
  intros OK LT BA s' F P D U V. destruct (define_lem s bases mro dict OK LT BA) as (_ & _ & _ & _ & A & _ & _ & X). fold s' in X, A.
  destruct (X f o F) as [[_ [H|H]]|(_ & m & M & E)].
  - congruence.
  - exfalso. apply (H n). unfold in_class. now rewrite D.
  - assert (m = n). { unfold in_class in M. destruct (alookup dict m) eqn:Q; [apply U; congruence|exfalso; exact (V m Q M)]. } subst m.
    unfold name_of, count_of. rewrite E. cbn [as_attached fo_name fo_count]. split; [reflexivity|]. split.
    + intros g G. rewrite (base_count_nearest _ _ _ _ G). reflexivity.
    + intros G. rewrite (base_count_none _ _ _ G), F. reflexivity.
Qed.
