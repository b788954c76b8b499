(** * StrictProofs: what maps strictly maps the same without (C106). *)
From Coq Require Import List Lia.
From Verif Require Import PyBase PyStr Source Field Context Fields SpecSrc SpecField SpecForm SpecStrict Eval Refine Regime Balance OrderProofs HooksProofs.

(** The first step ends in an exception, reports an error, or the second is the same; and
    no error is forgotten. *)
Definition bad {A} (m : Ev A) (s : list err * heap) : Prop :=
  (exists e, fst (m s) = Exn e) \/ (length (fst s) < length (fst (snd (m s))))%nat.
Definition grows {A} (m : Ev A) : Prop := forall s, (length (fst s) <= length (fst (snd (m s))))%nat.
Definition tame {A} (m m' : Ev A) : Prop := grows m /\ forall s, bad m s \/ m' s = m s.

Lemma tame_same {A} (m : Ev A) : grows m -> tame m m.
Proof. intros G. split; [exact G|]. intros s. now right. Qed.
Lemma grows_ret {A} (a : A) : grows (eret a).
Proof. intros s. cbn. lia. Qed.
Lemma grows_raise {A} e : grows (eraise e : Ev A).
Proof. intros s. cbn. lia. Qed.
Lemma grows_lift {A} (x : res A) : grows (elift x).
Proof. intros s. cbn. lia. Qed.
Lemma tame_ret {A} (a : A) : tame (eret a) (eret a).
Proof. apply tame_same, grows_ret. Qed.
Lemma tame_raise {A} e (m' : Ev A) : tame (eraise e) m'.
Proof. split; [apply grows_raise|]. intros s. left. left. now exists e. Qed.
Lemma tame_lift {A} (x x' : res A) : (forall a, x = Ok a -> x' = Ok a) -> tame (elift x) (elift x').
Proof.
  intros H. split; [apply grows_lift|]. intros s. destruct x as [a|e]; [right; cbn; now rewrite (H a eq_refl)|]. left. left. now exists e.
Qed.
Lemma tame_bind {A B} (m m' : Ev A) (k k' : A -> Ev B) : tame m m' -> (forall a, tame (k a) (k' a)) -> tame (ebind m k) (ebind m' k').
Proof.
  intros [G M] K. split.
  - intros s. specialize (G s). unfold ebind. destruct (m s) as [[a|e] s1]; cbn in *; [|exact G]. pose proof (proj1 (K a) s1). lia.
  - intros s. specialize (G s). destruct (M s) as [[(e & Q)|Q]|Q].
    + left. left. exists e. unfold ebind. destruct (m s) as [[a|f] s1]; cbn in *; congruence.
    + left. unfold bad, ebind in *. destruct (m s) as [[a|e] s1]; cbn in *; [|left; eauto]. pose proof (proj1 (K a) s1). right. lia.
    + unfold bad, ebind in *. rewrite Q. destruct (m s) as [[a|e] s1]; cbn in *; [|left; left; eauto].
      destruct (proj2 (K a) s1) as [[Z|Z]|Z]; [left; now left|left; right; lia|right; exact Z].
Qed.
Lemma tame_catch {A B} (m m' : Ev A) (k k' : res A -> Ev B) : tame m m' -> (forall a, tame (k (Ok a)) (k' (Ok a))) ->
  (forall e, grows (k (Exn e)) /\ forall s, bad (k (Exn e)) s) -> tame (ecatch m k) (ecatch m' k').
Proof.
  intros [G M] K X. split.
  - intros s. specialize (G s). unfold ecatch. destruct (m s) as [[a|e] s1]; cbn in *; [pose proof (proj1 (K a) s1)|pose proof (proj1 (X e) s1)]; lia.
  - intros s. specialize (G s). specialize (M s). unfold bad, ecatch in *. destruct (m s) as [[a|e] s1]; cbn in *.
    + destruct M as [[(e & Q)|Q]|Q]; [discriminate| |].
      * left. right. pose proof (proj1 (K a) s1). lia.
      * rewrite Q. destruct (proj2 (K a) s1) as [[Z|Z]|Z]; [left; now left|left; right; lia|right; exact Z].
    + left. destruct (proj2 (X e) s1) as [Z|Z]; [now left|right; lia].
Qed.
Lemma tame_catch_same {A B} (m m' : Ev A) (k k' : res A -> Ev B) : grows m -> (forall s, m' s = m s) -> (forall x, tame (k x) (k' x)) -> tame (ecatch m k) (ecatch m' k').
Proof.
  intros G M K. split.
  - intros s. specialize (G s). unfold ecatch. destruct (m s) as [x s1]; cbn in *. pose proof (proj1 (K x) s1). lia.
  - intros s. specialize (G s). unfold bad, ecatch in *. rewrite M. destruct (m s) as [x s1]; cbn in *.
    destruct (proj2 (K x) s1) as [[Z|Z]|Z]; [left; now left|left; right; lia|right; exact Z].
Qed.

Section Strict.
Variables (W : world) (d : val) (loc : option string).
(** Reading strictly, and the same reading without. *)
Definition reads_strictly (r : rd) : Prop := r_src r = SJson d true loc.
Definition lax (r : rd) : rd := Rd (SJson d false loc) (r_pid r) (r_mode r) (r_igd r) (r_igm r) (r_tags r) (r_form r) (r_field r) (r_keys r) (r_val r).
Lemma lax_at r k : reads_strictly r -> r_at W (lax r) k = lax (r_at W r k).
Proof. intros S. unfold r_at, lax. cbn. unfold r_child. cbn. now rewrite S. Qed.
Lemma strict_at r k : reads_strictly r -> reads_strictly (r_at W r k).
Proof. intros S. exact S. Qed.

(** ** Reports *)
Lemma report_bad r k : grows (ev_report W r k) /\ forall s, bad (ev_report W r k) s.
Proof.
  split.
  - intros [es h]. unfold ev_report. destruct (r_field r); [destruct (pkeys_str _ _ _)|]; cbn; try lia. rewrite app_length. cbn. lia.
  - intros [es h]. unfold bad, ev_report. destruct (r_field r); [destruct (pkeys_str _ _ _)|]; cbn; try (left; eauto; fail). right. rewrite app_length. cbn. lia.
Qed.
Lemma report_tame r k : reads_strictly r -> tame (ev_report W r k) (ev_report W (lax r) k).
Proof. intros S. split; [apply report_bad|]. intros s. left. apply report_bad. Qed.
Lemma report_same r k : reads_strictly r -> forall s, ev_report W (lax r) k s = ev_report W r k s.
Proof. intros S [es h]. unfold ev_report. cbn. now rewrite S. Qed.
Lemma invalid_tame r x : reads_strictly r -> tame (ev_invalid W r x) (ev_invalid W (lax r) x).
Proof. intros S. apply tame_bind; [now apply report_tame|]. intros _. apply tame_ret. Qed.
Lemma invalid_bad r x : grows (ev_invalid W r x) /\ forall s, bad (ev_invalid W r x) s.
Proof.
  destruct (report_bad r (Invalid x)) as [G B]. split.
  - intros s. specialize (G s). unfold ev_invalid, ebind. destruct (ev_report W r (Invalid x) s) as [[a|e] s1]; exact G.
  - intros s. specialize (B s). unfold bad, ev_invalid, ebind in *. destruct (ev_report W r (Invalid x) s) as [[a|e] s1]; [|left; now exists e].
    destruct B as [(e & Q)|B]; [discriminate|right; exact B].
Qed.
Lemma missing_tame r : reads_strictly r -> tame (ev_missing W r) (ev_missing W (lax r)).
Proof.
  intros S. apply tame_bind; [|intros _; apply tame_ret]. cbn. destruct (r_igm r); [apply tame_ret|now apply report_tame].
Qed.
Lemma on_val_tame {T} r f f' : (forall v (a : T), f v = Ok a -> f' v = Ok a) -> tame (on_val r f) (on_val (lax r) f').
Proof. intros H. apply tame_lift. cbn. destruct (r_val r); [apply H|discriminate]. Qed.
Lemma primitive_tame r t : reads_strictly r -> tame (ev_primitive W r t) (ev_primitive W (lax r) t).
Proof.
  intros S. apply on_val_tame. intros v a. rewrite S. cbn. destruct t; cbn [json_parse]; try (intros Q; exact Q); destruct v; cbn; try discriminate; auto.
Qed.
Lemma value_tame r : tame (ev_value r) (ev_value (lax r)).
Proof. apply on_val_tame. auto. Qed.
Lemma sequence_same r : reads_strictly r -> forall s, ev_sequence W (lax r) s = ev_sequence W r s.
Proof. intros S s. unfold ev_sequence, on_val. cbn. now rewrite S. Qed.
Lemma mapping_same r : reads_strictly r -> forall s, ev_mapping W (lax r) s = ev_mapping W r s.
Proof. intros S s. unfold ev_mapping, on_val. cbn. now rewrite S. Qed.
Lemma tame_equal {A} (m m' : Ev A) : grows m -> (forall s, m' s = m s) -> tame m m'.
Proof. intros G M. split; [exact G|]. intros s. now right. Qed.
Lemma sequence_tame r : reads_strictly r -> tame (ev_sequence W r) (ev_sequence W (lax r)).
Proof. intros S. apply tame_equal; [apply grows_lift|now apply sequence_same]. Qed.
Lemma mapping_tame r : reads_strictly r -> tame (ev_mapping W r) (ev_mapping W (lax r)).
Proof. intros S. apply tame_equal; [apply grows_lift|now apply mapping_same]. Qed.

(** ** Hooks *)
Lemma grows_bind {A B} (m : Ev A) (k : A -> Ev B) : grows m -> (forall a, grows (k a)) -> grows (ebind m k).
Proof. intros G K s. specialize (G s). unfold ebind. destruct (m s) as [[a|e] s1]; cbn in *; [|exact G]. specialize (K a s1). lia. Qed.
Lemma grows_entries id : grows (ev_entries id).
Proof. intros s. cbn. lia. Qed.
Lemma grows_type id : grows (ev_type id).
Proof. intros s. cbn. lia. Qed.
Lemma grows_put id l : grows (ev_set_entries id l).
Proof. intros s. unfold ev_set_entries. destruct (nth_error _ _) as [[]|]; cbn; lia. Qed.
Lemma grows_set id k v : grows (ev_set id k v).
Proof. apply grows_bind; [apply grows_entries|]. intros l. apply grows_put. Qed.
Lemma grows_setattr id a v : grows (ev_setattr id a v).
Proof. apply grows_bind; [apply grows_type|]. intros t. destruct (find_field a t); [apply grows_set|apply grows_ret]. Qed.
Lemma grows_del f id : grows (ev_del f id).
Proof. apply grows_bind; [apply grows_entries|]. intros l. destruct (dict_has _ _); [apply grows_put|apply grows_ret]. Qed.
Lemma grows_delattr id a : grows (ev_delattr id a).
Proof. apply grows_bind; [apply grows_type|]. intros t. destruct (find_field a t); [apply grows_del|apply grows_raise]. Qed.
Lemma grows_item id k : grows (ev_item id k).
Proof.
  unfold ev_item. destruct (hashable k); [|apply grows_raise]. apply grows_bind; [apply grows_entries|]. intros l.
  destruct (dict_get l k); [apply grows_ret|apply grows_raise].
Qed.
Lemma grows_unit m : grows m -> grows (ev_unit m).
Proof. intros G. apply grows_bind; [exact G|]. intros _. apply grows_ret. Qed.
Lemma grows_pathop r op : grows (ev_pathop W r op).
Proof.
  destruct op; cbn [ev_pathop]; try apply grows_lift; apply grows_bind; try apply grows_lift; intros x; try apply grows_ret.
  apply grows_bind; [apply grows_lift|]. intros l. apply grows_ret.
Qed.
Lemma prog_tame r : reads_strictly r -> forall p, honest_prog p -> tame (ev_prog W r p) (ev_prog W (lax r) p).
Proof.
  intros S. fix IH 1. intros p. destruct p; cbn [honest_prog]; try (intros []; fail); intros K; cbn [ev_prog].
  - apply tame_ret.
  - apply tame_raise.
  - apply tame_catch_same; [apply grows_lift|reflexivity|]. intros x. apply IH, K.
  - apply tame_catch_same; [apply grows_unit, grows_setattr|reflexivity|]. intros x. apply IH, K.
  - apply tame_catch_same; [apply grows_unit, grows_delattr|reflexivity|]. intros x. apply IH, K.
  - apply tame_catch_same; [apply grows_item|reflexivity|]. intros x. apply IH, K.
  - destruct K as [K1 K2]. destruct op; cbn [ev_pathop].
    4:{ apply tame_catch; [now apply primitive_tame|intros a; apply IH, K2|]. intros e. rewrite (K1 e). cbn [ev_prog]. split; [apply grows_raise|]. intros s. left. now exists e. }
    all: apply tame_catch_same; [| |intros x; apply IH, K2].
    + apply grows_lift.
    + reflexivity.
    + exact (grows_pathop r OpExists).
    + reflexivity.
    + exact (grows_pathop r OpIsNull).
    + reflexivity.
    + exact (grows_pathop r OpSequence).
    + intros s. unfold ebind. now rewrite (sequence_same r S).
    + exact (grows_pathop r OpMapping).
    + intros s. unfold ebind at 1 3. now rewrite (mapping_same r S).
  - apply tame_catch_same; [apply grows_unit, report_bad| |intros x; apply IH, K]. intros s. unfold ev_unit, ebind. now rewrite (report_same r _ S).
  - apply tame_catch_same; [apply grows_unit, report_bad| |intros x; apply IH, K]. intros s. unfold ev_unit, ebind. now rewrite (report_same r _ S).
Qed.
Lemma hook_tame r o h args : reads_strictly r -> honest_hook o -> o = Some h -> tame (ev_hook W r h args) (ev_hook W (lax r) h args).
Proof.
  intros S O Q. apply tame_bind; [|intros t; apply prog_tame; [exact S|exact (O h Q t args)]].
  cbn. destruct (hk_attached h); [apply tame_ret|]. apply tame_lift. auto.
Qed.
Lemma hook_or_tame {T} r o args (x : T) g : reads_strictly r -> honest_hook o -> tame (ev_hook_or W r o args x g) (ev_hook_or W (lax r) o args x g).
Proof.
  intros S O. destruct o as [h|] eqn:Q; cbn [ev_hook_or]; [|apply tame_ret].
  apply tame_bind; [eapply hook_tame; [exact S|exact O|reflexivity]|]. intros v. apply tame_ret.
Qed.
Lemma default_tame r f : reads_strictly r -> honest_opts (f_opts f) -> tame (ev_default W r f) (ev_default W (lax r) f).
Proof.
  intros S H. unfold ev_default. cbn [lax r_igd]. destruct (r_igd r); [now apply missing_tame|].
  pose proof (ho_default _ H) as D. destruct (o_default (f_opts f)) as [[h|]|v|p].
  - eapply hook_tame; [exact S|exact D|reflexivity].
  - now apply missing_tame.
  - destruct v as [| | | | | | | | | | | | | |[]| | | | |]; try (now apply tame_ret). now apply missing_tame.
  - now apply prog_tame.
Qed.
Lemma validate_tame r f v : reads_strictly r -> tame (ev_validate W r f v) (ev_validate W (lax r) f v).
Proof.
  intros S.
  assert (G : grows (ev_validate W r f v)).
  { intros [es h]. unfold ev_validate. cbn [fst snd]. destruct (field_violation _ _ _ _) as [[x|]|e]; cbn; try lia.
    refine (grows_bind (ev_report W r (Invalid x)) (fun _ => eret false) (proj1 (report_bad _ _)) _ (es, h)). intros _. apply grows_ret. }
  apply tame_equal; [exact G|]. intros [es h]. unfold ev_validate. cbn [fst snd]. destruct (field_violation _ _ _ _) as [[x|]|e]; try reflexivity.
  unfold ebind. now rewrite (report_same r _ S).
Qed.
Lemma after_tame r f v : reads_strictly r -> honest_opts (f_opts f) -> tame (ev_after W r f v) (ev_after W (lax r) f v).
Proof.
  intros S H. unfold ev_after. apply tame_bind.
  { unfold ev_translate. destruct (o_translations (f_opts f)); [apply tame_ret|]. destruct (hashable v); [apply tame_ret|apply tame_raise]. }
  intros w. apply tame_bind; [destruct (ignored w); [apply tame_ret|apply hook_or_tame; [exact S|exact (ho_munge _ H)]]|]. intros x.
  destruct (is_NONE x); [now apply default_tame|]. destruct (ignored x); [apply tame_ret|].
  destruct (negb (field_filter f x)); [now apply default_tame|].
  apply tame_bind; [apply hook_or_tame; [exact S|exact (ho_filter _ H)]|]. intros b. destruct b; cbn [negb]; [|now apply default_tame].
  apply tame_bind; [now apply validate_tame|]. intros b. destruct b; cbn [negb]; [|apply tame_ret].
  apply tame_bind; [apply hook_or_tame; [exact S|exact (ho_validate _ H)]|]. intros b. apply tame_ret.
Qed.

(** ** Parsing *)
Lemma text_tame {B} r (k k' : val -> Ev B) : reads_strictly r -> (forall w, tame (k w) (k' w)) -> tame (ebind (ev_primitive W r TyStr) k) (ebind (ev_primitive W (lax r) TyStr) k').
Proof. intros S K. apply tame_bind; [now apply primitive_tame|exact K]. Qed.
Ltac done S := repeat (first [apply tame_ret | apply tame_raise | apply invalid_tame; exact S
  | match goal with |- tame (match ?x with _ => _ end) _ => destruct x end
  | apply text_tame; [exact S|intro] | apply tame_bind; [apply value_tame|intro] | apply tame_bind; [apply primitive_tame; exact S|intro] | apply tame_bind; [|intro] ]).
Lemma decimal_tame r : reads_strictly r -> tame (ev_decimal W r) (ev_decimal W (lax r)).
Proof. intros S. unfold ev_decimal. done S. Qed.
Lemma date_tame r fmts : reads_strictly r -> tame (ev_date W r fmts) (ev_date W (lax r) fmts).
Proof. intros S. unfold ev_date, ev_need_str. done S. Qed.
Lemma time_tame r fmt : reads_strictly r -> tame (ev_time W r fmt) (ev_time W (lax r) fmt).
Proof. intros S. unfold ev_time, ev_need_str. done S. Qed.
Lemma datetime_tame r fmt : reads_strictly r -> tame (ev_datetime W r fmt) (ev_datetime W (lax r) fmt).
Proof. intros S. unfold ev_datetime, ev_need_str. done S. Qed.
Lemma code_tame r : reads_strictly r -> tame (ev_code W r) (ev_code W (lax r)).
Proof. intros S. unfold ev_code. done S. Qed.
Lemma uuid_tame r : reads_strictly r -> tame (ev_uuid W r) (ev_uuid W (lax r)).
Proof. intros S. unfold ev_uuid. cbv zeta. done S. Qed.

(** ** Containers and forms *)
Section Rec.
Variable rec : rd -> field -> val -> Ev val.
Hypothesis REC : forall r f v, reads_strictly r -> honest_field f -> tame (rec r f v) (rec (lax r) f v).

Lemma list_tame r f : reads_strictly r -> honest_field f -> forall n i acc, tame (ev_list W rec r i n f acc) (ev_list W rec (lax r) i n f acc).
Proof.
  intros S O. induction n as [|n IH]; intros i acc; cbn [ev_list]; [apply tame_ret|].
  apply tame_bind; [rewrite (lax_at r _ S); apply REC; [exact S|exact O]|]. intros v. apply IH.
Qed.
Lemma tuple_tame r : reads_strictly r -> forall fs i acc, (forall f, In f fs -> honest_field f) -> tame (ev_tuple W rec r i fs acc) (ev_tuple W rec (lax r) i fs acc).
Proof.
  intros S. induction fs as [|f fs IH]; intros i acc O; cbn [ev_tuple]; [apply tame_ret|].
  apply tame_bind; [rewrite (lax_at r _ S); apply REC; [exact S|apply O; now left]|]. intros v. apply IH. intros g I. apply O. now right.
Qed.
Lemma dict_tame r keyf kf vf : reads_strictly r -> honest_hook keyf -> honest_field kf -> honest_field vf -> forall keys acc,
  tame (ev_dict W rec r keyf kf vf keys acc) (ev_dict W rec (lax r) keyf kf vf keys acc).
Proof.
  intros S A B C. induction keys as [|k keys IH]; intros acc; cbn [ev_dict]; [apply tame_ret|].
  apply tame_bind; [now apply hook_or_tame|]. intros b. destruct b; cbn [negb]; [|apply IH].
  apply tame_bind; [rewrite (lax_at r _ S); apply REC; [exact S|exact C]|]. intros v. destruct (ignored v); [apply IH|].
  apply tame_bind; [now apply REC|]. intros k'. destruct (ignored k'); [apply IH|]. destruct (hashable k'); [apply IH|apply tame_raise].
Qed.
Lemma group_tame r l : reads_strictly r -> (forall m f, In (m, f) l -> honest_field f) -> forall keys n acc,
  tame (ev_group W rec r l keys n acc) (ev_group W rec (lax r) l keys n acc).
Proof.
  intros S O. induction keys as [|k keys IH]; intros n acc; cbn [ev_group]; [apply tame_ret|].
  unfold ebind at 1 3. cbn [elift]. destruct (group_match W l k) as [[[f c]|]|e] eqn:G; [|apply IH|apply (tame_raise e)].
  apply tame_bind; [|intros v; apply IH]. rewrite (lax_at r _ S). apply REC; [exact S|].
  destruct (Refine.group_In W l k f c G) as (m & I). exact (O m f I).
Qed.
Lemma fields_tame r id tags : reads_strictly r -> forall fs, (forall f, In f fs -> honest_field f) -> tame (ev_fields rec r id tags fs) (ev_fields rec (lax r) id tags fs).
Proof.
  intros S. induction fs as [|f fs IH]; intros O; cbn [ev_fields]; [apply tame_ret|]. apply tame_bind.
  - destruct (selected tags f); [|apply tame_ret]. apply tame_bind; [apply REC; [exact S|apply O; now left]|].
    intros v. destruct (ignored v); [apply tame_ret|apply tame_same, grows_set].
  - intros _. apply IH. intros g I. apply O. now right.
Qed.
Lemma honest_no_opts : honest_opts no_opts.
Proof. split; cbn; try discriminate; try reflexivity; now intros h Q. Qed.
Lemma honest_rest id kf vf : honest_field kf -> honest_field vf -> honest_field (unmapped_dict id kf vf).
Proof.
  intros A B. constructor; [apply honest_no_opts|]. constructor; auto. intros h [= <-] t [|k args]; cbn; [exact I|]. intros [v|e]; exact I.
Qed.
Lemma unmapped_tame r id u : reads_strictly r -> honest_unmapped u -> tame (ev_unmapped rec r id u) (ev_unmapped rec (lax r) id u).
Proof.
  intros S U. assert (G : forall kf vf, honest_field kf -> honest_field vf ->
    tame (v <~ rec r (unmapped_dict id kf vf) NONEv; eret (Some v)) (v <~ rec (lax r) (unmapped_dict id kf vf) NONEv; eret (Some v))).
  { intros kf vf A B. apply tame_bind; [apply REC; [exact S|now apply honest_rest]|]. intros v. apply tame_ret. }
  assert (P : honest_field plain_string /\ honest_field plain_field) by (split; (constructor; [apply honest_no_opts|constructor])).
  destruct P as [P1 P2]. destruct U; cbn [ev_unmapped]; try apply tame_ret; try apply tame_raise; now apply G.
Qed.
Lemma rest_tame r id tags u t : reads_strictly r -> honest_unmapped u -> (forall f, In f (ft_fields t) -> honest_field f) -> tame (rest rec r id tags u t) (rest rec (lax r) id tags u t).
Proof.
  intros S U O. unfold rest. apply tame_bind; [exact (fields_tame (r_inform r id) id tags S (ft_fields t) O)|]. intros _.
  apply tame_bind; [now apply unmapped_tame|]. intros [v|]; [|apply tame_ret].
  destruct v; try apply tame_raise; [apply tame_ret|]. apply tame_same, grows_bind; [apply grows_entries|]. intros x. apply grows_put.
Qed.
Lemma form_tame r id tags u t s : reads_strictly r -> honest_unmapped u -> (forall f, In f (ft_fields t) -> honest_field f) -> form_is t id (snd s) ->
  (length (fst s) <= length (fst (snd (ev_form_map W rec r id tags u s))))%nat /\
  (bad (ev_form_map W rec r id tags u) s \/ ev_form_map W rec (lax r) id tags u s = ev_form_map W rec r id tags u s).
Proof.
  intros S U O F. destruct s as [es h]. unfold bad. rewrite !(form_run W rec _ _ _ _ t _ _ F), (mapping_same r S).
  unfold ev_mapping, on_val, elift. destruct (match r_val r with Ok v => _ | Exn e => Exn e end) as [v|e].
  - destruct (rest_tame r id tags u t S U O) as [G T]. split; [apply G|]. destruct (T (es, h)) as [B|B]; [left; exact B|right; exact B].
  - cbn. split; [lia|]. left. left. eauto.
Qed.
Lemma sub_run tg t rs u (es : list err) (h : heap) : exists h1 : heap, form_is t (length h) h1 /\ forall r0, r_tags r0 = tg -> ev_form W rec r0 t rs u (es, h) =
  match ev_form_map W rec (r_collecting r0 Collect) (length h) tg u ([], h1) with
  | (Ok _, (e1, h2)) => (Ok (match e1 with [] => VForm (length h) | _ => ERRORv end), (es ++ e1, h2))
  | (Exn e, (_, h2)) => (Exn e, (es, h2))
  end.
Proof.
  set (id := length h). assert (F : form_is t id (h ++ [(t, [])])).
  { exists []. unfold id. rewrite nth_error_app2 by lia. now rewrite Nat.sub_diag. }
  assert (R : exists h1, form_is t id h1 /\ forall e, (if rs then ev_reset id tg (ft_fields t) else eret tt) (e, h ++ [(t, [])]) = (Ok tt, (e, h1))).
  { destruct rs; [|exists (h ++ [(t, [])]); split; [exact F|reflexivity]].
    destruct (reset_keeps id tg t (ft_fields t) _ F) as (h1 & Q & F1). exists h1. now split. }
  destruct R as (h1 & F1 & R). exists h1. split; [exact F1|]. intros r0 Q. unfold ev_form. rewrite Q. unfold ebind, ev_new. cbn [fst snd]. fold id. rewrite R.
  unfold ev_sub. destruct (ev_form_map W rec (r_collecting r0 Collect) id tg u ([], h1)) as [[v|e] [e1 h2]]; reflexivity.
Qed.
Lemma sub_tame r t rs u : reads_strictly r -> honest_unmapped u -> (forall f, In f (ft_fields t) -> honest_field f) ->
  tame (ev_form W rec r t rs u) (ev_form W rec (lax r) t rs u).
Proof.
  intros S U O. assert (K : forall s, (length (fst s) <= length (fst (snd (ev_form W rec r t rs u s))))%nat /\
    (bad (ev_form W rec r t rs u) s \/ ev_form W rec (lax r) t rs u s = ev_form W rec r t rs u s)).
  { intros [es h]. destruct (sub_run (r_tags r) t rs u es h) as (h1 & F & Q). unfold bad. rewrite (Q r eq_refl), (Q (lax r) eq_refl).
    destruct (form_tame (r_collecting r Collect) (length h) (r_tags r) u t ([], h1) S U O F) as [_ B]. unfold bad in B.
    change (lax (r_collecting r Collect)) with (r_collecting (lax r) Collect) in B.
    destruct (ev_form_map W rec (r_collecting r Collect) (length h) (r_tags r) u ([], h1)) as [[v|e] [e1 h2]]; cbn [fst snd] in *.
    - rewrite app_length. split; [lia|]. destruct B as [[(e & Z)|Z]|Z]; [discriminate|left; right; cbn in Z; lia|]. right. now rewrite Z.
    - split; [lia|]. left. left. eauto. }
  split; [intros s; apply K|intros s; apply K].
Qed.
Lemma keys_tame r (k k' : list val -> Ev val) : reads_strictly r -> (forall l, tame (k l) (k' l)) ->
  tame (vw <~ ev_mapping W r; keys <~ elift vw; k keys) (vw <~ ev_mapping W (lax r); keys <~ elift vw; k' keys).
Proof.
  intros S K. apply tame_bind; [now apply mapping_tame|]. intros vw. apply tame_bind; [now apply tame_lift|exact K].
Qed.
Lemma parse_tame r k : reads_strictly r -> honest_kind k -> tame (ev_parse W rec r k) (ev_parse W rec (lax r) k).
Proof.
  intros S K. destruct K as [|c|lo hi|lo hi|lo hi| |fmts lo hi|fmt lo hi|fmt lo hi|fs O|f lo hi a O|kf vf keyf rq mx A B C| | |n fs rs u O U|l O]; cbn [ev_parse].
  - now apply primitive_tame.
  - now apply primitive_tame.
  - now apply primitive_tame.
  - now apply primitive_tame.
  - now apply decimal_tame.
  - now apply primitive_tame.
  - now apply date_tame.
  - now apply time_tame.
  - now apply datetime_tame.
  - apply tame_bind; [now apply sequence_tame|]. intros n. destruct (Nat.eqb n (length fs)); [|now apply invalid_tame].
    apply tame_bind; [now apply tuple_tame|]. intros l. apply tame_ret.
  - apply tame_catch_same; [apply grows_lift|now apply sequence_same|]. intros [n|e].
    + apply tame_bind; [now apply list_tame|]. intros l. apply tame_ret.
    + destruct e; try apply tame_raise. destruct a; [|apply tame_raise]. apply tame_bind; [now apply REC|]. intros v. apply tame_ret.
  - apply keys_tame; [exact S|]. intros l. apply tame_bind; [now apply dict_tame|]. intros x. apply tame_ret.
  - now apply code_tame.
  - now apply uuid_tame.
  - now apply sub_tame.
  - apply keys_tame; [exact S|]. intros ks. now apply group_tame.
Qed.
Lemma compute_tame r f : reads_strictly r -> honest_opts (f_opts f) -> honest_kind (f_kind f) -> tame (ev_compute W rec r f) (ev_compute W rec (lax r) f).
Proof.
  intros S H K. unfold ev_compute. apply tame_bind; [apply on_val_tame; auto|]. intros b. destruct b; cbn [negb]; [|apply tame_ret].
  apply tame_bind; [apply on_val_tame; auto|]. intros b. destruct b; [apply tame_ret|]. apply tame_catch.
  - pose proof (ho_parse _ H) as P. destruct (o_parse (f_opts f)) as [h|]; [|now apply parse_tame]. eapply hook_tame; [exact S|exact P|reflexivity].
  - intros a. apply tame_ret.
  - intros e. destruct (caught_by_compute e); [apply invalid_bad|]. split; [apply grows_raise|]. intros s. left. now exists e.
Qed.
Lemma parent_tame v : tame (ev_parent v) (ev_parent v).
Proof. destruct v; try apply tame_raise; [|apply tame_ret]. apply tame_same, grows_setattr. Qed.
Lemma field_tame r f v : reads_strictly r -> honest_field f -> tame (ev_field_body W rec r f v) (ev_field_body W rec (lax r) f v).
Proof.
  intros S [o k H K]. clear f. set (f := MkField o k). unfold ev_field_body. apply tame_bind.
  - destruct (is_NONE v); [|apply tame_ret]. unfold ev_where. change (f_opts f) with o. rewrite (ho_resolve _ H). apply tame_ret.
  - intros q. assert (B : exists r1, reads_strictly r1 /\ match q with Some k => r_at W (r_for r f) k | None => r_for r f end = r1 /\
      match q with Some k => r_at W (r_for (lax r) f) k | None => r_for (lax r) f end = lax r1).
    { destruct q as [q|]; eexists; repeat split; try exact S. exact (lax_at (r_for r f) q S). }
    destruct B as (r1 & S1 & -> & ->). apply tame_bind.
    + unfold ev_body. destruct (is_NONE v); [|now apply after_tame]. apply tame_bind.
      * pose proof (ho_compute _ H) as C. change (f_opts f) with o. destruct (o_compute o) as [h|]; [eapply hook_tame; [exact S1|exact C|reflexivity]|now apply compute_tame].
      * intros w. destruct (is_NONE w).
        -- pose proof (ho_default _ H) as D. change (f_opts f) with o. destruct (o_default o) as [[h|]| |] eqn:Q; try (now apply default_tame).
           eapply hook_tame; [exact S1|exact D|reflexivity].
        -- destruct (ignored w); [apply tame_ret|now apply after_tame].
    + intros w. apply tame_bind; [|intros _; apply tame_ret]. destruct (_ && _)%bool; [apply parent_tame|apply tame_ret].
Qed.
End Rec.
Lemma ev_field_tame : forall fuel r f v, reads_strictly r -> honest_field f -> tame (ev_field W fuel r f v) (ev_field W fuel (lax r) f v).
Proof.
  induction fuel as [|n IH]; intros r f v S O; cbn [ev_field]; [apply tame_raise|]. apply field_tame; [exact IH|exact S|exact O].
Qed.
End Strict.

Lemma honest_prog_direct : forall p, honest_prog p -> direct_prog p.
Proof. fix IH 1. intros p. destruct p; cbn; try (intros []; fail); try (intros _; exact I); try (intros K x; apply IH, K); intros [_ K] x; apply IH, K. Qed.

Lemma map_tame W loc fuel o d id tags rs u h t l : nth_error h id = Some (t, l) -> honest_unmapped u -> (forall f, In f (ft_fields t) -> honest_field f) ->
  forall m x, ev_map W fuel o (SJson d true loc) d id tags rs u m h = (Ok [], x) -> ev_map W fuel o (SJson d false loc) d id tags rs u m h = (Ok [], x).
Proof.
  intros T U O m x. set (tg := match tags with [] => ou_tags o | _ => tags end).
  assert (F : form_is t id h) by now exists l.
  assert (Q : exists h1, form_is t id h1 /\ (if rs then ev_reset id tg (ft_fields t) else eret tt) ([], h) = (Ok tt, ([], h1))).
  { destruct rs; [|exists h; now split]. destruct (reset_keeps id tg t (ft_fields t) h F) as (h1 & Q & F1). exists h1. now split. }
  destruct Q as (h1 & F1 & Q).
  rewrite (map_run W fuel o (SJson d true loc) d id tags rs u m h t l h1 T Q), (map_run W fuel o (SJson d false loc) d id tags rs u m h t l h1 T Q). fold tg.
  destruct (form_tame W d loc (ev_field W fuel) (ev_field_tame W d loc fuel) (r_start o (SJson d true loc) m d) id tg u t ([], h1) eq_refl U O F1) as [_ B].
  change (lax d loc (r_start o (SJson d true loc) m d)) with (r_start o (SJson d false loc) m d) in B. unfold bad in B.
  destruct (ev_form_map W (ev_field W fuel) (r_start o (SJson d true loc) m d) id tg u ([], h1)) as [[v|e] [e1 h2]]; cbn [fst snd] in B; [|discriminate].
  destruct B as [[(e & Z)|Z]|Z]; [discriminate| |now rewrite Z]. destruct e1; [cbn in Z; lia|]. destruct m; discriminate.
Qed.
Lemma C106_lem W fuel d loc id t l tags rs u m s :
  json_val d = true -> nth_error (forms s) id = Some (t, l) -> (forall f, In f (ft_fields t) -> honest_field f) -> honest_unmapped u -> mapping_context s ->
  let x := Form_map W fuel id (ASrc (SBase (BPlain (SJson d true loc)))) tags rs u m s in
  let y := Form_map W fuel id (ASrc (SBase (BPlain (SJson d false loc)))) tags rs u m s in
  fst x = Ok [] -> fst y = Ok [] /\ forms (snd y) = forms (snd x) /\ stk (snd y) = stk (snd x).
Proof.
  intros J NT O U C. cbv zeta. destruct (hooked_direct honest_prog honest_prog_direct) as [DF DU].
  assert (D : direct_form t) by (destruct t; constructor; intros f I; apply DF; now apply O).
  pose proof (C30_json_lem W fuel d true loc id t l tags rs u m s J NT D (DU u U) C) as [X X'].
  pose proof (C30_json_lem W fuel d false loc id t l tags rs u m s J NT D (DU u U) C) as [Y Y']. cbv zeta in X, Y, X', Y'.
  intros Q. rewrite Q in X. symmetry in X. apply (map_tame W loc fuel (outer_of s) d id tags rs u (forms s) t l NT U O m) in X.
  rewrite X in Y. inversion Y as [[Y1 Y2]]. rewrite Y1, Y2, X', Y'. auto.
Qed.
