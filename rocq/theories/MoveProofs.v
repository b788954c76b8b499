(** * MoveProofs: the location of a source shows in the paths of errors only (C107). *)
From Coq Require Import List Lia.
From Verif Require Import PyBase PyStr Source Field Context Fields SpecSrc SpecField SpecForm SpecMove Eval Refine Regime CfgRegime Balance OrderProofs HooksProofs.

Section Move.
Variables (W : world) (l l' : option string).
Notation merrs := (moved_errors l l').
Inductive mexn : exn -> exn -> Prop :=
| mx_same e : mexn e e
| mx_form es es' : merrs es es' -> mexn (EForm es) (EForm es').
Inductive mres {A} : res A -> res A -> Prop :=
| mr_ok a : mres (Ok a) (Ok a)
| mr_exn e e' : mexn e e' -> mres (Exn e) (Exn e').
Definition msteps {A} (m m' : Ev A) : Prop :=
  forall es es' h, merrs es es' ->
    mres (fst (m (es, h))) (fst (m' (es', h))) /\ merrs (fst (snd (m (es, h)))) (fst (snd (m' (es', h)))) /\
    snd (snd (m (es, h))) = snd (snd (m' (es', h))).
(** Steps that neither look at the errors nor add any. *)
Definition pure2 {A} (m m' : Ev A) : Prop :=
  forall h, exists x h1, forall es, m (es, h) = (x, (es, h1)) /\ m' (es, h) = (x, (es, h1)).

Lemma merrs_app a a' b b' : merrs a a' -> merrs b b' -> merrs (a ++ b) (a' ++ b').
Proof. intros A B. induction A; cbn; [exact B|now constructor]. Qed.
Lemma msteps_ret {A} (a : A) : msteps (eret a) (eret a).
Proof. intros es es' h S. cbn. repeat split; [constructor|exact S]. Qed.
Lemma msteps_raise {A} e e' : mexn e e' -> msteps (eraise e : Ev A) (eraise e').
Proof. intros X es es' h S. cbn. repeat split; [now constructor|exact S]. Qed.
Lemma msteps_err {A} e : msteps (eraise e : Ev A) (eraise e).
Proof. apply msteps_raise. constructor. Qed.
Lemma pure_steps {A} (m m' : Ev A) : pure2 m m' -> msteps m m'.
Proof.
  intros P es es' h S. destruct (P h) as (x & h1 & Q). destruct (Q es) as [-> _], (Q es') as [_ ->]. cbn. repeat split; [|exact S].
  destruct x; constructor. constructor.
Qed.
Lemma pure_lift {A} (x : res A) : pure2 (elift x) (elift x).
Proof. intros h. exists x, h. intros es. now split. Qed.
Lemma pure_ret {A} (a : A) : pure2 (eret a) (eret a).
Proof. apply (pure_lift (Ok a)). Qed.
Lemma pure_raise {A} e : pure2 (eraise e : Ev A) (eraise e).
Proof. apply (pure_lift (Exn e)). Qed.
Lemma pure_bind {A B} (m m' : Ev A) (k k' : A -> Ev B) : pure2 m m' -> (forall a, pure2 (k a) (k' a)) -> pure2 (ebind m k) (ebind m' k').
Proof.
  intros P K h. destruct (P h) as (x & h1 & Q). destruct x as [a|e].
  - destruct (K a h1) as (y & h2 & R). exists y, h2. intros es. unfold ebind. destruct (Q es) as [-> ->]. apply R.
  - exists (Exn e), h1. intros es. unfold ebind. destruct (Q es) as [-> ->]. now split.
Qed.
Lemma pure_entries id : pure2 (ev_entries id) (ev_entries id).
Proof. intros h. exists (Ok (hents h id)), h. intros es. split; reflexivity. Qed.
Lemma pure_type id : pure2 (ev_type id) (ev_type id).
Proof. intros h. eexists (Ok _), h. intros es. unfold ev_type. cbn [fst snd]. split; reflexivity. Qed.
Lemma pure_put id x : pure2 (ev_set_entries id x) (ev_set_entries id x).
Proof. intros h. unfold ev_set_entries. cbn [fst snd]. destruct (nth_error h id) as [[]|]; eexists (Ok tt), _; intros es; split; reflexivity. Qed.
Lemma pure_set id k v : pure2 (ev_set id k v) (ev_set id k v).
Proof. apply pure_bind; [apply pure_entries|]. intros x. apply pure_put. Qed.
Lemma pure_setattr id a v : pure2 (ev_setattr id a v) (ev_setattr id a v).
Proof. apply pure_bind; [apply pure_type|]. intros t. destruct (find_field a t); [apply pure_set|apply pure_ret]. Qed.
Lemma pure_del f id : pure2 (ev_del f id) (ev_del f id).
Proof. apply pure_bind; [apply pure_entries|]. intros x. destruct (dict_has _ _); [apply pure_put|apply pure_ret]. Qed.
Lemma pure_delattr id a : pure2 (ev_delattr id a) (ev_delattr id a).
Proof. apply pure_bind; [apply pure_type|]. intros t. destruct (find_field a t); [apply pure_del|apply pure_raise]. Qed.
Lemma pure_item id k : pure2 (ev_item id k) (ev_item id k).
Proof.
  unfold ev_item. destruct (hashable k); [|apply pure_raise]. apply pure_bind; [apply pure_entries|]. intros x.
  destruct (dict_get x k); [apply pure_ret|apply pure_raise].
Qed.
Lemma pure_unit m : pure2 m m -> pure2 (ev_unit m) (ev_unit m).
Proof. intros P. apply pure_bind; [exact P|]. intros _. apply pure_ret. Qed.
Lemma msteps_bind {A B} (m m' : Ev A) (k k' : A -> Ev B) : msteps m m' -> (forall a, msteps (k a) (k' a)) -> msteps (ebind m k) (ebind m' k').
Proof.
  intros M K es es' h S. destruct (M es es' h S) as (M1 & M2 & M3). unfold ebind.
  destruct (m (es, h)) as [r [e1 h1]], (m' (es', h)) as [r' [e2 h2]]. cbn in M1, M2, M3. subst h2.
  destruct M1 as [a|e f XE]; [exact (K a e1 e2 h1 M2)|]. cbn. repeat split; [now constructor|exact M2].
Qed.
Lemma msteps_catch {A B} (m m' : Ev A) (k k' : res A -> Ev B) : msteps m m' -> (forall a, msteps (k (Ok a)) (k' (Ok a))) ->
  (forall e e', mexn e e' -> msteps (k (Exn e)) (k' (Exn e'))) -> msteps (ecatch m k) (ecatch m' k').
Proof.
  intros M K X es es' h S. destruct (M es es' h S) as (M1 & M2 & M3). unfold ecatch.
  destruct (m (es, h)) as [r [e1 h1]], (m' (es', h)) as [r' [e2 h2]]. cbn in M1, M2, M3. subst h2.
  destruct M1 as [a|e f XE]; [exact (K a e1 e2 h1 M2)|exact (X e f XE e1 e2 h1 M2)].
Qed.
Lemma msteps_catch_pure {A B} (m m' : Ev A) (k k' : res A -> Ev B) : pure2 m m' -> (forall x, msteps (k x) (k' x)) -> msteps (ecatch m k) (ecatch m' k').
Proof.
  intros P K es es' h S. destruct (P h) as (x & h1 & Q). unfold ecatch. destruct (Q es) as [-> _], (Q es') as [_ ->]. apply K. exact S.
Qed.

(** ** The two sources *)
Inductive there : psource -> psource -> Prop :=
| th_native d a i : there (SDefault d a i l) (SDefault d a i l')
| th_json d st : there (SJson d st l) (SJson d st l')
| th_config cfg sec d : there (SConfig cfg sec d l) (SConfig cfg sec d l').
Variables src src' : psource.
Hypothesis TH : there src src'.
Definition reads_here (r : rd) : Prop := r_src r = src.
Definition mv (r : rd) : rd := Rd src' (r_pid r) (r_mode r) (r_igd r) (r_igm r) (r_tags r) (r_form r) (r_field r) (r_keys r) (r_val r).
Lemma mv_at r k : reads_here r -> r_at W (mv r) k = mv (r_at W r k).
Proof. intros S. unfold r_at, mv. cbn. unfold r_child. cbn. rewrite S. destruct TH; reflexivity. Qed.
Lemma at_concat x ss s : String.concat ":" (opt_str x ++ ss ++ [s]) = at_location x (String.concat ":" (ss ++ [s])).
Proof.
  destruct x as [a|]; [|reflexivity]. cbn. destruct (String.eqb a ""); [reflexivity|]. destruct ss; reflexivity.
Qed.
Lemma keys_moved ks : match pkeys_str (w_env W) src ks, pkeys_str (w_env W) src' ks with
  | Ok a, Ok b => exists x, a = at_location l x /\ b = at_location l' x | Exn e, Exn e' => e = e' | _, _ => False end.
Proof.
  unfold pkeys_str. destruct (keys_str (w_env W) ks) as [s|e]; [|reflexivity].
  destruct TH as [d a i|d st|cfg sec d]; cbn [psource_prefix].
  - exists (String.concat ":" ([] ++ [s])). split; apply (at_concat _ [] s).
  - exists (String.concat ":" ([] ++ [s])). split; apply (at_concat _ [] s).
  - eexists. rewrite <- !app_assoc. split; apply at_concat.
Qed.
Lemma mreport r k k' : reads_here r -> moved_kind l l' k k' -> msteps (ev_report W r k) (ev_report W (mv r) k').
Proof.
  intros S K es es' h M. unfold ev_report. rewrite S. cbn [mv r_field r_src r_keys r_mode r_pid]. pose proof (keys_moved (r_keys r)) as Q.
  destruct (r_field r) as [n|e]; [|cbn; repeat split; [do 2 constructor|exact M]].
  destruct (pkeys_str _ src _) as [a|e], (pkeys_str _ src' _) as [b|e']; try contradiction; [|subst; cbn; repeat split; [do 2 constructor|exact M]].
  destruct Q as (x & -> & ->).
  assert (Z : merrs (es ++ [MkErr k (at_location l x) n (Some (r_pid r))]) (es' ++ [MkErr k' (at_location l' x) n (Some (r_pid r))])).
  { apply merrs_app; [exact M|]. constructor; [now constructor|constructor]. }
  cbn. repeat split; [|exact Z]. destruct (r_mode r); constructor. now constructor.
Qed.
Lemma minvalid r x : reads_here r -> msteps (ev_invalid W r x) (ev_invalid W (mv r) x).
Proof. intros S. apply msteps_bind; [apply mreport; [exact S|constructor]|]. intros _. apply msteps_ret. Qed.
Lemma mmissing r : reads_here r -> msteps (ev_missing W r) (ev_missing W (mv r)).
Proof.
  intros S. apply msteps_bind; [|intros _; apply msteps_ret]. cbn. destruct (r_igm r); [apply msteps_ret|apply mreport; [exact S|constructor]].
Qed.
Lemma prim_pure r t : reads_here r -> pure2 (ev_primitive W r t) (ev_primitive W (mv r) t).
Proof. intros S. unfold ev_primitive, on_val. rewrite S. cbn. destruct TH; apply pure_lift. Qed.
Lemma val_pure r : pure2 (ev_value r) (ev_value (mv r)).
Proof. apply pure_lift. Qed.
Lemma seq_pure r : reads_here r -> pure2 (ev_sequence W r) (ev_sequence W (mv r)).
Proof. intros S. unfold ev_sequence, on_val. rewrite S. cbn. destruct TH; apply pure_lift. Qed.
Lemma map_pure r : reads_here r -> pure2 (ev_mapping W r) (ev_mapping W (mv r)).
Proof. intros S. unfold ev_mapping, on_val. rewrite S. cbn. destruct TH; apply pure_lift. Qed.
Lemma op_pure r op : reads_here r -> pure2 (ev_pathop W r op) (ev_pathop W (mv r) op).
Proof.
  intros S. destruct op; cbn [ev_pathop].
  - apply val_pure.
  - apply pure_bind; [apply pure_lift|]. intros b. apply pure_ret.
  - apply pure_bind; [apply pure_lift|]. intros b. apply pure_ret.
  - now apply prim_pure.
  - apply pure_bind; [now apply seq_pure|]. intros n. apply pure_ret.
  - apply pure_bind; [now apply map_pure|]. intros v. apply pure_bind; [apply pure_lift|]. intros x. apply pure_ret.
Qed.

(** ** Hooks *)
Lemma mprog r : reads_here r -> forall p, passing_prog p -> msteps (ev_prog W r p) (ev_prog W (mv r) p).
Proof.
  intros S. fix IH 1. intros p.
  assert (H : forall k (q : res val -> prog), (forall es, q (Exn (EForm es)) = PRaise (EForm es)) -> (forall x, msteps (ev_prog W r (q x)) (ev_prog W (mv r) (q x))) ->
    msteps (ecatch (ev_unit (ev_report W r k)) (fun x => ev_prog W r (q x))) (ecatch (ev_unit (ev_report W (mv r) k)) (fun x => ev_prog W (mv r) (q x)))).
  { intros k q L K. apply msteps_catch; [|intros a; apply K|].
    - apply msteps_bind; [apply mreport; [exact S|constructor]|]. intros _. apply msteps_ret.
    - intros e e' [e1|es es' M]; [apply K|]. rewrite !L. cbn [ev_prog]. apply msteps_raise. now constructor. }
  destruct p; cbn [passing_prog]; try (intros []; fail); intros K; cbn [ev_prog].
  - apply msteps_ret.
  - apply msteps_err.
  - apply msteps_catch_pure; [apply pure_lift|]. intros x. apply IH, K.
  - apply msteps_catch_pure; [apply pure_unit, pure_setattr|]. intros x. apply IH, K.
  - apply msteps_catch_pure; [apply pure_unit, pure_delattr|]. intros x. apply IH, K.
  - apply msteps_catch_pure; [apply pure_item|]. intros x. apply IH, K.
  - apply msteps_catch_pure; [now apply op_pure|]. intros x. apply IH, K.
  - apply H; [apply K|]. intros x. apply IH, K.
  - apply H; [apply K|]. intros x. apply IH, K.
Qed.
Notation phook := (hooked_hook passing_prog).
Lemma mhook r o h args : reads_here r -> phook o -> o = Some h -> msteps (ev_hook W r h args) (ev_hook W (mv r) h args).
Proof.
  intros S O Q. apply msteps_bind; [|intros t; apply mprog; [exact S|exact (O h Q t args)]].
  cbn. destruct (hk_attached h); [apply msteps_ret|]. apply pure_steps, pure_lift.
Qed.
Lemma mhook_or {T} r o args (x : T) g : reads_here r -> phook o -> msteps (ev_hook_or W r o args x g) (ev_hook_or W (mv r) o args x g).
Proof.
  intros S O. destruct o as [h|] eqn:Q; cbn [ev_hook_or]; [|apply msteps_ret].
  apply msteps_bind; [eapply mhook; [exact S|exact O|reflexivity]|]. intros v. apply msteps_ret.
Qed.
Lemma mdefault r f : reads_here r -> hooked_opts passing_prog (f_opts f) -> msteps (ev_default W r f) (ev_default W (mv r) f).
Proof.
  intros S H. unfold ev_default. cbn [mv r_igd]. destruct (r_igd r); [now apply mmissing|].
  pose proof (ho_default _ H) as D. destruct (o_default (f_opts f)) as [[h|]|v|p].
  - eapply mhook; [exact S|exact D|reflexivity].
  - now apply mmissing.
  - destruct v as [| | | | | | | | | | | | | |[]| | | | |]; try (now apply msteps_ret). now apply mmissing.
  - now apply mprog.
Qed.
Lemma mvalidate r f v : reads_here r -> msteps (ev_validate W r f v) (ev_validate W (mv r) f v).
Proof.
  intros S es es' h M. unfold ev_validate. cbn [snd]. destruct (field_violation (w_env W) (hents h) f v) as [[x|]|e].
  - assert (B : msteps (ev_report W r (Invalid x);;; eret false) (ev_report W (mv r) (Invalid x);;; eret false)).
    { apply msteps_bind; [apply mreport; [exact S|constructor]|]. intros _. apply msteps_ret. }
    exact (B es es' h M).
  - cbn. repeat split; [constructor|exact M].
  - cbn. repeat split; [do 2 constructor|exact M].
Qed.
Lemma mafter r f v : reads_here r -> hooked_opts passing_prog (f_opts f) -> msteps (ev_after W r f v) (ev_after W (mv r) f v).
Proof.
  intros S H. unfold ev_after. apply msteps_bind.
  { unfold ev_translate. destruct (o_translations (f_opts f)); [apply msteps_ret|]. destruct (hashable v); [apply msteps_ret|apply msteps_err]. }
  intros w. apply msteps_bind; [destruct (ignored w); [apply msteps_ret|apply mhook_or; [exact S|exact (ho_munge _ H)]]|]. intros x.
  destruct (is_NONE x); [now apply mdefault|]. destruct (ignored x); [apply msteps_ret|].
  destruct (negb (field_filter f x)); [now apply mdefault|].
  apply msteps_bind; [apply mhook_or; [exact S|exact (ho_filter _ H)]|]. intros b. destruct b; cbn [negb]; [|now apply mdefault].
  apply msteps_bind; [now apply mvalidate|]. intros b. destruct b; cbn [negb]; [|apply msteps_ret].
  apply msteps_bind; [apply mhook_or; [exact S|exact (ho_validate _ H)]|]. intros b. apply msteps_ret.
Qed.

(** ** Parsing *)
Ltac walk S := repeat (first [apply msteps_ret | apply msteps_err | apply minvalid; exact S
  | match goal with |- msteps (match ?x with _ => _ end) _ => destruct x end
  | apply msteps_bind; [apply pure_steps, val_pure|intro] | apply msteps_bind; [apply pure_steps, prim_pure; exact S|intro] | apply msteps_bind; [|intro] ]).
Lemma mdecimal r : reads_here r -> msteps (ev_decimal W r) (ev_decimal W (mv r)).
Proof. intros S. unfold ev_decimal. walk S. Qed.
Lemma mdate r fmts : reads_here r -> msteps (ev_date W r fmts) (ev_date W (mv r) fmts).
Proof. intros S. unfold ev_date, ev_need_str. walk S. Qed.
Lemma mtime r fmt : reads_here r -> msteps (ev_time W r fmt) (ev_time W (mv r) fmt).
Proof. intros S. unfold ev_time, ev_need_str. walk S. Qed.
Lemma mdatetime r fmt : reads_here r -> msteps (ev_datetime W r fmt) (ev_datetime W (mv r) fmt).
Proof. intros S. unfold ev_datetime, ev_need_str. walk S. Qed.
Lemma mcode r : reads_here r -> msteps (ev_code W r) (ev_code W (mv r)).
Proof. intros S. unfold ev_code. walk S. Qed.
Lemma muuid r : reads_here r -> msteps (ev_uuid W r) (ev_uuid W (mv r)).
Proof. intros S. unfold ev_uuid. cbv zeta. walk S. Qed.

(** ** Containers and forms *)
Section Rec.
Variable rec : rd -> field -> val -> Ev val.
Notation pfield := (hooked passing_prog).
Hypothesis REC : forall r f v, reads_here r -> pfield f -> msteps (rec r f v) (rec (mv r) f v).

Lemma mlist r f : reads_here r -> pfield f -> forall n i acc, msteps (ev_list W rec r i n f acc) (ev_list W rec (mv r) i n f acc).
Proof.
  intros S O. induction n as [|n IH]; intros i acc; cbn [ev_list]; [apply msteps_ret|].
  apply msteps_bind; [rewrite (mv_at r _ S); apply REC; [exact S|exact O]|]. intros v. apply IH.
Qed.
Lemma mtuple r : reads_here r -> forall fs i acc, (forall f, In f fs -> pfield f) -> msteps (ev_tuple W rec r i fs acc) (ev_tuple W rec (mv r) i fs acc).
Proof.
  intros S. induction fs as [|f fs IH]; intros i acc O; cbn [ev_tuple]; [apply msteps_ret|].
  apply msteps_bind; [rewrite (mv_at r _ S); apply REC; [exact S|apply O; now left]|]. intros v. apply IH. intros g I. apply O. now right.
Qed.
Lemma mdict r keyf kf vf : reads_here r -> phook keyf -> pfield kf -> pfield vf -> forall keys acc,
  msteps (ev_dict W rec r keyf kf vf keys acc) (ev_dict W rec (mv r) keyf kf vf keys acc).
Proof.
  intros S A B C. induction keys as [|k keys IH]; intros acc; cbn [ev_dict]; [apply msteps_ret|].
  apply msteps_bind; [now apply mhook_or|]. intros b. destruct b; cbn [negb]; [|apply IH].
  apply msteps_bind; [rewrite (mv_at r _ S); apply REC; [exact S|exact C]|]. intros v. destruct (ignored v); [apply IH|].
  apply msteps_bind; [now apply REC|]. intros k'. destruct (ignored k'); [apply IH|]. destruct (hashable k'); [apply IH|apply msteps_err].
Qed.
Lemma mgroup r ml : reads_here r -> (forall m f, In (m, f) ml -> pfield f) -> forall keys n acc,
  msteps (ev_group W rec r ml keys n acc) (ev_group W rec (mv r) ml keys n acc).
Proof.
  intros S O. induction keys as [|k keys IH]; intros n acc; cbn [ev_group]; [apply msteps_ret|].
  unfold ebind at 1 3. cbn [elift]. destruct (group_match W ml k) as [[[f c]|]|e] eqn:G; [|apply IH|apply (msteps_err e)].
  apply msteps_bind; [|intros v; apply IH]. rewrite (mv_at r _ S). apply REC; [exact S|].
  destruct (Refine.group_In W ml k f c G) as (m & I). exact (O m f I).
Qed.
Lemma mfields r id tags : reads_here r -> forall fs, (forall f, In f fs -> pfield f) -> msteps (ev_fields rec r id tags fs) (ev_fields rec (mv r) id tags fs).
Proof.
  intros S. induction fs as [|f fs IH]; intros O; cbn [ev_fields]; [apply msteps_ret|]. apply msteps_bind.
  - destruct (selected tags f); [|apply msteps_ret]. apply msteps_bind; [apply REC; [exact S|apply O; now left]|].
    intros v. destruct (ignored v); [apply msteps_ret|apply pure_steps, pure_set].
  - intros _. apply IH. intros g I. apply O. now right.
Qed.
Lemma passing_no_opts : hooked_opts passing_prog no_opts.
Proof. split; cbn; try discriminate; try reflexivity; now intros h Q. Qed.
Lemma passing_rest id kf vf : pfield kf -> pfield vf -> pfield (unmapped_dict id kf vf).
Proof.
  intros A B. constructor; [apply passing_no_opts|]. constructor; auto. intros h [= <-] t [|k args]; cbn; [exact I|]. intros [v|e]; exact I.
Qed.
Lemma munmapped r id u : reads_here r -> hooked_unmapped passing_prog u -> msteps (ev_unmapped rec r id u) (ev_unmapped rec (mv r) id u).
Proof.
  intros S U. assert (G : forall kf vf, pfield kf -> pfield vf ->
    msteps (v <~ rec r (unmapped_dict id kf vf) NONEv; eret (Some v)) (v <~ rec (mv r) (unmapped_dict id kf vf) NONEv; eret (Some v))).
  { intros kf vf A B. apply msteps_bind; [apply REC; [exact S|now apply passing_rest]|]. intros v. apply msteps_ret. }
  assert (P : pfield plain_string /\ pfield plain_field) by (split; (constructor; [apply passing_no_opts|constructor])).
  destruct P as [P1 P2]. destruct U; cbn [ev_unmapped]; try apply msteps_ret; try apply msteps_err; now apply G.
Qed.
Lemma mform r id tags u t es es' h : reads_here r -> hooked_unmapped passing_prog u -> (forall f, In f (ft_fields t) -> pfield f) -> form_is t id h -> merrs es es' ->
  let x := ev_form_map W rec r id tags u (es, h) in let y := ev_form_map W rec (mv r) id tags u (es', h) in
  mres (fst x) (fst y) /\ merrs (fst (snd x)) (fst (snd y)) /\ snd (snd x) = snd (snd y).
Proof.
  intros S U O F M. cbv zeta. rewrite !(form_run W rec _ _ _ _ t _ _ F).
  destruct (map_pure r S h) as (x & h1 & Q). destruct (Q es) as [-> _], (Q es') as [_ ->]. destruct x as [v|e].
  - assert (B : msteps (rest rec r id tags u t) (rest rec (mv r) id tags u t)); [|exact (B es es' h M)].
    unfold rest. apply msteps_bind; [exact (mfields (r_inform r id) id tags S (ft_fields t) O)|]. intros _.
    apply msteps_bind; [now apply munmapped|]. intros [w|]; [|apply msteps_ret].
    destruct w; try apply msteps_err; [apply msteps_ret|]. apply pure_steps, pure_bind; [apply pure_entries|]. intros y. apply pure_put.
  - cbn. repeat split; [do 2 constructor|exact M].
Qed.
Lemma mrun tg t rs u (es : list err) (h : heap) : exists h1 : heap, form_is t (length h) h1 /\ forall es r0, r_tags r0 = tg -> ev_form W rec r0 t rs u (es, h) =
  match ev_form_map W rec (r_collecting r0 Collect) (length h) tg u ([], h1) with
  | (Ok _, (e1, h2)) => (Ok (match e1 with [] => VForm (length h) | _ => ERRORv end), (es ++ e1, h2))
  | (Exn e, (_, h2)) => (Exn e, (es, h2))
  end.
Proof.
  set (id := length h). assert (F : form_is t id (h ++ [(t, [])])).
  { exists []. unfold id. rewrite nth_error_app2 by lia. now rewrite Nat.sub_diag. }
  assert (R : exists h1, form_is t id h1 /\ forall e, (if rs then ev_reset id tg (ft_fields t) else eret tt) (e, h ++ [(t, [])]) = (Ok tt, (e, h1))).
  { destruct rs; [|exists (h ++ [(t, [])]); split; [exact F|reflexivity]].
    destruct (reset_keeps id tg t (ft_fields t) _ F) as (h1 & Q & F1). exists h1. now split. }
  destruct R as (h1 & F1 & R). exists h1. split; [exact F1|]. intros es0 r0 Q. unfold ev_form. rewrite Q. unfold ebind, ev_new. cbn [fst snd]. fold id. rewrite R.
  unfold ev_sub. destruct (ev_form_map W rec (r_collecting r0 Collect) id tg u ([], h1)) as [[v|e] [e1 h2]]; reflexivity.
Qed.
Lemma msub r t rs u : reads_here r -> hooked_unmapped passing_prog u -> (forall f, In f (ft_fields t) -> pfield f) ->
  msteps (ev_form W rec r t rs u) (ev_form W rec (mv r) t rs u).
Proof.
  intros S U O es es' h M. destruct (mrun (r_tags r) t rs u es h) as (h1 & F & Q). rewrite (Q es r eq_refl), (Q es' (mv r) eq_refl).
  destruct (mform (r_collecting r Collect) (length h) (r_tags r) u t [] [] h1 S U O F (md_none _ _)) as (M1 & M2 & M3).
  change (mv (r_collecting r Collect)) with (r_collecting (mv r) Collect) in *.
  destruct (ev_form_map W rec (r_collecting r Collect) (length h) (r_tags r) u ([], h1)) as [v1 [e1 h2]],
    (ev_form_map W rec (r_collecting (mv r) Collect) (length h) (r_tags r) u ([], h1)) as [v2 [e2 h3]]. cbn in M1, M2, M3. subst h3.
  destruct M1 as [a|e f XE]; cbn.
  - repeat split; [|now apply merrs_app]. destruct M2; constructor.
  - repeat split; [now constructor|exact M].
Qed.
Lemma mkeys r (k k' : list val -> Ev val) : reads_here r -> (forall x, msteps (k x) (k' x)) ->
  msteps (vw <~ ev_mapping W r; keys <~ elift vw; k keys) (vw <~ ev_mapping W (mv r); keys <~ elift vw; k' keys).
Proof.
  intros S K. apply msteps_bind; [now apply pure_steps, map_pure|]. intros vw. apply msteps_bind; [apply pure_steps, pure_lift|exact K].
Qed.
Lemma mparse r k : reads_here r -> hooked_kind passing_prog k -> msteps (ev_parse W rec r k) (ev_parse W rec (mv r) k).
Proof.
  intros S K. destruct K as [|c|lo hi|lo hi|lo hi| |fmts lo hi|fmt lo hi|fmt lo hi|fs O|f lo hi a O|kf vf keyf rq mx A B C| | |n fs rs u O U|ml O]; cbn [ev_parse].
  - now apply pure_steps, prim_pure.
  - now apply pure_steps, prim_pure.
  - now apply pure_steps, prim_pure.
  - now apply pure_steps, prim_pure.
  - now apply mdecimal.
  - now apply pure_steps, prim_pure.
  - now apply mdate.
  - now apply mtime.
  - now apply mdatetime.
  - apply msteps_bind; [now apply pure_steps, seq_pure|]. intros n. destruct (Nat.eqb n (length fs)); [|now apply minvalid].
    apply msteps_bind; [now apply mtuple|]. intros x. apply msteps_ret.
  - apply msteps_catch_pure; [now apply seq_pure|]. intros [n|e].
    + apply msteps_bind; [now apply mlist|]. intros x. apply msteps_ret.
    + destruct e; try apply msteps_err. destruct a; [|apply msteps_err]. apply msteps_bind; [now apply REC|]. intros v. apply msteps_ret.
  - apply mkeys; [exact S|]. intros x. apply msteps_bind; [now apply mdict|]. intros y. apply msteps_ret.
  - now apply mcode.
  - now apply muuid.
  - now apply msub.
  - apply mkeys; [exact S|]. intros ks. now apply mgroup.
Qed.
Lemma muntied es es' : merrs es es' -> merrs (map untied es) (map untied es').
Proof. induction 1 as [|e e' es es' X _ IH]; constructor; [|exact IH]. destruct X; cbn; now constructor. Qed.
Lemma mcompute r f : reads_here r -> hooked_opts passing_prog (f_opts f) -> hooked_kind passing_prog (f_kind f) -> msteps (ev_compute W rec r f) (ev_compute W rec (mv r) f).
Proof.
  intros S H K. unfold ev_compute. apply msteps_bind; [apply pure_steps, pure_lift|]. intros b. destruct b; cbn [negb]; [|apply msteps_ret].
  apply msteps_bind; [apply pure_steps, pure_lift|]. intros b. destruct b; [apply msteps_ret|]. apply msteps_catch.
  - pose proof (ho_parse _ H) as P. destruct (o_parse (f_opts f)) as [h|]; [|now apply mparse]. eapply mhook; [exact S|exact P|reflexivity].
  - intros a. apply msteps_ret.
  - intros e e' [e1|es es' M].
    + destruct (caught_by_compute e1); [now apply minvalid|apply msteps_err].
    + cbn [caught_by_compute spoken]. apply msteps_bind; [|intros _; apply msteps_ret]. apply mreport; [exact S|]. apply md_form. now apply muntied.
Qed.
Lemma mparent v : msteps (ev_parent v) (ev_parent v).
Proof. destruct v; try apply msteps_err; [|apply msteps_ret]. apply pure_steps, pure_setattr. Qed.
Lemma mfield r f v : reads_here r -> pfield f -> msteps (ev_field_body W rec r f v) (ev_field_body W rec (mv r) f v).
Proof.
  intros S [o k H K]. clear f. set (f := MkField o k). unfold ev_field_body. apply msteps_bind.
  - destruct (is_NONE v); [|apply msteps_ret]. unfold ev_where. change (f_opts f) with o. rewrite (ho_resolve _ H). apply msteps_ret.
  - intros q. assert (B : exists r1, reads_here r1 /\ match q with Some k => r_at W (r_for r f) k | None => r_for r f end = r1 /\
      match q with Some k => r_at W (r_for (mv r) f) k | None => r_for (mv r) f end = mv r1).
    { destruct q as [q|]; eexists; repeat split; try exact S. exact (mv_at (r_for r f) q S). }
    destruct B as (r1 & S1 & -> & ->). apply msteps_bind.
    + unfold ev_body. destruct (is_NONE v); [|now apply mafter]. apply msteps_bind.
      * pose proof (ho_compute _ H) as C. change (f_opts f) with o. destruct (o_compute o) as [h|]; [eapply mhook; [exact S1|exact C|reflexivity]|now apply mcompute].
      * intros w. destruct (is_NONE w).
        -- pose proof (ho_default _ H) as D. change (f_opts f) with o. destruct (o_default o) as [[h|]| |] eqn:Q; try (now apply mdefault).
           eapply mhook; [exact S1|exact D|reflexivity].
        -- destruct (ignored w); [apply msteps_ret|now apply mafter].
    + intros w. apply msteps_bind; [|intros _; apply msteps_ret]. destruct (_ && _)%bool; [apply mparent|apply msteps_ret].
Qed.
End Rec.
Lemma ev_field_moved : forall fuel r f v, reads_here r -> hooked passing_prog f -> msteps (ev_field W fuel r f v) (ev_field W fuel (mv r) f v).
Proof.
  induction fuel as [|n IH]; intros r f v S O; cbn [ev_field]; [apply msteps_err|]. apply mfield; [exact IH|exact S|exact O].
Qed.

Lemma map_moved fuel o root id tags rs u m h t x0 : nth_error h id = Some (t, x0) -> hooked_unmapped passing_prog u -> (forall f, In f (ft_fields t) -> hooked passing_prog f) ->
  let x := ev_map W fuel o src root id tags rs u m h in let y := ev_map W fuel o src' root id tags rs u m h in
  moved_outcome l l' (fst x) (fst y) /\ snd x = snd y.
Proof.
  intros T U O. cbv zeta. set (tg := match tags with [] => ou_tags o | _ => tags end).
  assert (F : form_is t id h) by now exists x0.
  assert (Q : exists h1, form_is t id h1 /\ (if rs then ev_reset id tg (ft_fields t) else eret tt) ([], h) = (Ok tt, ([], h1))).
  { destruct rs; [|exists h; now split]. destruct (reset_keeps id tg t (ft_fields t) h F) as (h1 & Q & F1). exists h1. now split. }
  destruct Q as (h1 & F1 & Q).
  rewrite (map_run W fuel o src root id tags rs u m h t x0 h1 T Q), (map_run W fuel o src' root id tags rs u m h t x0 h1 T Q). fold tg.
  destruct (mform (ev_field W fuel) (ev_field_moved fuel) (r_start o src m root) id tg u t [] [] h1 eq_refl U O F1 (md_none _ _)) as (M1 & M2 & M3).
  change (mv (r_start o src m root)) with (r_start o src' m root) in *.
  destruct (ev_form_map W (ev_field W fuel) (r_start o src m root) id tg u ([], h1)) as [v1 [e1 h2]],
           (ev_form_map W (ev_field W fuel) (r_start o src' m root) id tg u ([], h1)) as [v2 [e2 h3]].
  cbn in M1, M2, M3. subst h3. destruct M1 as [a|e f XE].
  - cbn [fst snd]. split; [|reflexivity]. destruct m; [now constructor|]. destruct M2; constructor; now constructor.
  - cbn [fst snd]. split; [|reflexivity]. destruct XE; now constructor.
Qed.
End Move.

Lemma passing_direct : forall p, passing_prog p -> direct_prog p.
Proof. fix IH 1. intros p. destruct p; cbn; try (intros []; fail); try (intros _; exact I); try (intros K x; apply IH, K); intros [_ K] x; apply IH, K. Qed.
Lemma passing_form t : (forall f, In f (ft_fields t) -> hooked passing_prog f) -> direct_form t.
Proof. intros O. destruct t; constructor; intros f I. apply (proj1 (hooked_direct _ passing_direct)). now apply O. Qed.
Lemma passing_unm u : hooked_unmapped passing_prog u -> direct_unm u.
Proof. exact (proj2 (hooked_direct _ passing_direct) u). Qed.
Section Final.
Variables (W : world) (fuel : nat) (l l' : option string) (id : nat) (t : formty) (x0 : list (val * val)) (tags : list string) (rs : bool) (u : unm) (m : mode) (s : st).
Hypothesis NT : nth_error (forms s) id = Some (t, x0).
Hypothesis O : forall f, In f (ft_fields t) -> hooked passing_prog f.
Hypothesis U : hooked_unmapped passing_prog u.
Definition moved_map (a b : psource) : Prop :=
  let x := Form_map W fuel id (ASrc (SBase (BPlain a))) tags rs u m s in
  let y := Form_map W fuel id (ASrc (SBase (BPlain b))) tags rs u m s in
  moved_outcome l l' (fst x) (fst y) /\ forms (snd x) = forms (snd y) /\ stk (snd x) = stk (snd y).
Lemma moved_by a b root : there l l' a b ->
  (let x := Form_map W fuel id (ASrc (SBase (BPlain a))) tags rs u m s in
   (fst x, forms (snd x)) = ev_map W fuel (outer_of s) a root id tags rs u m (forms s) /\ stk (snd x) = stk s) ->
  (let y := Form_map W fuel id (ASrc (SBase (BPlain b))) tags rs u m s in
   (fst y, forms (snd y)) = ev_map W fuel (outer_of s) b root id tags rs u m (forms s) /\ stk (snd y) = stk s) -> moved_map a b.
Proof.
  intros TH [X X'] [Y Y']. pose proof (map_moved W l l' a b TH fuel (outer_of s) root id tags rs u m (forms s) t x0 NT U O) as [A B].
  rewrite <- X, <- Y in A, B. cbn in A, B. repeat split; [exact A|exact B|]. now rewrite X', Y'.
Qed.
End Final.
Lemma C107_json_lem W fuel d strict l l' id t x0 tags rs u m s :
  json_val d = true -> nth_error (forms s) id = Some (t, x0) -> (forall f, In f (ft_fields t) -> hooked passing_prog f) -> hooked_unmapped passing_prog u -> mapping_context s ->
  let x := Form_map W fuel id (ASrc (SBase (BPlain (SJson d strict l)))) tags rs u m s in
  let y := Form_map W fuel id (ASrc (SBase (BPlain (SJson d strict l')))) tags rs u m s in
  moved_outcome l l' (fst x) (fst y) /\ forms (snd x) = forms (snd y) /\ stk (snd x) = stk (snd y).
Proof.
  intros J NT O U C. apply (moved_by W fuel l l' id t x0 tags rs u m s NT O U _ _ d (th_json l l' d strict));
    apply (C30_json_lem W fuel _ _ _ id t x0); try assumption; try exact (passing_form t O); exact (passing_unm u U).
Qed.
Lemma C107_native_lem W fuel P d l l' id t x0 tags rs u m s :
  plain_native (w_env W) P -> P d -> nth_error (forms s) id = Some (t, x0) -> (forall f, In f (ft_fields t) -> hooked passing_prog f) -> hooked_unmapped passing_prog u -> mapping_context s ->
  let x := Form_map W fuel id (ASrc (SBase (BPlain (SDefault d [] [] l)))) tags rs u m s in
  let y := Form_map W fuel id (ASrc (SBase (BPlain (SDefault d [] [] l')))) tags rs u m s in
  moved_outcome l l' (fst x) (fst y) /\ forms (snd x) = forms (snd y) /\ stk (snd x) = stk (snd y).
Proof.
  intros PN Pd NT O U C. apply (moved_by W fuel l l' id t x0 tags rs u m s NT O U _ _ d (th_native l l' d [] []));
    apply (C30_native_lem W fuel P _ _ id t x0); try assumption; try exact (passing_form t O); exact (passing_unm u U).
Qed.
Lemma C107_config_lem W fuel cfg sec d l l' id t x0 tags rs u m s :
  config_given cfg sec d -> nth_error (forms s) id = Some (t, x0) -> (forall f, In f (ft_fields t) -> hooked passing_prog f) -> hooked_unmapped passing_prog u -> mapping_context s ->
  let x := Form_map W fuel id (ASrc (SBase (BPlain (SConfig cfg sec d l)))) tags rs u m s in
  let y := Form_map W fuel id (ASrc (SBase (BPlain (SConfig cfg sec d l')))) tags rs u m s in
  moved_outcome l l' (fst x) (fst y) /\ forms (snd x) = forms (snd y) /\ stk (snd x) = stk (snd y).
Proof.
  intros G NT O U C. apply (moved_by W fuel l l' id t x0 tags rs u m s NT O U _ _ (config_start cfg sec d) (th_config l l' cfg sec d));
    apply (C30_config_lem W fuel _ _ _ _ id t x0); try assumption; try exact (passing_form t O); exact (passing_unm u U).
Qed.
