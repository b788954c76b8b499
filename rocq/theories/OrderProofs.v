(** * OrderProofs: the order of the keys of a JSON document (C105). *)
From Coq Require Import List Lia.
From Verif Require Import PyBase PyStr Source Field Context Fields SpecSrc SpecField SpecCtx SpecForm SpecOrder Eval Regime Balance.

(** ** Values, also missing ones *)
Inductive near : val -> val -> Prop :=
| nr_data v v' : reordered v v' -> near v v'
| nr_none : near (VConst NONE) (VConst NONE).
Inductive rnear : res val -> res val -> Prop :=
| rn_ok v v' : near v v' -> rnear (Ok v) (Ok v')
| rn_exn e : rnear (Exn e) (Exn e).

Lemma nth_near l l' : Forall2 reordered l l' -> forall n,
  match nth_error l n, nth_error l' n with Some a, Some b => reordered a b | None, None => True | _, _ => False end.
Proof. intros F. induction F as [|a b l l' R F IH]; intros [|n]; cbn; auto. apply IH. Qed.
Lemma len_near (l l' : list val) : Forall2 reordered l l' -> length l = length l'.
Proof. intros F. induction F; cbn; congruence. Qed.
Lemma index_near l l' i : Forall2 reordered l l' ->
  match py_index l i, py_index l' i with Some a, Some b => reordered a b | None, None => True | _, _ => False end.
Proof.
  intros F. unfold py_index. rewrite <- (len_near l l' F).
  destruct (_ || _)%bool; [exact I|]. apply (nth_near l l' F).
Qed.

Lemma get_near E ents v v' k : near v v' -> rnear (py_getitem E ents v k) (py_getitem E ents v' k).
Proof.
  intros [a b R|]; [|constructor].
  inversion R as [|x|x|x|x|l l' F|l l' A B]; subst; cbn [py_getitem]; try apply rn_exn.
  - destruct k as [s|i|w]; try constructor. destruct (py_index (chars x) i); constructor. do 2 constructor.
  - destruct k as [s|i|w]; try constructor. pose proof (index_near l l' i F) as I.
    destruct (py_index l i), (py_index l' i); try contradiction; constructor. now constructor.
  - destruct (dict_get l (val_of_key k)) as [w|] eqn:G.
    + destruct (A _ _ G) as (w' & -> & RW). do 2 constructor. exact RW.
    + destruct (dict_get l' (val_of_key k)) as [w'|] eqn:G'; [|constructor].
      destruct (B _ _ G') as (w & Q & _). congruence.
Qed.
Lemma walk_near E ents : forall atoms v v', near v v' -> rnear (json_walk E ents v atoms) (json_walk E ents v' atoms).
Proof.
  induction atoms as [|a atoms IH]; intros v v' N; cbn [json_walk]; [now constructor|].
  destruct (get_near E ents v v' (KStr a) N) as [w w' NW|e]; [now apply IH|constructor].
Qed.
Lemma or_none_near a b : rnear a b -> rnear (or_NONE a) (or_NONE b).
Proof. intros [v v' N|e]; cbn [or_NONE]; [now constructor|]. destruct (is_lookup_or_type e); [apply rn_ok, nr_none|constructor]. Qed.
Lemma resolve_near E ents v v' k : near v v' -> rnear (json_resolve E ents v k) (json_resolve E ents v' k).
Proof.
  intros N. unfold json_resolve. apply or_none_near. destruct k as [s|i|w]; try now apply get_near.
  destruct (has_char dot s); [now apply walk_near|now apply get_near].
Qed.

(** ** Steps with the same outcome *)
Inductive same_exn : exn -> exn -> Prop :=
| sx_same e : same_exn e e
| sx_form es es' : same_errors es es' -> same_exn (EForm es) (EForm es').
Inductive near_exn : exn -> exn -> Prop :=
| nx_same e e' : same_exn e e' -> near_exn e e'
| nx_source a b : same_text a b -> near_exn (ESource a) (ESource b).
Lemma same_refl es : same_errors es es.
Proof. induction es; constructor; [constructor|assumption]. Qed.

Inductive same_res {A} (X : exn -> exn -> Prop) (R : A -> A -> Prop) : res A -> res A -> Prop :=
| sr_ok a b : R a b -> same_res X R (Ok a) (Ok b)
| sr_exn e f : X e f -> same_res X R (Exn e) (Exn f).
Definition steps {A} (X : exn -> exn -> Prop) (R : A -> A -> Prop) (m m' : Ev A) : Prop :=
  forall es es' h, same_errors es es' ->
    same_res X R (fst (m (es, h))) (fst (m' (es', h))) /\
    same_errors (fst (snd (m (es, h)))) (fst (snd (m' (es', h)))) /\
    snd (snd (m (es, h))) = snd (snd (m' (es', h))).

Section Steps.
Variable X : exn -> exn -> Prop.
Lemma steps_ret {A} (R : A -> A -> Prop) a b : R a b -> steps X R (eret a) (eret b).
Proof. intros H es es' h S. cbn. repeat split; [now constructor|exact S]. Qed.
Lemma steps_raise {A} (R : A -> A -> Prop) e f : X e f -> steps X R (eraise e) (eraise f).
Proof. intros H es es' h S. cbn. repeat split; [now constructor|exact S]. Qed.
Lemma steps_lift {A} (R : A -> A -> Prop) a b : same_res X R a b -> steps X R (elift a) (elift b).
Proof. intros H es es' h S. cbn. auto. Qed.
Lemma steps_bind {A B} (R : A -> A -> Prop) (Q : B -> B -> Prop) m m' k k' :
  steps X R m m' -> (forall a b, R a b -> steps X Q (k a) (k' b)) -> steps X Q (ebind m k) (ebind m' k').
Proof.
  intros M K es es' h S. destruct (M es es' h S) as (M1 & M2 & M3). unfold ebind.
  destruct (m (es, h)) as [r [e1 h1]], (m' (es', h)) as [r' [e2 h2]]. cbn in M1, M2, M3. subst h2.
  destruct M1 as [a b RA|e f XE]; [exact (K a b RA e1 e2 h1 M2)|]. cbn. repeat split; [now constructor|exact M2].
Qed.
End Steps.
Lemma steps_catch {A B} (X Y : exn -> exn -> Prop) (R : A -> A -> Prop) (Q : B -> B -> Prop) m m' k k' :
  steps X R m m' -> (forall a b, same_res X R a b -> steps Y Q (k a) (k' b)) -> steps Y Q (ecatch m k) (ecatch m' k').
Proof.
  intros M K es es' h S. destruct (M es es' h S) as (M1 & M2 & M3). unfold ecatch.
  destruct (m (es, h)) as [r [e1 h1]], (m' (es', h)) as [r' [e2 h2]]. cbn in M1, M2, M3. subst h2.
  exact (K r r' M1 e1 e2 h1 M2).
Qed.
Lemma steps_weaken {A} (R : A -> A -> Prop) m m' : steps same_exn R m m' -> steps near_exn R m m'.
Proof.
  intros M es es' h S. destruct (M es es' h S) as (M1 & M2 & M3). repeat split; try assumption.
  destruct M1; constructor; [assumption|]. now constructor.
Qed.
(** A step that does not look at the errors. *)
Lemma steps_same {A} (X : exn -> exn -> Prop) (m : Ev A) : (forall e, X e e) -> (forall h, exists r h', forall es, m (es, h) = (r, (es, h'))) -> steps X eq m m.
Proof.
  intros RX B es es' h S. destruct (B h) as (r & h' & Q). rewrite !Q. cbn. repeat split; [|exact S].
  destruct r; constructor; auto.
Qed.

(** ** Reading alike *)
Section Alike.
Variables (W : world) (strict : bool) (loc : option string).
Let E := w_env W.
Record alike (r r' : rd) : Prop := {
  ak_src : exists d d', r_src r = SJson d strict loc /\ r_src r' = SJson d' strict loc;
  ak_pid : r_pid r = r_pid r'; ak_mode : r_mode r = r_mode r'; ak_igd : r_igd r = r_igd r'; ak_igm : r_igm r = r_igm r';
  ak_tags : r_tags r = r_tags r'; ak_form : r_form r = r_form r'; ak_field : r_field r = r_field r'; ak_keys : r_keys r = r_keys r';
  ak_val : rnear (r_val r) (r_val r')
}.
Lemma alike_at r r' k : alike r r' -> alike (r_at W r k) (r_at W r' k).
Proof.
  intros [S A B C D F G H I V]. destruct S as (d & d' & S1 & S2). split; cbn; try congruence.
  - exists d, d'. auto.
  - unfold r_child. rewrite S1, S2. destruct V as [v v' N|e]; [|constructor]. cbn [psource_resolve]. now apply resolve_near.
Qed.
Lemma alike_for r r' f : alike r r' -> alike (r_for r f) (r_for r' f).
Proof. intros [S A B C D F G H I V]. split; cbn; try congruence; assumption. Qed.
Lemma alike_inform r r' id : alike r r' -> alike (r_inform r id) (r_inform r' id).
Proof. intros [S A B C D F G H I V]. split; cbn; try congruence; assumption. Qed.
Lemma alike_collecting r r' m : alike r r' -> alike (r_collecting r m) (r_collecting r' m).
Proof. intros [S A B C D F G H I V]. split; cbn; try congruence; assumption. Qed.

Lemma untied_alike es es' : same_errors es es' -> same_errors (map untied es) (map untied es').
Proof. induction 1 as [|e e' l l' S _ IH]; constructor; [|exact IH]. destruct S; cbn; now constructor. Qed.
Inductive same_kind : ekind -> ekind -> Prop :=
| sk_same k : same_kind k k
| sk_source x x' : same_text x x' -> same_kind (Invalid (VioExn (ESource x))) (Invalid (VioExn (ESource x')))
| sk_form es es' : same_errors es es' -> same_kind (Invalid (VioExn (EForm es))) (Invalid (VioExn (EForm es'))).
Lemma report_alike r r' k k' : alike r r' -> same_kind k k' -> steps same_exn eq (ev_report W r k) (ev_report W r' k').
Proof.
  intros [(d & d' & S1 & S2) A B C D F G H I V] K es es' h S. unfold ev_report. rewrite <- H, <- I, <- A, <- B, S1, S2.
  assert (T : pkeys_str (w_env W) (SJson d' strict loc) (r_keys r) = pkeys_str (w_env W) (SJson d strict loc) (r_keys r)) by reflexivity.
  rewrite T. destruct (r_field r) as [n|e]; [|cbn; repeat split; [do 2 constructor|exact S]].
  destruct (pkeys_str _ _ _) as [t|e]; [|cbn; repeat split; [do 2 constructor|exact S]].
  assert (S' : same_errors (es ++ [MkErr k t n (Some (r_pid r))]) (es' ++ [MkErr k' t n (Some (r_pid r))])).
  { apply Forall2_app; [exact S|]. constructor; [|constructor]. destruct K; now constructor. }
  cbn. repeat split; [|exact S']. destruct (r_mode r); constructor; [reflexivity|]. now constructor.
Qed.
Lemma invalid_alike r r' x x' : alike r r' -> same_kind (Invalid x) (Invalid x') -> steps same_exn eq (ev_invalid W r x) (ev_invalid W r' x').
Proof.
  intros A K. unfold ev_invalid. eapply steps_bind; [now apply report_alike|]. intros _ _ _. now apply steps_ret.
Qed.
Lemma missing_alike r r' : alike r r' -> steps same_exn eq (ev_missing W r) (ev_missing W r').
Proof.
  intros A. unfold ev_missing. rewrite <- (ak_igm _ _ A). eapply steps_bind.
  - destruct (r_igm r); [now apply steps_ret|]. apply (report_alike r r'); [exact A|constructor].
  - intros _ _ _. now apply steps_ret.
Qed.
Lemma on_val_alike {T} (X : exn -> exn -> Prop) (R : T -> T -> Prop) r r' f f' : (forall e, X e e) -> alike r r' ->
  (forall v v', near v v' -> same_res X R (f v) (f' v')) -> steps X R (on_val r f) (on_val r' f').
Proof.
  intros RX A F. unfold on_val. apply steps_lift. destruct (ak_val _ _ A) as [v v' N|e]; [now apply F|]. now constructor.
Qed.
Lemma exists_alike (X : exn -> exn -> Prop) r r' : (forall e, X e e) -> alike r r' -> steps X eq (ev_exists r) (ev_exists r').
Proof.
  intros RX A. apply on_val_alike; [exact RX|exact A|]. intros v v' [a b R|]; [|now constructor]. inversion R; subst; now constructor.
Qed.
Lemma null_alike (X : exn -> exn -> Prop) r r' : (forall e, X e e) -> alike r r' -> steps X eq (ev_null r) (ev_null r').
Proof.
  intros RX A. apply on_val_alike; [exact RX|exact A|]. intros v v' [a b R|]; [|now constructor]. inversion R; subst; now constructor.
Qed.
Lemma sequence_alike (X : exn -> exn -> Prop) r r' : (forall e, X e e) -> alike r r' -> steps X eq (ev_sequence W r) (ev_sequence W r').
Proof.
  intros RX A. destruct (ak_src _ _ A) as (d & d' & S1 & S2). unfold ev_sequence. rewrite S1, S2.
  apply on_val_alike; [exact RX|exact A|]. intros v v' [a b R|]; [|apply sr_exn, RX].
  inversion R as [|x|x|x|x|l l' F|l l' A1 B1]; subst; cbn [psource_sequence]; try (apply sr_exn, RX).
  constructor. now apply len_near.
Qed.

(** ** Hooks *)
Lemma asks_alike r r' op : alike r r' -> asks op -> steps eq eq (ev_pathop W r op) (ev_pathop W r' op).
Proof.
  intros A K. destruct op; try contradiction; cbn [ev_pathop]; eapply steps_bind;
    [now apply exists_alike| |now apply null_alike| |now apply sequence_alike|]; intros b _ <-; now apply steps_ret.
Qed.
Lemma heap_steps {A} (X : exn -> exn -> Prop) (m : Ev A) : (forall e, X e e) -> (forall es es' h, fst (m (es, h)) = fst (m (es', h)) /\ fst (snd (m (es, h))) = es /\
  snd (snd (m (es, h))) = snd (snd (m (es', h)))) -> steps X eq m m.
Proof.
  intros RX H es es' h S. destruct (H es es' h) as (A1 & A2 & A3), (H es' es h) as (_ & B2 & _). rewrite A1, A2, A3, B2. repeat split; [|exact S].
  destruct (fst (m (es', h))); constructor; auto.
Qed.
Lemma ev_unit_run m s : ev_unit m s = (match fst (m s) with Ok _ => Ok VNone | Exn e => Exn e end, snd (m s)).
Proof. unfold ev_unit, ebind. destruct (m s) as [[]]; reflexivity. Qed.
Lemma setattr_alike id a v : steps eq eq (ev_unit (ev_setattr id a v)) (ev_unit (ev_setattr id a v)).
Proof.
  apply heap_steps; [reflexivity|]. intros es es' h. rewrite !ev_unit_run. unfold ev_setattr, ev_type, ev_set, ev_entries, ev_set_entries, ebind, eret. cbn [fst snd].
  destruct (nth_error h id) as [[t l]|] eqn:N; destruct (find_field _ _); cbn [fst snd]; rewrite ?N; repeat split.
Qed.
Lemma delattr_alike id a : steps eq eq (ev_unit (ev_delattr id a)) (ev_unit (ev_delattr id a)).
Proof.
  apply heap_steps; [reflexivity|]. intros es es' h. rewrite !ev_unit_run. unfold ev_delattr, ev_type, ev_del, ev_entries, ev_set_entries, ebind, eret, eraise. cbn [fst snd].
  destruct (nth_error h id) as [[t l]|] eqn:N; destruct (find_field _ _); cbn [fst snd]; try (destruct (dict_has _ _)); cbn [fst snd]; rewrite ?N; repeat split.
Qed.
Lemma item_alike id k : steps eq eq (ev_item id k) (ev_item id k).
Proof.
  apply heap_steps; [reflexivity|]. intros es es' h. unfold ev_item, ev_entries, ebind, eret, eraise. cbn [fst snd].
  destruct (hashable k); [destruct (dict_get _ _)|]; repeat split.
Qed.
Lemma prog_alike r r' : alike r r' -> forall p, orderless_prog p -> steps same_exn eq (ev_prog W r p) (ev_prog W r' p).
Proof.
  intros A. fix IH 1. intros p.
  assert (G : forall (m m' : Ev val) k, (forall x, steps same_exn eq (ev_prog W r (k x)) (ev_prog W r' (k x))) -> steps eq eq m m' ->
    steps same_exn eq (ecatch m (fun x => ev_prog W r (k x))) (ecatch m' (fun x => ev_prog W r' (k x)))).
  { intros m m' k K M. eapply steps_catch; [exact M|]. intros x y [v _ <-|e _ <-]; apply K. }
  assert (H : forall (m m' : Ev val) k, lets_pass k -> (forall x, steps same_exn eq (ev_prog W r (k x)) (ev_prog W r' (k x))) -> steps same_exn eq m m' ->
    steps same_exn eq (ecatch m (fun x => ev_prog W r (k x))) (ecatch m' (fun x => ev_prog W r' (k x)))).
  { intros m m' k L K M. eapply steps_catch; [exact M|]. intros x y [v _ <-|e e' [e1|es es' SS]]; [apply K|apply K|].
    rewrite !L. cbn [ev_prog]. apply steps_raise. now constructor. }
  destruct p; cbn [orderless_prog]; try (intros []; fail); intros K; cbn [ev_prog].
  - now apply steps_ret.
  - apply steps_raise. constructor.
  - apply G; [intros x; apply IH, K|]. rewrite <- (ak_form _ _ A). apply steps_lift. destruct (r_form r); now constructor.
  - apply G; [intros x; apply IH, K|apply setattr_alike].
  - apply G; [intros x; apply IH, K|apply delattr_alike].
  - apply G; [intros x; apply IH, K|apply item_alike].
  - destruct K as [K1 K2]. apply G; [intros x; apply IH, K2|now apply asks_alike].
  - destruct K as [K1 K2]. apply H; [exact K1|intros x; apply IH, K2|]. unfold ev_unit. eapply steps_bind; [apply report_alike; [exact A|constructor]|]. intros _ _ _. now apply steps_ret.
  - destruct K as [K1 K2]. apply H; [exact K1|intros x; apply IH, K2|]. unfold ev_unit. eapply steps_bind; [apply report_alike; [exact A|constructor]|]. intros _ _ _. now apply steps_ret.
Qed.
Lemma hook_alike r r' o h args : alike r r' -> orderless_hook o -> o = Some h -> steps same_exn eq (ev_hook W r h args) (ev_hook W r' h args).
Proof.
  intros A O Q. unfold ev_hook. rewrite <- (ak_form _ _ A). eapply steps_bind with (R := eq).
  - destruct (hk_attached h); [now apply steps_ret|]. apply steps_lift. destruct (r_form r); constructor; [reflexivity|constructor].
  - intros t _ <-. apply prog_alike; [exact A|]. exact (O h Q t args).
Qed.
Lemma hook_or_alike {T} r r' o args (d : T) g : alike r r' -> orderless_hook o -> steps same_exn eq (ev_hook_or W r o args d g) (ev_hook_or W r' o args d g).
Proof.
  intros A O. destruct o as [h|] eqn:Q; cbn [ev_hook_or]; [|now apply steps_ret].
  eapply steps_bind; [eapply hook_alike; [exact A|exact O|reflexivity]|]. intros v _ <-. now apply steps_ret.
Qed.
Lemma default_alike r r' f : alike r r' -> orderless_opts (f_opts f) -> steps same_exn eq (ev_default W r f) (ev_default W r' f).
Proof.
  intros A H. unfold ev_default. rewrite <- (ak_igd _ _ A). destruct (r_igd r); [now apply missing_alike|].
  pose proof (oo_default _ H) as D. destruct (o_default (f_opts f)) as [[h|]|v|p].
  - eapply hook_alike; [exact A|exact D|reflexivity].
  - now apply missing_alike.
  - destruct v as [| | | | | | | | | | | | | |[]| | | | |]; try (now apply steps_ret). now apply missing_alike.
  - now apply prog_alike.
Qed.
Lemma validate_alike r r' f v : alike r r' -> steps same_exn eq (ev_validate W r f v) (ev_validate W r' f v).
Proof.
  intros A es es' h S. unfold ev_validate. cbn [snd].
  destruct (field_violation (w_env W) (hents h) f v) as [[x|]|e].
  - refine (steps_bind same_exn eq eq _ _ (fun _ => eret false) (fun _ => eret false) (report_alike r r' (Invalid x) (Invalid x) A (sk_same _)) _ es es' h S).
    intros _ _ _. now apply steps_ret.
  - cbn. repeat split; [now constructor|exact S].
  - cbn. repeat split; [do 2 constructor|exact S].
Qed.
Lemma after_alike r r' f v : alike r r' -> orderless_opts (f_opts f) -> steps same_exn eq (ev_after W r f v) (ev_after W r' f v).
Proof.
  intros A H. unfold ev_after. 
  eapply steps_bind with (R := eq).
  { unfold ev_translate. destruct (o_translations (f_opts f)); [now apply steps_ret|]. destruct (hashable v); [now apply steps_ret|apply steps_raise; constructor]. }
  intros w _ <-. eapply steps_bind with (R := eq); [destruct (ignored w); [now apply steps_ret|apply hook_or_alike; [exact A|exact (oo_munge _ H)]]|]. intros x _ <-.
  destruct (is_NONE x); [now apply default_alike|]. destruct (ignored x); [now apply steps_ret|].
  destruct (negb (field_filter f x)); [now apply default_alike|].
  eapply steps_bind with (R := eq); [apply hook_or_alike; [exact A|exact (oo_filter _ H)]|]. intros b _ <-. destruct b; cbn [negb]; [|now apply default_alike].
  eapply steps_bind with (R := eq); [now apply validate_alike|]. intros b _ <-. destruct b; cbn [negb]; [|now apply steps_ret].
  eapply steps_bind with (R := eq); [apply hook_or_alike; [exact A|exact (oo_validate _ H)]|]. intros b _ <-. now apply steps_ret.
Qed.

(** ** Parsing *)
Lemma near_refl e : near_exn e e.
Proof. do 2 constructor. Qed.
Lemma parse_same v t : t <> TyAuto -> forall d d', 
  same_res near_exn eq (psource_parse (w_env W) (SJson d strict loc) t v) (psource_parse (w_env W) (SJson d' strict loc) t v).
Proof. intros _ d d'. cbn [psource_parse]. destruct (json_parse _ _ _ _); constructor; [reflexivity|apply near_refl]. Qed.
Lemma primitive_alike r r' t : alike r r' -> t <> TyAuto -> (t = TyStr -> strict = true) ->
  steps near_exn eq (ev_primitive W r t) (ev_primitive W r' t).
Proof.
  intros A NA ST. destruct (ak_src _ _ A) as (d & d' & S1 & S2). unfold ev_primitive. rewrite S1, S2.
  apply on_val_alike; [exact near_refl|exact A|]. intros v v' [a b R|]; [|now apply parse_same].
  inversion R; subst; try (now apply parse_same); cbn [psource_parse]; destruct t; try congruence; cbn [json_parse];
    try (unfold json_as_string; rewrite (ST eq_refl)); apply sr_exn, nx_source; (apply st_same || now constructor).
Qed.
Lemma auto_alike r r' : alike r r' -> steps near_exn near (ev_primitive W r TyAuto) (ev_primitive W r' TyAuto).
Proof.
  intros A. destruct (ak_src _ _ A) as (d & d' & S1 & S2). unfold ev_primitive. rewrite S1, S2.
  apply on_val_alike; [exact near_refl|exact A|]. intros v v' N. cbn. now constructor.
Qed.
Lemma value_alike r r' : alike r r' -> steps near_exn near (ev_value r) (ev_value r').
Proof. intros A. apply on_val_alike; [exact near_refl|exact A|]. intros v v' N. now constructor. Qed.
Lemma mapping_alike r r' : alike r r' -> steps same_exn (fun _ _ => True) (ev_mapping W r) (ev_mapping W r').
Proof.
  intros A. destruct (ak_src _ _ A) as (d & d' & S1 & S2). unfold ev_mapping. rewrite S1, S2, <- (ak_keys _ _ A).
  apply on_val_alike; [constructor|exact A|]. intros v v' [a b R|]; [|apply sr_exn; constructor].
  inversion R as [|x|x|x|x|l l' F|l l' A1 B1]; subst; cbn [psource_mapping keys_view]; try (apply sr_exn; constructor).
  now constructor.
Qed.
Lemma need_alike v : steps near_exn eq (ev_need_str v) (ev_need_str v).
Proof. destruct v; try (apply steps_raise, near_refl); now apply steps_ret. Qed.
Lemma invalid_near r r' x : alike r r' -> steps near_exn eq (ev_invalid W r x) (ev_invalid W r' x).
Proof. intros A. apply steps_weaken, invalid_alike; [exact A|constructor]. Qed.

Section Text.
Hypothesis ST : strict = true.
Lemma text_alike {B} r r' (k k' : val -> Ev B) (R : B -> B -> Prop) : alike r r' -> (forall v, steps near_exn R (k v) (k' v)) ->
  steps near_exn R (ebind (ev_primitive W r TyStr) k) (ebind (ev_primitive W r' TyStr) k').
Proof.
  intros A K. eapply steps_bind; [apply (primitive_alike r r' TyStr A); [discriminate|intros _; exact ST]|]. intros v _ <-. apply K.
Qed.
Ltac both N := destruct N as [? ? R|]; [inversion R; subst|].
Lemma decimal_alike r r' : alike r r' -> steps near_exn eq (ev_decimal W r) (ev_decimal W r').
Proof.
  intros A. unfold ev_decimal. eapply steps_bind; [now apply value_alike|]. intros v v' N.
  assert (K : steps near_exn eq
    (ebind (ev_primitive W r TyStr) (fun w => match w with VStr s => match e_dec (w_env W) s with Some d => eret (VDec d) | None => eraise EDecimal end
      | VDec _ => eret w | _ => match dec_of_number w with Some d => eret (VDec d) | None => eraise (EType "Cannot convert to Decimal") end end))
    (ebind (ev_primitive W r' TyStr) (fun w => match w with VStr s => match e_dec (w_env W) s with Some d => eret (VDec d) | None => eraise EDecimal end
      | VDec _ => eret w | _ => match dec_of_number w with Some d => eret (VDec d) | None => eraise (EType "Cannot convert to Decimal") end end))).
  { apply text_alike; [exact A|]. intros w.
    destruct w; try (destruct (dec_of_number _); [now apply steps_ret|apply steps_raise, near_refl]); try (now apply steps_ret).
    destruct (e_dec _ _); [now apply steps_ret|apply steps_raise, near_refl]. }
  both N; try exact K; try (destruct (dec_of_number _); [now apply steps_ret|exact K]).
Qed.
Lemma date_alike r r' fmts : alike r r' -> steps near_exn eq (ev_date W r fmts) (ev_date W r' fmts).
Proof.
  intros A. unfold ev_date. eapply steps_bind; [now apply value_alike|]. intros v v' N.
  both N; (apply text_alike; [exact A|]; intros w; destruct fmts; [now apply invalid_near|]; eapply steps_bind; [apply need_alike|]; intros tx _ <-; now apply steps_ret).
Qed.
Lemma time_alike r r' fmt : alike r r' -> steps near_exn eq (ev_time W r fmt) (ev_time W r' fmt).
Proof.
  intros A. unfold ev_time. eapply steps_bind; [now apply value_alike|]. intros v v' N.
  both N; (apply text_alike; [exact A|]; intros w; destruct fmt; [|now apply invalid_near]; eapply steps_bind; [apply need_alike|]; intros tx _ <-;
    destruct (e_strptime_time _ _ _); [now apply steps_ret|apply steps_raise, near_refl]).
Qed.
Lemma datetime_alike r r' fmt : alike r r' -> steps near_exn eq (ev_datetime W r fmt) (ev_datetime W r' fmt).
Proof.
  intros A. unfold ev_datetime. eapply steps_bind; [now apply value_alike|]. intros v v' N.
  both N; (apply text_alike; [exact A|]; intros w; destruct fmt as [fm|]; [|now apply invalid_near]; eapply steps_bind; [apply need_alike|]; intros tx _ <-;
    destruct (String.eqb fm "iso8601");
    [destruct (e_iso _ _); [now apply steps_ret|now apply invalid_near]|destruct (e_strp _ _ _); [now apply steps_ret|apply steps_raise, near_refl]]).
Qed.
Lemma uuid_alike r r' : alike r r' -> steps near_exn eq (ev_uuid W r) (ev_uuid W r').
Proof.
  intros A. unfold ev_uuid. eapply steps_bind; [now apply auto_alike|]. intros v v' N.
  both N; (apply text_alike; [exact A|]; intros w; destruct w; try (apply steps_raise, near_refl); destruct (e_uuid _ _); [now apply steps_ret|apply steps_raise, near_refl]).
Qed.
End Text.

(** ** Containers and forms *)
Section Rec.
Variables (rec : rd -> field -> val -> Ev val).
Hypothesis REC : forall r r' f, alike r r' -> orderless strict f -> steps same_exn eq (rec r f NONEv) (rec r' f NONEv).

Lemma list_alike r r' f : alike r r' -> orderless strict f -> forall n i acc,
  steps same_exn eq (ev_list W rec r i n f acc) (ev_list W rec r' i n f acc).
Proof.
  intros A O. induction n as [|n IH]; intros i acc; cbn [ev_list]; [now apply steps_ret|].
  eapply steps_bind; [apply REC; [now apply alike_at|exact O]|]. intros v _ <-. apply IH.
Qed.
Lemma tuple_alike r r' : alike r r' -> forall fs i acc, (forall f, In f fs -> orderless strict f) ->
  steps same_exn eq (ev_tuple W rec r i fs acc) (ev_tuple W rec r' i fs acc).
Proof.
  intros A. induction fs as [|f fs IH]; intros i acc O; cbn [ev_tuple]; [now apply steps_ret|].
  eapply steps_bind; [apply REC; [now apply alike_at|apply O; now left]|]. intros v _ <-. apply IH. intros g I. apply O. now right.
Qed.
Lemma set_steps id k v : steps same_exn eq (ev_set id k v) (ev_set id k v).
Proof.
  apply steps_same; [constructor|]. intros h. unfold ev_set, ev_entries, ev_set_entries, ebind. cbn [fst snd].
  destruct (nth_error h id) as [[t l]|]; do 2 eexists; intros es; reflexivity.
Qed.
Lemma fields_alike r r' id tags : alike r r' -> forall fs, (forall f, In f fs -> orderless strict f) ->
  steps same_exn eq (ev_fields rec r id tags fs) (ev_fields rec r' id tags fs).
Proof.
  intros A. induction fs as [|f fs IH]; intros O; cbn [ev_fields]; [now apply steps_ret|].
  eapply steps_bind with (R := eq).
  - destruct (selected tags f); [|now apply steps_ret]. eapply steps_bind; [apply REC; [exact A|apply O; now left]|].
    intros v _ <-. destruct (ignored v); [now apply steps_ret|apply set_steps].
  - intros _ _ _. apply IH. intros g I. apply O. now right.
Qed.
(** The form is of the type [t] when its fields are mapped. *)
Definition form_is (t : formty) (id : nat) (h : heap) : Prop := exists l, nth_error h id = Some (t, l).
Definition rest (r : rd) (id : nat) (tags : list string) (u : unm) (t : formty) : Ev unit :=
  ebind (ev_fields rec (r_inform r id) id tags (ft_fields t)) (fun _ => ebind (ev_unmapped rec r id u) (fun o =>
    match o with None => eret tt | Some VNone => eret tt | Some (VDict d) => ebind (ev_entries id) (fun l => ev_set_entries id (dict_update l d)) | Some _ => eraise (EType "not iterable") end)).
Lemma form_run r id tags u t es h : form_is t id h -> ev_form_map W rec r id tags u (es, h) =
  match ev_mapping W r (es, h) with (Ok _, _) => rest r id tags u t (es, h) | (Exn e, s) => (Exn e, s) end.
Proof.
  intros (l & T). unfold ev_form_map. unfold ebind at 1. unfold ev_mapping, on_val, elift.
  destruct (match r_val r with Ok v => _ | Exn e => Exn e end); [|reflexivity]. unfold ebind at 1, ev_type at 1. cbn [snd]. rewrite T. reflexivity.
Qed.
Lemma rest_alike r r' id tags u t : alike r r' -> u = UIgnore \/ u = UFalsy -> (forall f, In f (ft_fields t) -> orderless strict f) ->
  steps same_exn eq (rest r id tags u t) (rest r' id tags u t).
Proof.
  intros A U O. unfold rest. eapply steps_bind; [apply fields_alike; [now apply alike_inform|exact O]|]. intros _ _ _.
  destruct U as [-> | ->]; cbn [ev_unmapped]; (eapply steps_bind with (R := fun a b => a = None /\ b = None); [now apply steps_ret|]; intros ? ? [-> ->]; now apply steps_ret).
Qed.
Lemma form_alike r r' id tags u t es es' h : alike r r' -> u = UIgnore \/ u = UFalsy -> form_is t id h ->
  (forall f, In f (ft_fields t) -> orderless strict f) -> same_errors es es' ->
  let x := ev_form_map W rec r id tags u (es, h) in let y := ev_form_map W rec r' id tags u (es', h) in
  same_res same_exn eq (fst x) (fst y) /\ same_errors (fst (snd x)) (fst (snd y)) /\ snd (snd x) = snd (snd y).
Proof.
  intros A U T O S. cbv zeta. rewrite !(form_run _ _ _ _ t _ _ T).
  destruct (mapping_alike r r' A es es' h S) as (M1 & M2 & M3).
  destruct (ev_mapping W r (es, h)) as [v1 [e1 h1]], (ev_mapping W r' (es', h)) as [v2 [e2 h2]]. cbn in M1, M2, M3.
  destruct M1 as [a b _|e f XE]; [exact (rest_alike r r' id tags u t A U O es es' h S)|]. cbn. repeat split; [now constructor|exact M2|exact M3].
Qed.
Lemma reset_keeps id tags t : forall fs h, form_is t id h -> exists h', (forall es, ev_reset id tags fs (es, h) = (Ok tt, (es, h'))) /\ form_is t id h'.
Proof.
  induction fs as [|f fs IH]; intros h F; cbn [ev_reset]; [exists h; now split|]. unfold ebind at 1.
  destruct (selected tags f); [|exact (IH h F)]. unfold ev_del, ev_entries, ev_set_entries, ebind, eret. cbn [fst snd].
  destruct (dict_has _ _); [|exact (IH h F)]. destruct F as (l & T). cbn [fst snd]. rewrite T. cbv iota beta. apply IH.
  eexists. apply nth_replace_eq. apply nth_error_Some. congruence.
Qed.
Lemma sub_alike r r' t rs u : alike r r' -> u = UIgnore \/ u = UFalsy -> (forall f, In f (ft_fields t) -> orderless strict f) ->
  steps same_exn eq (ev_form W rec r t rs u) (ev_form W rec r' t rs u).
Proof.
  intros A U O es es' h S. unfold ev_form. rewrite <- (ak_tags _ _ A). unfold ebind, ev_new. cbn [fst snd].
  set (id := length h). assert (F : form_is t id (h ++ [(t, [])])).
  { exists []. unfold id. rewrite nth_error_app2 by lia. now rewrite Nat.sub_diag. }
  assert (R : exists h1, form_is t id h1 /\ forall e, (if rs then ev_reset id (r_tags r) (ft_fields t) else eret tt) (e, h ++ [(t, [])]) = (Ok tt, (e, h1))).
  { destruct rs; [|exists (h ++ [(t, [])]); split; [exact F|reflexivity]].
    destruct (reset_keeps id (r_tags r) t (ft_fields t) _ F) as (h1 & Q & F1). exists h1. now split. }
  destruct R as (h1 & F1 & R). rewrite !R. cbn [fst snd].
  destruct (form_alike (r_collecting r Collect) (r_collecting r' Collect) id (r_tags r) u t [] [] h1 (alike_collecting _ _ _ A) U F1 O (same_refl [])) as (M1 & M2 & M3).
  unfold ev_sub. destruct (ev_form_map W rec (r_collecting r Collect) id (r_tags r) u ([], h1)) as [v1 [e1 h2]], (ev_form_map W rec (r_collecting r' Collect) id (r_tags r) u ([], h1)) as [v2 [e2 h3]].
  cbn in M1, M2, M3. subst h3. destruct M1 as [a b _|e f XE].
  - cbn. repeat split; [|now apply Forall2_app]. constructor. destruct M2; reflexivity.
  - cbn. repeat split; [now constructor|exact S].
Qed.
Lemma parse_alike r r' k : alike r r' -> orderless_kind strict k -> steps near_exn eq (ev_parse W rec r k) (ev_parse W rec r' k).
Proof.
  intros A K. destruct K as [lo hi|lo hi| |c ST|lo hi ST|fmts lo hi ST|fmt lo hi ST|fmt lo hi ST|ST|f lo hi a O|fs O|t rs u U O]; cbn [ev_parse].
  - apply primitive_alike; [exact A|discriminate|discriminate].
  - apply primitive_alike; [exact A|discriminate|discriminate].
  - apply primitive_alike; [exact A|discriminate|discriminate].
  - apply primitive_alike; [exact A|discriminate|intros _; exact ST].
  - now apply decimal_alike.
  - now apply date_alike.
  - now apply time_alike.
  - now apply datetime_alike.
  - now apply uuid_alike.
  - eapply steps_catch; [apply sequence_alike; [exact near_refl|exact A]|]. intros x y [n _ <-|e e' XE].
    + eapply steps_bind; [apply steps_weaken, list_alike; [exact A|exact O]|]. intros l _ <-. now apply steps_ret.
    + assert (Q : (exists a1 b1, same_text a1 b1 /\ e = ESource a1 /\ e' = ESource b1) \/ (same_exn e e' /\ (forall a1, e <> ESource a1) /\ (forall a1, e' <> ESource a1))).
      { destruct XE as [e1 e2 SE|a1 b1]; [|left; eauto]. destruct SE as [e1|es es' SS]; [|right; repeat split; try discriminate; now constructor].
        destruct e1; try (right; repeat split; try discriminate; constructor). left; do 2 eexists; split; [apply st_same|split; reflexivity]. }
      destruct Q as [(a1 & b1 & XT & -> & ->)|(SE & N1 & N2)].
      * destruct a; [|now apply steps_raise, nx_source]. eapply steps_bind; [apply steps_weaken, REC; [exact A|exact O]|]. intros v _ <-. now apply steps_ret.
      * destruct e; try (exfalso; eapply N1; reflexivity); destruct e'; try (exfalso; eapply N2; reflexivity); apply steps_raise; now constructor.
  - eapply steps_bind; [apply sequence_alike; [exact near_refl|exact A]|]. intros n _ <-. destruct (Nat.eqb n (length fs)); [|now apply invalid_near].
    eapply steps_bind; [apply steps_weaken, tuple_alike; [exact A|exact O]|]. intros l _ <-. now apply steps_ret.
  - apply steps_weaken. now apply sub_alike.
Qed.
Lemma compute_alike r r' f : alike r r' -> orderless_opts (f_opts f) -> orderless_kind strict (f_kind f) -> steps same_exn eq (ev_compute W rec r f) (ev_compute W rec r' f).
Proof.
  intros A H K. unfold ev_compute. eapply steps_bind; [apply exists_alike; [constructor|exact A]|]. intros b _ <-. destruct b; cbn [negb]; [|now apply steps_ret].
  eapply steps_bind; [apply null_alike; [constructor|exact A]|]. intros b _ <-. destruct b; [now apply steps_ret|].
  eapply steps_catch with (X := near_exn) (R := eq).
  { pose proof (oo_parse _ H) as P. destruct (o_parse (f_opts f)) as [h|]; [|apply parse_alike; [exact A|exact K]].
    apply steps_weaken. eapply hook_alike; [exact A|exact P|reflexivity]. }
  intros x y [v _ <-|e e' XE]; [now apply steps_ret|].
  destruct XE as [e1 e2 SE|a1 b1]; [|cbn [caught_by_compute]; apply invalid_alike; [exact A|now apply sk_source]].
  destruct SE as [e1|es es' SS]; [|cbn [caught_by_compute]; apply invalid_alike; [exact A|apply sk_form; now apply untied_alike]].
  destruct (caught_by_compute e1); [apply invalid_alike; [exact A|constructor]|apply steps_raise; constructor].
Qed.
Lemma parent_alike v : steps same_exn eq (ev_parent v) (ev_parent v).
Proof.
  destruct v; try (apply steps_raise; constructor); [|now apply steps_ret]. cbn [ev_parent]. apply heap_steps; [constructor|]. intros es es' h.
  unfold ev_setattr, ev_type, ev_set, ev_entries, ev_set_entries, ebind, eret. cbn [fst snd].
  destruct (nth_error h _) as [[t l]|] eqn:N; destruct (find_field _ _); cbn [fst snd]; rewrite ?N; repeat split.
Qed.
Lemma field_alike r r' f : alike r r' -> orderless strict f -> steps same_exn eq (ev_field_body W rec r f NONEv) (ev_field_body W rec r' f NONEv).
Proof.
  intros A [f0 H K]. unfold ev_field_body. change (is_NONE NONEv) with true. cbv iota zeta. unfold ev_where. rewrite (oo_resolve _ H).
  eapply steps_bind with (R := eq); [now apply steps_ret|]. intros k _ <-.
  set (r1 := match k with Some k => r_at W (r_for r f0) k | None => r_for r f0 end).
  set (r2 := match k with Some k => r_at W (r_for r' f0) k | None => r_for r' f0 end).
  assert (B : alike r1 r2) by (unfold r1, r2; destruct k; [apply alike_at|]; now apply alike_for).
  eapply steps_bind with (R := eq).
  - unfold ev_body. change (is_NONE NONEv) with true. cbv iota.
    eapply steps_bind with (R := eq).
    { pose proof (oo_compute _ H) as C. destruct (o_compute (f_opts f0)) as [h|]; [|now apply compute_alike]. eapply hook_alike; [exact B|exact C|reflexivity]. }
    intros v _ <-. destruct (is_NONE v).
    + pose proof (oo_default _ H) as D. destruct (o_default (f_opts f0)) as [[h|]| |] eqn:Q; try (now apply default_alike).
      eapply hook_alike; [exact B|exact D|reflexivity].
    + destruct (ignored v); [now apply steps_ret|now apply after_alike].
  - intros v _ <-. eapply steps_bind with (R := eq); [|intros _ _ _; now apply steps_ret].
    destruct (_ && _)%bool; [|now apply steps_ret]. apply parent_alike.
Qed.
End Rec.
Lemma ev_field_alike : forall fuel r r' f, alike r r' -> orderless strict f -> steps same_exn eq (ev_field W fuel r f NONEv) (ev_field W fuel r' f NONEv).
Proof.
  induction fuel as [|n IH]; intros r r' f A O; cbn [ev_field]; [apply steps_raise; constructor|]. apply field_alike; [exact IH|exact A|exact O].
Qed.
End Alike.

Lemma map_run W fuel o src root id tags (rs : bool) u m (h : heap) t l h1 : nth_error h id = Some (t, l) ->
  (if rs then ev_reset id match tags with [] => ou_tags o | _ => tags end (ft_fields t) else eret tt) ([], h) = (Ok tt, ([], h1)) ->
  ev_map W fuel o src root id tags rs u m h =
  match ev_form_map W (ev_field W fuel) (r_start o src m root) id match tags with [] => ou_tags o | _ => tags end u ([], h1) with
  | (Exn e, (_, h2)) => (Exn e, h2)
  | (Ok _, (es, h2)) => (match m, es with Raise, _ :: _ => Exn (EForm es) | _, _ => Ok es end, h2)
  end.
Proof. intros T Q. unfold ev_map. rewrite T. destruct rs; cbv iota beta zeta in Q |- *; [now rewrite Q|]. unfold eret in Q |- *. now inversion Q. Qed.
Lemma map_alike W strict loc fuel o d d' id tags rs u m h t l : reordered d d' -> nth_error h id = Some (t, l) ->
  u = UIgnore \/ u = UFalsy -> (forall f, In f (ft_fields t) -> orderless strict f) ->
  let x := ev_map W fuel o (SJson d strict loc) d id tags rs u m h in let y := ev_map W fuel o (SJson d' strict loc) d' id tags rs u m h in
  same_outcome (fst x) (fst y) /\ snd x = snd y.
Proof.
  intros R T U O. cbv zeta. set (tg := match tags with [] => ou_tags o | _ => tags end).
  assert (F : form_is t id h) by now exists l.
  assert (Q : exists h1, form_is t id h1 /\ (if rs then ev_reset id tg (ft_fields t) else eret tt) ([], h) = (Ok tt, ([], h1))).
  { destruct rs; [|exists h; now split]. destruct (reset_keeps id tg t (ft_fields t) h F) as (h1 & Q & F1). exists h1. now split. }
  destruct Q as (h1 & F1 & Q).
  rewrite (map_run W fuel o (SJson d strict loc) d id tags rs u m h t l h1 T Q), (map_run W fuel o (SJson d' strict loc) d' id tags rs u m h t l h1 T Q). fold tg.
  assert (A : alike strict loc (r_start o (SJson d strict loc) m d) (r_start o (SJson d' strict loc) m d')).
  { split; try reflexivity; cbn; [eauto|]. now do 2 constructor. }
  destruct (form_alike W strict loc (ev_field W fuel) (ev_field_alike W strict loc fuel) _ _ id tg u t [] [] h1 A U F1 O (same_refl [])) as (M1 & M2 & M3).
  destruct (ev_form_map W (ev_field W fuel) (r_start o (SJson d strict loc) m d) id tg u ([], h1)) as [v1 [e1 h2]],
           (ev_form_map W (ev_field W fuel) (r_start o (SJson d' strict loc) m d') id tg u ([], h1)) as [v2 [e2 h3]].
  cbn in M1, M2, M3. subst h3. destruct M1 as [a b _|e f XE].
  - cbn [fst snd]. split; [|reflexivity]. destruct m; [now constructor|]. destruct M2; constructor; [constructor|now constructor].
  - cbn [fst snd]. split; [|reflexivity]. destruct XE; now constructor.
Qed.
Lemma prog_direct : forall p, orderless_prog p -> direct_prog p.
Proof. fix IH 1. intros p. destruct p; cbn; try (intros []; fail); try (intros _; exact I); try (intros K x; apply IH, K); intros [_ K] x; apply IH, K. Qed.
Lemma hook_direct o : orderless_hook o -> direct_ohook o.
Proof. intros H h Q t args. apply prog_direct. exact (H h Q t args). Qed.
Scheme ol_ind2 := Minimality for orderless Sort Prop with olk_ind2 := Minimality for orderless_kind Sort Prop.
Lemma orderless_direct strict f : orderless strict f -> direct f.
Proof.
  apply (ol_ind2 strict direct direct_kind); try (intros; now constructor).
  - intros [o k] H _ K. constructor; [|exact K]. destruct H as [H1 H2 H3 H4 H5 H6 H7 H8]. cbn in *.
    split; try assumption; try (apply hook_direct; assumption). destruct (o_default o) as [h|v|p]; [now apply hook_direct|exact I|now apply prog_direct].
  - intros [n fs] rs u U _ D. constructor; [now constructor|destruct U as [-> | ->]; constructor].
Qed.
Lemma C105_lem W fuel items items' strict loc id t l tags rs u m s :
  json_val (VDict items) = true -> json_val (VDict items') = true -> reordered (VDict items) (VDict items') ->
  nth_error (forms s) id = Some (t, l) -> (forall f, In f (ft_fields t) -> orderless strict f) -> ignoring u -> mapping_context s ->
  let x := Form_map W fuel id (ASrc (SBase (BPlain (SJson (VDict items) strict loc)))) tags rs u m s in
  let y := Form_map W fuel id (ASrc (SBase (BPlain (SJson (VDict items') strict loc)))) tags rs u m s in
  same_outcome (fst x) (fst y) /\ forms (snd x) = forms (snd y).
Proof.
  intros J J' R NT O U C. cbv zeta.
  assert (D : direct_form t) by (destruct t; constructor; intros f I; eapply orderless_direct; now apply O).
  assert (Du : direct_unm u) by (destruct U as [-> | ->]; constructor).
  pose proof (C30_json_lem W fuel _ strict loc id t l tags rs u m s J NT D Du C) as [X _].
  pose proof (C30_json_lem W fuel _ strict loc id t l tags rs u m s J' NT D Du C) as [Y _]. cbv zeta in X, Y.
  assert (U' : u = UIgnore \/ u = UFalsy) by (destruct U; auto).
  pose proof (map_alike W strict loc fuel (outer_of s) _ _ id tags rs u m (forms s) t l R NT U' O) as [A B].
  rewrite <- X, <- Y in A, B. cbn in A, B. auto.
Qed.
