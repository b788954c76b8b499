(** * ReadProofs: the evaluator sees the data only where fields read (C46). *)
From Verif Require Import PyBase PyStr Source Field Context Fields SpecSrc SrcPath SrcProofs Shape Balance Eval Refine Regime SpecForm SpecJson CrashProofs ModeProofs FormProofs.
From Coq Require Import Lia.

Definition eqv {A} (x y : Ev A) : Prop := forall s, x s = y s.
Lemma eqv_refl {A} (x : Ev A) : eqv x x. Proof. now intros s. Qed.
Lemma eqv_bind {A B} (x y : Ev A) (k k' : A -> Ev B) : eqv x y -> (forall a, eqv (k a) (k' a)) -> eqv (ebind x k) (ebind y k').
Proof. intros X K s. unfold ebind. rewrite X. destruct (y s) as [[a|e] s1]; [apply K|reflexivity]. Qed.
Lemma eqv_catch {A B} (x y : Ev A) (k k' : res A -> Ev B) : eqv x y -> (forall a, eqv (k a) (k' a)) -> eqv (ecatch x k) (ecatch y k').
Proof. intros X K s. unfold ecatch. rewrite X. destruct (y s) as [a s1]. apply K. Qed.

Lemma ebind_ok {A B} (x : Ev A) (k : A -> Ev B) s a s' : x s = (Ok a, s') -> ebind x k s = k a s'.
Proof. intros H. unfold ebind. now rewrite H. Qed.

(** Sources that differ only in their data. *)
Record alike (E : env) (src src' : psource) : Prop := {
  al_resolve : forall ents ks c k, psource_resolve E ents src ks c k = psource_resolve E ents src' ks c k;
  al_parse : forall t v, psource_parse E src t v = psource_parse E src' t v;
  al_sequence : forall v, psource_sequence E src v = psource_sequence E src' v;
  al_mapping : forall ents d v, psource_mapping E ents src d v = psource_mapping E ents src' d v;
  al_str : forall ks, pkeys_str E src ks = pkeys_str E src' ks
}.
Section Reads.
Variable W : world.
Let E := w_env W.
(** The same place of two sources, except for the value; and with the same value *)
Record near (r r' : rd) : Prop := {
  nr_src : alike E (r_src r) (r_src r');
  nr_pid : r_pid r = r_pid r';
  nr_mode : r_mode r = r_mode r';
  nr_igd : r_igd r = r_igd r';
  nr_igm : r_igm r = r_igm r';
  nr_tags : r_tags r = r_tags r';
  nr_form : r_form r = r_form r';
  nr_field : r_field r = r_field r';
  nr_keys : r_keys r = r_keys r'
}.
Definition same_at (r r' : rd) : Prop := near r r' /\ r_val r = r_val r'.
Lemma near_at r r' k : near r r' -> near (r_at W r k) (r_at W r' k).
Proof. intros []. split; cbn; auto. congruence. Qed.
Lemma near_for r r' f : near r r' -> near (r_for r f) (r_for r' f).
Proof. intros []. split; cbn; auto. Qed.
Lemma near_inform r r' i : near r r' -> near (r_inform r i) (r_inform r' i).
Proof. intros []. split; cbn; auto. Qed.
Lemma near_collecting r r' m : near r r' -> near (r_collecting r m) (r_collecting r' m).
Proof. intros []. split; cbn; auto. Qed.
Lemma same_at_at r r' k : same_at r r' -> same_at (r_at W r k) (r_at W r' k).
Proof.
  intros [N V]. split; [now apply near_at|]. cbn [r_at r_val]. unfold r_child. rewrite <- V. destruct (r_val r); [|reflexivity].
  apply (al_resolve _ _ _ (nr_src _ _ N)).
Qed.
Lemma same_for r r' f : same_at r r' -> same_at (r_for r f) (r_for r' f).
Proof. intros [N V]. split; [now apply near_for|exact V]. Qed.
Lemma same_inform r r' i : same_at r r' -> same_at (r_inform r i) (r_inform r' i).
Proof. intros [N V]. split; [now apply near_inform|exact V]. Qed.
Lemma same_collecting r r' m : same_at r r' -> same_at (r_collecting r m) (r_collecting r' m).
Proof. intros [N V]. split; [now apply near_collecting|exact V]. Qed.

Lemma eqv_on {A} r r' (g g' : val -> res A) : r_val r = r_val r' -> (forall v, g v = g' v) -> eqv (on_val r g) (on_val r' g').
Proof. intros V G s. unfold on_val, elift. rewrite V. destruct (r_val r'); now rewrite ?G. Qed.
Lemma eqv_primitive r r' t : same_at r r' -> eqv (ev_primitive W r t) (ev_primitive W r' t).
Proof. intros [N V]. apply eqv_on; [exact V|]. apply (al_parse _ _ _ (nr_src _ _ N)). Qed.
Lemma eqv_sequence r r' : same_at r r' -> eqv (ev_sequence W r) (ev_sequence W r').
Proof. intros [N V]. apply eqv_on; [exact V|]. apply (al_sequence _ _ _ (nr_src _ _ N)). Qed.
Lemma eqv_mapping r r' : same_at r r' -> eqv (ev_mapping W r) (ev_mapping W r').
Proof. intros [N V]. apply eqv_on; [exact V|]. intros v. rewrite (nr_keys _ _ N). apply (al_mapping _ _ _ (nr_src _ _ N)). Qed.
Lemma eqv_report r r' kd : near r r' -> eqv (ev_report W r kd) (ev_report W r' kd).
Proof.
  intros N [es h]. unfold ev_report. pose proof (al_str _ _ _ (nr_src _ _ N)) as A. unfold E in A.
  now rewrite (nr_field _ _ N), A, (nr_keys _ _ N), (nr_pid _ _ N), (nr_mode _ _ N).
Qed.
Lemma eqv_invalid r r' x : near r r' -> eqv (ev_invalid W r x) (ev_invalid W r' x).
Proof. intros N. apply eqv_bind; [now apply eqv_report|intros; apply eqv_refl]. Qed.
Lemma eqv_missing r r' : near r r' -> eqv (ev_missing W r) (ev_missing W r').
Proof. intros N. unfold ev_missing. rewrite (nr_igm _ _ N). apply eqv_bind; [|intros; apply eqv_refl]. destruct (r_igm r'); [apply eqv_refl|now apply eqv_report]. Qed.
Lemma eqv_prog r r' p : same_at r r' -> eqv (ev_prog W r p) (ev_prog W r' p).
Proof.
  intros S. induction p; cbn [ev_prog]; try apply eqv_refl; apply eqv_catch; auto; try apply eqv_refl.
  - rewrite (nr_form _ _ (proj1 S)). apply eqv_refl.
  - destruct op; cbn [ev_pathop]; try (apply eqv_bind; [|intros; apply eqv_refl]).
    + apply eqv_on; [apply S|reflexivity].
    + apply eqv_on; [apply S|reflexivity].
    + apply eqv_on; [apply S|reflexivity].
    + now apply eqv_primitive.
    + now apply eqv_sequence.
    + now apply eqv_mapping.
  - apply eqv_bind; [apply eqv_report, S|intros; apply eqv_refl].
  - apply eqv_bind; [apply eqv_report, S|intros; apply eqv_refl].
Qed.
Lemma eqv_hook r r' h args : same_at r r' -> eqv (ev_hook W r h args) (ev_hook W r' h args).
Proof. intros S. unfold ev_hook. rewrite (nr_form _ _ (proj1 S)). apply eqv_bind; [apply eqv_refl|]. intros t. now apply eqv_prog. Qed.
Lemma eqv_hook_or {A} r r' o args (d : A) g : same_at r r' -> eqv (ev_hook_or W r o args d g) (ev_hook_or W r' o args d g).
Proof. intros S. unfold ev_hook_or. destruct o; [|apply eqv_refl]. apply eqv_bind; [now apply eqv_hook|intros; apply eqv_refl]. Qed.
Lemma eqv_default r r' f : same_at r r' -> eqv (ev_default W r f) (ev_default W r' f).
Proof.
  intros S. pose proof (eqv_missing r r' (proj1 S)) as M. unfold ev_default. rewrite (nr_igd _ _ (proj1 S)). destruct (r_igd r'); [exact M|].
  destruct (o_default (f_opts f)) as [[h|]|v|p]; [now apply eqv_hook|exact M| |now apply eqv_prog]. destruct v; try apply eqv_refl. destruct c; try apply eqv_refl. exact M.
Qed.
Lemma eqv_validate r r' f v : near r r' -> eqv (ev_validate W r f v) (ev_validate W r' f v).
Proof.
  intros N s. unfold ev_validate. destruct (field_violation _ _ f v) as [[x|]|e]; try reflexivity.
  apply (eqv_bind _ _ (fun _ => eret false) (fun _ => eret false) (eqv_report r r' (Invalid x) N)). intros; apply eqv_refl.
Qed.
Lemma eqv_after r r' f v : same_at r r' -> eqv (ev_after W r f v) (ev_after W r' f v).
Proof.
  intros S. unfold ev_after. apply eqv_bind; [apply eqv_refl|]. intros w.
  apply eqv_bind; [destruct (ignored w); [apply eqv_refl|now apply eqv_hook_or]|]. intros x.
  destruct (is_NONE x); [now apply eqv_default|]. destruct (ignored x); [apply eqv_refl|]. destruct (negb (field_filter f x)); [now apply eqv_default|].
  apply eqv_bind; [now apply eqv_hook_or|]. intros ok. destruct (negb ok); [now apply eqv_default|]. apply eqv_bind; [apply eqv_validate, S|].
  intros ok'. destruct (negb ok'); [apply eqv_refl|]. apply eqv_bind; [now apply eqv_hook_or|]. intros; apply eqv_refl.
Qed.

Variable rec : rd -> field -> val -> Ev val.
Hypothesis REC : forall r r' f v, same_at r r' -> eqv (rec r f v) (rec r' f v).
Lemma eqv_fields r r' id tags fs : same_at r r' -> eqv (ev_fields rec r id tags fs) (ev_fields rec r' id tags fs).
Proof.
  intros S. induction fs as [|f fs IH]; cbn [ev_fields]; [apply eqv_refl|]. apply eqv_bind; [|intros _; exact IH].
  destruct (selected tags f); [|apply eqv_refl]. apply eqv_bind; [now apply REC|]. intros; apply eqv_refl.
Qed.
Lemma eqv_unmapped r r' id u : same_at r r' -> eqv (ev_unmapped rec r id u) (ev_unmapped rec r' id u).
Proof. intros S. destruct u; cbn [ev_unmapped]; try apply eqv_refl; (apply eqv_bind; [now apply REC|intros; apply eqv_refl]). Qed.
Lemma eqv_form_map r r' id tags u : same_at r r' -> eqv (ev_form_map W rec r id tags u) (ev_form_map W rec r' id tags u).
Proof.
  intros S. unfold ev_form_map. apply eqv_bind; [now apply eqv_mapping|]. intros _. apply eqv_bind; [apply eqv_refl|]. intros t.
  apply eqv_bind; [now apply eqv_fields, same_inform|]. intros _. apply eqv_bind; [now apply eqv_unmapped|]. intros; apply eqv_refl.
Qed.
Lemma eqv_sub x y : eqv x y -> eqv (ev_sub x) (ev_sub y).
Proof. intros H [es h]. unfold ev_sub. now rewrite H. Qed.
Lemma eqv_form r r' t rs u : same_at r r' -> eqv (ev_form W rec r t rs u) (ev_form W rec r' t rs u).
Proof.
  intros S. unfold ev_form. rewrite (nr_tags _ _ (proj1 S)). apply eqv_bind; [apply eqv_refl|]. intros id. apply eqv_bind; [apply eqv_refl|]. intros _.
  apply eqv_bind; [now apply eqv_sub, eqv_form_map, same_collecting|intros; apply eqv_refl].
Qed.
Lemma eqv_tuple r r' : same_at r r' -> forall fs i acc, eqv (ev_tuple W rec r i fs acc) (ev_tuple W rec r' i fs acc).
Proof.
  intros S. induction fs as [|f fs IH]; intros i acc; cbn [ev_tuple]; [apply eqv_refl|]. apply eqv_bind; [now apply REC, same_at_at|]. intros v. apply IH.
Qed.
Lemma eqv_list r r' f : same_at r r' -> forall n i acc, eqv (ev_list W rec r i n f acc) (ev_list W rec r' i n f acc).
Proof.
  intros S. induction n as [|n IH]; intros i acc; cbn [ev_list]; [apply eqv_refl|]. apply eqv_bind; [now apply REC, same_at_at|]. intros v. apply IH.
Qed.
Lemma eqv_dict r r' kfo kf vf : same_at r r' -> forall l acc, eqv (ev_dict W rec r kfo kf vf l acc) (ev_dict W rec r' kfo kf vf l acc).
Proof.
  intros S. induction l as [|k l IH]; intros acc; cbn [ev_dict]; [apply eqv_refl|]. apply eqv_bind; [now apply eqv_hook_or|]. intros b. destruct (negb b); [apply IH|].
  apply eqv_bind; [now apply REC, same_at_at|]. intros v. destruct (ignored v); [apply IH|]. apply eqv_bind; [now apply REC|]. intros k'.
  destruct (ignored k'); [apply IH|]. destruct (hashable k'); [apply IH|apply eqv_refl].
Qed.
Lemma eqv_group r r' g : same_at r r' -> forall l n acc, eqv (ev_group W rec r g l n acc) (ev_group W rec r' g l n acc).
Proof.
  intros S. induction l as [|k l IH]; intros n acc; cbn [ev_group]; [apply eqv_refl|]. apply eqv_bind; [apply eqv_refl|]. intros [[f c]|]; [|apply IH].
  apply eqv_bind; [now apply REC, same_at_at|]. intros v. apply IH.
Qed.
Lemma eqv_probe r r' probe tf v : near r r' -> eqv (ev_probe W rec r probe tf v) (ev_probe W rec r' probe tf v).
Proof.
  intros N [es h]. assert (P : r_probe r v = r_probe r' v).
  { unfold r_probe. now rewrite (nr_igd _ _ N), (nr_igm _ _ N), (nr_tags _ _ N), (nr_form _ _ N), (nr_field _ _ N). }
  unfold ev_probe. now rewrite P, (nr_tags _ _ N).
Qed.
Lemma eqv_poly r r' probe tf table rs u : same_at r r' -> eqv (ev_poly W rec r probe tf table rs u) (ev_poly W rec r' probe tf table rs u).
Proof.
  intros S. unfold ev_poly. apply eqv_bind; [apply eqv_on; [apply S|reflexivity]|]. intros v. apply eqv_catch; [apply eqv_probe, S|]. intros [i|e].
  - destruct (is_None i); [apply eqv_refl|]. destruct (negb (hashable i)); [apply eqv_refl|].
    destruct (dict_get _ i) as [[]|]; try apply eqv_invalid, S. destruct (w_class W s); [now apply eqv_form|apply eqv_refl].
  - destruct (is_value_error e); [apply eqv_invalid, S|apply eqv_refl].
Qed.
Lemma eqv_parse r r' k : same_at r r' -> eqv (ev_parse W rec r k) (ev_parse W rec r' k).
Proof.
  intros S. pose proof (proj1 S) as N.
  assert (PR : forall t, eqv (ev_primitive W r t) (ev_primitive W r' t)) by (intros; now apply eqv_primitive).
  assert (IV : forall x, eqv (ev_invalid W r x) (ev_invalid W r' x)) by (intros; now apply eqv_invalid).
  assert (VA : eqv (ev_value r) (ev_value r')) by (apply eqv_on; [apply S|reflexivity]).
  destruct k as [|c|lo hi|lo hi|lo hi| |formats lo hi|format lo hi|format lo hi|fs|f lo hi allow_scalar|kf vf keyf rq mx| | |t rs u|p1 p2 p3 p4 p5|l]; cbn [ev_parse]; try apply PR; try apply eqv_refl.
  - unfold ev_decimal. apply eqv_bind; [exact VA|]. intros w. destruct w; try apply eqv_refl; (destruct (dec_of_number _); [apply eqv_refl|]; apply eqv_bind; [apply PR|intros; apply eqv_refl]).
  - unfold ev_date. apply eqv_bind; [exact VA|]. intros w. destruct w; try apply eqv_refl; (apply eqv_bind; [apply PR|]); intros x; (destruct formats; [apply IV|apply eqv_refl]).
  - unfold ev_time. apply eqv_bind; [exact VA|]. intros w. destruct w; try apply eqv_refl; (apply eqv_bind; [apply PR|]); intros x; (destruct format; [apply eqv_refl|apply IV]).
  - unfold ev_datetime. apply eqv_bind; [exact VA|]. intros w. destruct w; try apply eqv_refl; (apply eqv_bind; [apply PR|]); intros x; (destruct format as [fm|]; [|apply IV]);
      (apply eqv_bind; [apply eqv_refl|]); intros y; (destruct (String.eqb fm "iso8601"); [destruct (e_iso _ y); [apply eqv_refl|apply IV]|apply eqv_refl]).
  - apply eqv_bind; [now apply eqv_sequence|]. intros n. destruct (Nat.eqb n _); [|apply IV]. apply eqv_bind; [now apply eqv_tuple|intros; apply eqv_refl].
  - apply eqv_catch; [now apply eqv_sequence|]. intros [n|e]; [apply eqv_bind; [now apply eqv_list|intros; apply eqv_refl]|]. destruct e; try apply eqv_refl.
    destruct allow_scalar; [|apply eqv_refl]. apply eqv_bind; [now apply REC|intros; apply eqv_refl].
  - apply eqv_bind; [now apply eqv_mapping|]. intros vw. apply eqv_bind; [apply eqv_refl|]. intros l. apply eqv_bind; [now apply eqv_dict|intros; apply eqv_refl].
  - unfold ev_code. apply eqv_bind; [apply PR|]. intros w. destruct w; try apply eqv_refl. destruct (has_char newline s).
    + destruct (e_compile _ s); [apply eqv_refl|apply IV].
    + destruct (e_import _ s) as [[]|]; [apply eqv_refl|apply IV|apply IV].
  - unfold ev_uuid. apply eqv_bind; [apply PR|]. intros w.
    assert (X : eqv (w <~ ev_primitive W r TyStr; match w with VStr s => match e_uuid (w_env W) s with Some u => eret u | None => eraise (EValue "badly formed hexadecimal UUID string") end | _ => eraise (EAttr "no attribute 'replace'") end)
       (w <~ ev_primitive W r' TyStr; match w with VStr s => match e_uuid (w_env W) s with Some u => eret u | None => eraise (EValue "badly formed hexadecimal UUID string") end | _ => eraise (EAttr "no attribute 'replace'") end)).
    { apply eqv_bind; [apply PR|]. intros x. apply eqv_refl. }
    destruct w; try exact X. destruct (String.eqb cls "UUID"); [apply eqv_refl|exact X].
  - now apply eqv_form.
  - now apply eqv_poly.
  - apply eqv_bind; [now apply eqv_mapping|]. intros vw. apply eqv_bind; [apply eqv_refl|]. intros l0. now apply eqv_group.
Qed.
Lemma eqv_compute r r' f : same_at r r' -> eqv (ev_compute W rec r f) (ev_compute W rec r' f).
Proof.
  intros S. unfold ev_compute. apply eqv_bind; [apply eqv_on; [apply S|reflexivity]|]. intros ex. destruct (negb ex); [apply eqv_refl|].
  apply eqv_bind; [apply eqv_on; [apply S|reflexivity]|]. intros nl. destruct nl; [apply eqv_refl|]. apply eqv_catch.
  - destruct (o_parse (f_opts f)); [now apply eqv_hook|now apply eqv_parse].
  - intros [v|e]; [apply eqv_refl|]. destruct (caught_by_compute e); [apply eqv_invalid, S|apply eqv_refl].
Qed.
Lemma eqv_body r r' f v : same_at r r' -> eqv (ev_body W rec r f v) (ev_body W rec r' f v).
Proof.
  intros S. unfold ev_body. destruct (is_NONE v); [|now apply eqv_after].
  apply eqv_bind; [destruct (o_compute (f_opts f)); [now apply eqv_hook|now apply eqv_compute]|]. intros w.
  destruct (is_NONE w); [|destruct (ignored w); [apply eqv_refl|now apply eqv_after]].
  destruct (o_default (f_opts f)) as [[h|]|x|p]; [now apply eqv_hook|now apply eqv_default|now apply eqv_default|now apply eqv_default].
Qed.
Lemma eqv_field_body r r' f v : same_at r r' -> eqv (ev_field_body W rec r f v) (ev_field_body W rec r' f v).
Proof.
  intros S. unfold ev_field_body. apply eqv_bind.
  - destruct (is_NONE v); [|apply eqv_refl]. unfold ev_where. destruct (o_resolve (f_opts f)); [|apply eqv_refl].
    apply eqv_bind; [now apply eqv_hook, same_for|intros; apply eqv_refl].
  - intros [k|]; (apply eqv_bind; [|intros; apply eqv_refl]).
    + now apply eqv_body, same_at_at, same_for.
    + now apply eqv_body, same_for.
Qed.
End Reads.
Lemma eqv_field W fuel : forall r r' f v, same_at W r r' -> eqv (ev_field W fuel r f v) (ev_field W fuel r' f v).
Proof. induction fuel as [|n IH]; intros r r' f v S; [apply eqv_refl|]. apply (eqv_field_body W (ev_field W n) IH); exact S. Qed.

(** ** Two documents *)
Section Two.
Variable W : world.
Variable same : key -> Prop.
Variable poly : Prop.
(** A mapping in both, with the same value wherever [same] holds. *)
Record apart (r r' : rd) : Prop := {
  ap_near : near W r r';
  ap_read : forall k, same k -> r_child W r k = r_child W r' k;
  ap_map : exists v v', r_val r = Ok v /\ r_val r' = Ok v' /\ is_NONE v = false /\ is_NONE v' = false /\ is_None v = false /\ is_None v' = false;
  ap_mapping : (exists vw, forall s, ev_mapping W r s = (Ok vw, s)) /\ (exists vw, forall s, ev_mapping W r' s = (Ok vw, s))
}.
Lemma apart_for r r' f : apart r r' -> apart (r_for r f) (r_for r' f).
Proof. intros [A B C D]. split; [now apply near_for|exact B|exact C|exact D]. Qed.
Lemma apart_inform r r' f : apart r r' -> apart (r_inform r f) (r_inform r' f).
Proof. intros [A B C D]. split; [now apply near_inform|exact B|exact C|exact D]. Qed.
Lemma apart_collecting r r' f : apart r r' -> apart (r_collecting r f) (r_collecting r' f).
Proof. intros [A B C D]. split; [now apply near_collecting|exact B|exact C|exact D]. Qed.
Definition reads_same (fuel : nat) (f : field) : Prop :=
  forall r r', apart r r' -> eqv (ev_field W fuel r f NONEv) (ev_field W fuel r' f NONEv).
Lemma apart_fields fuel r r' id tags fs : (forall f, In f fs -> selected tags f = true -> reads_same fuel f) -> apart r r' ->
  eqv (ev_fields (ev_field W fuel) r id tags fs) (ev_fields (ev_field W fuel) r' id tags fs).
Proof.
  intros H A. induction fs as [|f fs IH]; cbn [ev_fields]; [apply eqv_refl|].
  apply eqv_bind; [|intros _; apply IH; intros g G; apply H; now right].
  destruct (selected tags f) eqn:S; [|apply eqv_refl]. apply eqv_bind; [now apply H; [left| |]|]. intros; apply eqv_refl.
Qed.
Lemma apart_form_map fuel r r' id tags u : ignoring u -> apart r r' ->
  forall s, (forall f, In f (ft_fields (match nth_error (snd s) id with Some (t, _) => t | None => FormTy "" [] end)) -> selected tags f = true -> reads_same fuel f) ->
  ev_form_map W (ev_field W fuel) r id tags u s = ev_form_map W (ev_field W fuel) r' id tags u s.
Proof.
  intros U A s H. unfold ev_form_map. destruct (ap_mapping _ _ A) as [(vw & M) (vw' & M')].
  rewrite (ebind_ok _ _ _ _ _ (M s)), (ebind_ok _ _ _ _ _ (M' s)), !(ebind_ok (ev_type id) _ s _ s eq_refl).
  match goal with |- ?x s = ?y s => enough (Q : eqv x y) by exact (Q s) end.
  apply eqv_bind; [apply apart_fields; [exact H|now apply apart_inform]|]. intros _. destruct U as [-> | ->]; apply eqv_refl.
Qed.
Lemma near_after r r' f v : bare_opts (f_opts f) -> near W r r' -> eqv (ev_after W r f v) (ev_after W r' f v).
Proof.
  intros B N. assert (D : eqv (ev_default W r f) (ev_default W r' f)).
  { pose proof (eqv_missing W r r' N) as M. unfold ev_default. rewrite (nr_igd _ _ _ N). destruct (r_igd r'); [exact M|].
    destruct (br_default _ B) as [-> |(x & ->)]; [exact M|]. destruct x; try apply eqv_refl. destruct c; try apply eqv_refl. exact M. }
  unfold ev_after, ev_hook_or. rewrite (br_munge _ B), (br_filter _ B), (br_validate _ B). apply eqv_bind; [apply eqv_refl|]. intros w.
  apply eqv_bind; [apply eqv_refl|]. intros x. destruct (is_NONE x); [exact D|]. destruct (ignored x); [apply eqv_refl|]. destruct (negb (field_filter f x)); [exact D|].
  apply eqv_bind; [apply eqv_refl|]. intros ok. destruct (negb ok); [exact D|]. apply eqv_bind; [now apply eqv_validate|]. intros; apply eqv_refl.
Qed.
Lemma field_plain n r f : direct_opts (f_opts f) -> eqv (ev_field W (S n) r f NONEv)
  (v <~ ev_body W (ev_field W n) (match (match f_kind f with KGroup _ => None | _ => o_src (f_opts f) end) with Some k => r_at W (r_for r f) k | None => r_for r f end) f NONEv;
   (if o_attach_parent (f_opts f) && negb (ignored v) then ev_parent v else eret tt);;; eret v).
Proof. intros Do s. cbn [ev_field]. unfold ev_field_body, ev_where. rewrite (do_resolve _ Do). reflexivity. Qed.
Lemma eqv_trans {A} (x y z : Ev A) : eqv x y -> eqv y z -> eqv x z. Proof. intros H G s. now rewrite H. Qed.
Lemma eqv_sym {A} (x y : Ev A) : eqv x y -> eqv y x. Proof. intros H s. now rewrite H. Qed.
Lemma within_same f : pdirect poly f -> reads_within same f -> forall fuel, reads_same fuel f.
Proof.
  intros D RW. revert D. induction RW as [o k kd KS SK NG|o t rs u KS B U _ IH]; intros D fuel r r' A; (destruct fuel as [|n]; [apply eqv_refl|]);
    inversion D as [o0 k0 Do Dk]; subst; (eapply eqv_trans; [now apply field_plain|]; eapply eqv_trans; [|now apply eqv_sym, field_plain]);
    cbn [f_opts f_kind]; (apply eqv_bind; [|intros; apply eqv_refl]).
  - assert (R : same_at W (r_at W (r_for r (MkField o kd)) k) (r_at W (r_for r' (MkField o kd)) k)).
    { split; [apply near_at, near_for, A|]. exact (ap_read _ _ A k SK). }
    assert (Q : (match kd with KGroup _ => None | _ => o_src o end) = Some k) by (destruct kd; try exact KS; now destruct (NG l)).
    rewrite Q. apply eqv_body; [apply eqv_field|exact R].
  - rewrite KS. pose proof (apart_for _ _ (MkField o (KSubForm t rs u)) A) as A1. set (q := r_for r _) in *. set (q' := r_for r' _) in *. clearbody q q'. clear A r r'.
    pose proof (ap_near _ _ A1) as N.
    assert (D' : eqv (ev_default W q (MkField o (KSubForm t rs u))) (ev_default W q' (MkField o (KSubForm t rs u)))).
    { pose proof (eqv_missing W q q' N) as M. unfold ev_default. rewrite (nr_igd _ _ _ N). destruct (r_igd q'); [exact M|]. cbn [f_opts].
      destruct (br_default _ B) as [-> |(x & ->)]; [exact M|]. destruct x; try apply eqv_refl. destruct c; try apply eqv_refl. exact M. }
    unfold ev_body. cbn [f_opts]. rewrite (br_compute _ B). change (is_NONE NONEv) with true. cbv iota.
    apply eqv_bind.
    + destruct (ap_map _ _ A1) as (v & v' & V & V' & N1 & N2 & N3 & N4). unfold ev_compute, ev_exists, ev_null, on_val. rewrite V, V'.
      cbn [f_opts]. rewrite (br_parse _ B), N1, N2, N3, N4. apply eqv_bind with (k := fun ex => _) (k' := fun ex => _); [apply eqv_refl|].
      intros ex. destruct (negb ex); [apply eqv_refl|]. apply eqv_bind; [apply eqv_refl|]. intros nl. destruct nl; [apply eqv_refl|].
      apply eqv_catch.
      * cbn [ev_parse f_kind]. unfold ev_form. rewrite (nr_tags _ _ _ N). intros [es h]. rewrite !(ebind_ok (ev_new t) _ (es, h) _ _ eq_refl). cbn [fst snd].
        assert (X : exists h', (if rs then ev_reset (length h) (r_tags q') (ft_fields t) else eret tt) (es, h ++ [(t, [])]) = (Ok tt, (es, h')) /\
           option_map fst (nth_error h' (length h)) = Some t).
        { assert (NE : nth_error (h ++ [(t, [])]) (length h) = Some (t, [])) by (rewrite nth_error_app2, Nat.sub_diag by lia; reflexivity).
          destruct rs; [|eexists; split; [reflexivity|]; now rewrite NE].
          destruct (reset_ok (length h) (r_tags q') (ft_fields t) (es, h ++ [(t, [])])) as ([es' h'] & X1 & X2 & X3 & _). cbn [fst snd] in *. subst es'. exists h'.
          split; [exact X1|]. rewrite X3. unfold heap in NE |- *. now rewrite NE. }
        destruct X as (h' & X & NT). rewrite !(ebind_ok _ _ _ _ _ X). unfold ebind, ev_sub.
        rewrite (apart_form_map n (r_collecting q Collect) (r_collecting q' Collect) (length h) (r_tags q') u U (apart_collecting _ _ _ A1)); [reflexivity|].
        cbn [snd]. intros f Hf _. destruct (nth_error h' (length h)) as [[t' l']|]; [|discriminate]. injection NT as ->.
        apply (IH f Hf). inversion Dk as [| | | | | | | | | | | | | |t0 rs0 u0 Dt Du| |]; subst. destruct Dt as [nm fs Df]. exact (Df f Hf).
      * intros [w|e]; [apply eqv_refl|]. destruct (caught_by_compute e); [now apply eqv_invalid|apply eqv_refl].
    + intros w. destruct (is_NONE w); [|destruct (ignored w); [apply eqv_refl|now apply near_after]].
      destruct (br_default _ B) as [DD|(x & DD)]; rewrite DD; exact D'.
Qed.
Lemma apart_map fuel o src src' root root' id t l tags rs u m h : nth_error h id = Some (t, l) -> pdirect_form poly t -> ignoring u ->
  (forall f, In f (ft_fields t) -> chosen (match tags with [] => ou_tags o | _ => tags end) f -> reads_within same f) ->
  (forall m, apart (r_start o src m root) (r_start o src' m root')) ->
  ev_map W fuel o src root id tags rs u m h = ev_map W fuel o src' root' id tags rs u m h.
Proof.
  intros NT D U RW A. unfold ev_map. rewrite NT. set (tags' := match tags with [] => ou_tags o | _ => tags end) in *.
  assert (X : exists x h', (if rs then ev_reset id tags' (ft_fields t) else eret tt) ([], h) = (x, ([], h')) /\ option_map fst (nth_error h' id) = Some t).
  { destruct rs; [|eexists _, _; split; [reflexivity|now rewrite NT]].
    destruct (reset_ok id tags' (ft_fields t) ([], h)) as ([es' h'] & X1 & X2 & X3 & _). cbn [fst snd] in *. subst es'. eexists _, h'.
    split; [exact X1|]. now rewrite X3, NT. }
  destruct X as (x & h' & X & N1). unfold heap in X |- *. rewrite X.
  rewrite (apart_form_map fuel _ _ id tags' u U (A m)); [reflexivity|]. cbn [snd]. intros f Hf S.
  destruct (nth_error h' id) as [[t' l']|]; [|discriminate]. injection N1 as ->. apply within_same.
  - destruct D as [nm fs Df]. exact (Df f Hf).
  - apply RW; [exact Hf|]. now apply selected_chosen.
Qed.
End Two.

Lemma outer_tags s tags tg : in_force s tags tg -> match tags with [] => ou_tags (outer_of s) | _ => tags end = tg.
Proof.
  intros H. apply (in_force_fun s tags); [|exact H]. unfold in_force. destruct tags as [|g tags]; [|left; split; [discriminate|reflexivity]]. right. split; [reflexivity|]. unfold outer_of, ou_tags, tags_seen. destruct (lookup "tags" (stk s)) as [[]|]; try reflexivity.
  destruct v; try reflexivity. destruct (texts_of l) as [ts|] eqn:T; [left; now apply texts_some|]. right. split; [|reflexivity]. intros ts X. apply texts_some in X. congruence.
Qed.
Definition form_poly (poly : Prop) (t : formty) : direct_form t -> pdirect_form poly t := proj1 (proj2 (proj2 (direct_poly poly))) t.
Lemma json_apart W items items' strict loc o m : json_val (VDict items) = true -> json_val (VDict items') = true ->
  apart W (same_json (VDict items) (VDict items')) (r_start o (SJson (VDict items) strict loc) m (VDict items)) (r_start o (SJson (VDict items') strict loc) m (VDict items')).
Proof.
  intros J J'. split.
  - split; try reflexivity. split; reflexivity.
  - intros k [PK SJ]. unfold r_child. cbn [r_start r_val r_src psource_resolve].
    rewrite (proj1 (json_resolve_steps (w_env W) no_ents _ k J PK)), (proj1 (json_resolve_steps (w_env W) no_ents _ k J' PK)). unfold json_at in SJ. cbn [flat_map] in SJ. rewrite !app_nil_r in SJ. now rewrite SJ.
  - eexists _, _. repeat split; reflexivity.
  - split; eexists; intros st; reflexivity.
Qed.
Lemma C46_json_lem W fuel items items' strict loc id t l tags tg rs u m s :
  json_val (VDict items) = true -> json_val (VDict items') = true -> nth_error (forms s) id = Some (t, l) -> direct_form t -> ignoring u -> mapping_context s ->
  in_force s tags tg -> (forall f, In f (ft_fields t) -> chosen tg f -> reads_within (same_json (VDict items) (VDict items')) f) ->
  let x := Form_map W fuel id (ASrc (SBase (BPlain (SJson (VDict items) strict loc)))) tags rs u m s in
  let y := Form_map W fuel id (ASrc (SBase (BPlain (SJson (VDict items') strict loc)))) tags rs u m s in
  fst x = fst y /\ forms (snd x) = forms (snd y).
Proof.
  intros J J' NT D U C IF RW. cbv zeta. assert (Du : direct_unm u) by (destruct U as [-> | ->]; constructor).
  pose proof (C30_json_lem W fuel _ strict loc id t l tags rs u m s J NT D Du C) as [X _].
  pose proof (C30_json_lem W fuel _ strict loc id t l tags rs u m s J' NT D Du C) as [Y _]. cbv zeta in X, Y.
  rewrite (apart_map W (same_json (VDict items) (VDict items')) False fuel (outer_of s) (SJson (VDict items) strict loc) (SJson (VDict items') strict loc)
    (VDict items) (VDict items') id t l tags rs u m (forms s) NT (form_poly False t D) U) in X.
  - rewrite <- Y in X. injection X as X1 X2. auto.
  - now rewrite (outer_tags s tags tg IF).
  - intros m0. now apply json_apart.
Qed.

Lemma same_native_read W P d d' loc loc' k : plain_native (w_env W) P -> P d -> P d' -> same_native (w_env W) d d' k ->
  psource_resolve (w_env W) no_ents (SDefault d [] [] loc) [] d k = psource_resolve (w_env W) no_ents (SDefault d' [] [] loc') [] d' k.
Proof.
  intros PN Pd Pd' S. pose proof (pn_data _ _ PN) as ND. destruct k as [s|z|v]; [| |contradiction]; cbn [same_native] in S.
  - destruct S as [NC S]. cbn [psource_resolve].
    destruct (resolve_or (w_env W) no_ents P ND [] [] [] eq_refl d' s (String.length s) Pd' NC) as [(w & F & Pw & R)|(N & R)]; rewrite R.
    + apply S in F. exact (proj2 (C10_present_lem (w_env W) no_ents P d [] [] loc [] d s w ND Pd (fun i (H : In i []) => match H with end) NC (P_not_NONE _ _ _ ND w Pw)) F).
    + apply (C10_absent_lem (w_env W) no_ents P d [] [] loc [] d s ND Pd (fun i (H : In i []) => match H with end) NC). intros v F. apply S in F. exact (N v F).
  - cbn [psource_resolve default_resolve]. unfold default_resolve1. cbn [is_ignored existsb].
    destruct (item_or (w_env W) no_ents P ND d (KInt z) Pd) as [(w & F & Pw & ->)|(N & ->)]; destruct (item_or (w_env W) no_ents P ND d' (KInt z) Pd') as [(w' & F' & Pw' & ->)|(N' & ->)].
    + apply S in F. apply (getitem_iff (w_env W) no_ents d' (KInt z)) in F; [|eapply (nd_ordinary _ _ _ ND); eauto].
      apply (getitem_iff (w_env W) no_ents d' (KInt z)) in F'; [|eapply (nd_ordinary _ _ _ ND); eauto]. assert (w = w') as -> by congruence. rewrite (P_not_NONE _ _ _ ND w' Pw'). reflexivity.
    + apply S in F. destruct (N' _ F).
    + apply S in F'. destruct (N _ F').
    + reflexivity.
Qed.
Lemma native_apart W P items items' o m : plain_native (w_env W) P -> P (VDict items) -> P (VDict items') ->
  apart W (same_native (w_env W) (VDict items) (VDict items')) (r_start o (SDefault (VDict items) [] [] None) m (VDict items)) (r_start o (SDefault (VDict items') [] [] None) m (VDict items')).
Proof.
  intros PN J J'. split.
  - split; try reflexivity. split; reflexivity.
  - intros k SK. unfold r_child. cbn [r_start r_val r_src]. now apply (same_native_read W P).
  - eexists _, _. repeat split; reflexivity.
  - split; eexists; intros st; reflexivity.
Qed.
Lemma C46_native_lem W P fuel items items' id t l tags tg rs u m s :
  plain_native (w_env W) P -> P (VDict items) -> P (VDict items') -> nth_error (forms s) id = Some (t, l) -> direct_form t -> ignoring u -> mapping_context s ->
  in_force s tags tg -> (forall f, In f (ft_fields t) -> chosen tg f -> reads_within (same_native (w_env W) (VDict items) (VDict items')) f) ->
  let x := Form_map W fuel id (AVal (VDict items)) tags rs u m s in
  let y := Form_map W fuel id (AVal (VDict items')) tags rs u m s in
  fst x = fst y /\ forms (snd x) = forms (snd y).
Proof.
  intros PN J J' NT D U C IF RW. cbv zeta. assert (Du : direct_unm u) by (destruct U as [-> | ->]; constructor).
  pose proof (C30_dict_lem W fuel P _ id t l tags rs u m s PN J NT D Du C) as [X _].
  pose proof (C30_dict_lem W fuel P _ id t l tags rs u m s PN J' NT D Du C) as [Y _]. cbv zeta in X, Y.
  rewrite (apart_map W (same_native (w_env W) (VDict items) (VDict items')) False fuel (outer_of s) (SDefault (VDict items) [] [] None) (SDefault (VDict items') [] [] None)
    (VDict items) (VDict items') id t l tags rs u m (forms s) NT (form_poly False t D) U) in X.
  - rewrite <- Y in X. injection X as X1 X2. auto.
  - now rewrite (outer_tags s tags tg IF).
  - intros m0. now apply (native_apart W P).
Qed.
