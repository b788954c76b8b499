From Coq Require Import Lia.
From Verif Require Import PyBase PyStr Source Field Context Fields SpecSrc Eval Refine Regime SpecTame.
Open Scope ev_scope.

Definition put (p : nat) (x : ekind * string * option string) : err :=
  match x with (k, t, n) => MkErr k t n (Some p) end.
Lemma said_put p l : map said (map (put p) l) = l.
Proof. induction l as [|[[k t] n] l IH]; cbn; [reflexivity|now rewrite IH]. Qed.

(** Two evaluations that come to the same outcome and append the same errors (each with its own
    path), whatever the errors so far and the forms, and leave the forms alone.  Where errors are
    raised, the exceptions are the same but for the paths. *)
Definition alike {A} (md : mode) (o o' : res A) : Prop :=
  match o, o' with
  | Ok a, Ok b => b = a
  | Exn e, Exn e' => match md with Collect => e' = e | Raise => spoken e' = spoken e end
  | _, _ => False
  end.
Lemma alike_refl {A} md (o : res A) : alike md o o.
Proof. destruct o; cbn; [reflexivity|]. now destruct md. Qed.
Lemma alike_spoken md e e' : @alike unit md (Exn e) (Exn e') -> spoken e' = spoken e.
Proof. cbn. destruct md; [now intros ->|auto]. Qed.
Definition calm_c {A} (p p' : nat) (e e' : Ev A) : Prop :=
  exists o new, forall es h, e (es, h) = (o, (es ++ map (put p) new, h)) /\
                             e' (es, h) = (o, (es ++ map (put p') new, h)).
Definition calm_r {A} (e e' : Ev A) : Prop :=
  forall es es' h h', map untied es' = map untied es -> exists o o' new new',
    e (es, h) = (o, (new, h)) /\ e' (es', h') = (o', (new', h')) /\ alike Raise o o' /\ map untied new' = map untied new.
Definition calm {A} (md : mode) (p p' : nat) (e e' : Ev A) : Prop :=
  match md with Collect => calm_c p p' e e' | Raise => calm_r e e' end.
Lemma calm_collect {A} p p' (e e' : Ev A) : calm Collect p p' e e' -> calm_c p p' e e'.
Proof. auto. Qed.
Section Calm.
Variables (md : mode) (p p' : nat).
Notation calm := (calm md).
Lemma calm_same {A} (e : Ev A) x : (forall s, e s = (x, s)) -> calm p p' e e.
Proof.
  intros H. unfold TameProofs.calm. destruct md.
  - exists x, []. intros es h. rewrite H. cbn [map]. now rewrite !app_nil_r.
  - intros es es' h h' U. rewrite !H. do 4 eexists. split; [reflexivity|]. split; [reflexivity|]. split; [apply alike_refl|exact U].
Qed.
Lemma calm_ret {A} (a : A) : calm p p' (eret a) (eret a).
Proof. now apply calm_same with (Ok a). Qed.
Lemma calm_raise {A} e : calm p p' (@eraise A e) (eraise e).
Proof. now apply calm_same with (Exn e). Qed.
Lemma calm_lift {A} (x : res A) : calm p p' (elift x) (elift x).
Proof. now apply calm_same with x. Qed.
Lemma calm_fail {A} e e' : @alike unit md (Exn e) (Exn e') -> calm p p' (@eraise A e) (eraise e').
Proof.
  unfold TameProofs.calm. destruct md; cbn [alike].
  - intros ->. exists (Exn e), []. intros es h. cbn. now rewrite !app_nil_r.
  - intros L es es' h h' U. do 4 eexists. split; [reflexivity|]. split; [reflexivity|]. split; [exact L|exact U].
Qed.
Lemma calm_ext {A} (e e' d d' : Ev A) : (forall s, e s = d s) -> (forall s, e' s = d' s) -> calm p p' d d' -> calm p p' e e'.
Proof.
  intros H H'. unfold TameProofs.calm. destruct md.
  - intros (o & new & K). exists o, new. intros es h. rewrite H, H'. apply K.
  - intros K es es' h h' U. rewrite H, H'. now apply K.
Qed.
Lemma calm_bind_if {A B} (m m' : Ev A) (f f' : A -> Ev B) :
  calm p p' m m' -> (forall a, (exists es h es2, m (es, h) = (Ok a, (es2, h))) -> calm p p' (f a) (f' a)) ->
  calm p p' (ebind m f) (ebind m' f').
Proof.
  unfold TameProofs.calm. destruct md; intros H K.
  - destruct H as (o & new & H). destruct o as [a|e].
    + destruct (K a) as (o2 & new2 & H2). { exists [], []. eexists. apply H. }
      exists o2, (new ++ new2). intros es h. destruct (H es h) as [H1 H1']. unfold ebind. rewrite H1, H1', !map_app, !app_assoc.
      split; apply H2.
    + exists (Exn e), new. intros es h. destruct (H es h) as [H1 H1']. unfold ebind. now rewrite H1, H1'.
  - intros es es' h h' U. destruct (H es es' h h' U) as (o & o' & new & new' & H1 & H1' & L & U2). unfold ebind. rewrite H1, H1'.
    destruct o as [a|e], o' as [a'|e']; cbn in L; try contradiction.
    + subst a'. apply (K a); [exists es, h, new; exact H1|exact U2].
    + do 4 eexists. split; [reflexivity|]. split; [reflexivity|]. split; [exact L|exact U2].
Qed.
Lemma calm_bind {A B} (m m' : Ev A) (f f' : A -> Ev B) :
  calm p p' m m' -> (forall a, calm p p' (f a) (f' a)) -> calm p p' (ebind m f) (ebind m' f').
Proof. intros H K. apply calm_bind_if; auto. Qed.
Lemma calm_catch_if {A B} (m m' : Ev A) (f f' : res A -> Ev B) :
  calm p p' m m' -> (forall a a', alike md a a' -> (exists es h es2, m (es, h) = (a, (es2, h))) -> calm p p' (f a) (f' a')) ->
  calm p p' (ecatch m f) (ecatch m' f').
Proof.
  unfold TameProofs.calm. destruct md; intros H K.
  - destruct H as (o & new & H). destruct (K o o (alike_refl _ o)) as (o2 & new2 & H2). { exists [], []. eexists. apply H. }
    exists o2, (new ++ new2). intros es h. destruct (H es h) as [H1 H1']. unfold ecatch. rewrite H1, H1', !map_app, !app_assoc.
    split; apply H2.
  - intros es es' h h' U. destruct (H es es' h h' U) as (o & o' & new & new' & H1 & H1' & L & U2). unfold ecatch. rewrite H1, H1'.
    apply (K o o' L); [exists es, h, new; exact H1|exact U2].
Qed.
Lemma calm_catch_lift {A B} (x : res A) (f f' : res A -> Ev B) : calm p p' (f x) (f' x) -> calm p p' (ecatch (elift x) f) (ecatch (elift x) f').
Proof. now apply calm_ext. Qed.
Lemma calm_if {A} (b : bool) (x x' y y' : Ev A) : calm p p' x x' -> calm p p' y y' ->
  calm p p' (if b then x else y) (if b then x' else y').
Proof. now destruct b. Qed.
End Calm.

Section Tame.
Variables (md : mode) (W : world) (root : val) (Loc : val -> Prop) (src : psource).
Notation calm := (calm md).
Let E := w_env W.
Hypothesis RG : regime E src root Loc.
Hypothesis STR : forall v w, psource_parse E src TyStr v = Ok w -> exists s, w = VStr s.
Let absorb := absorbing E src.

Record twin (r r' : rd) : Prop := {
  tw_src : r_src r = src; tw_src' : r_src r' = src;
  tw_mode : r_mode r = md; tw_mode' : r_mode r' = md;
  tw_igd : r_igd r' = r_igd r;
  tw_igm : r_igm r' = r_igm r;
  tw_keys : r_keys r' = r_keys r;
  tw_val : r_val r' = r_val r;
  tw_loc : forall v, r_val r = Ok v -> v = VConst NONE \/ Loc v
}.
Definition twin_f (r r' : rd) : Prop := twin r r' /\ r_field r' = r_field r.
Lemma twin_for r r' f : twin r r' -> twin_f (r_for r f) (r_for r' f).
Proof. intros [? ? ? ? ? ? ? ? ?]. split; [split|]; auto. Qed.
Lemma twin_at r r' k : twin r r' -> plain_key k -> (r_val r = Ok (VConst NONE) -> absorb) -> twin (r_at W r k) (r_at W r' k).
Proof.
  intros [A B C D F G H I J] PK AB. split; cbn; auto; try congruence.
  - unfold r_child. now rewrite A, B, I.
  - intros w. unfold r_child. destruct (r_val r) as [v|e] eqn:V; [|discriminate]. rewrite A.
    destruct (J v eq_refl) as [->|L].
    + pose proof (AB eq_refl k PK) as Q. unfold E in Q. rewrite Q. intros [= <-]. now left.
    + apply (rg_step _ _ _ _ RG v k w L PK).
Qed.
Lemma twin_f_at r r' k : twin_f r r' -> plain_key k -> (r_val r = Ok (VConst NONE) -> absorb) -> twin_f (r_at W r k) (r_at W r' k).
Proof. intros [T F] PK AB. split; [now apply twin_at|exact F]. Qed.

Section Same.
Variables (r r' : rd).
Let p := r_pid r.
Let p' := r_pid r'.
Notation calmly := (calm p p').
Hypothesis T : twin_f r r'.
Lemma calm_on {A} (g : val -> res A) : calmly (on_val r g) (on_val r' g).
Proof. unfold on_val. rewrite (tw_val _ _ (proj1 T)). apply calm_lift. Qed.
Lemma calm_value : calmly (ev_value r) (ev_value r').
Proof. apply calm_on. Qed.
Lemma calm_exists : calmly (ev_exists r) (ev_exists r').
Proof. apply calm_on. Qed.
Lemma calm_null : calmly (ev_null r) (ev_null r').
Proof. apply calm_on. Qed.
Lemma calm_primitive t : calmly (ev_primitive W r t) (ev_primitive W r' t).
Proof. unfold ev_primitive. rewrite (tw_src _ _ (proj1 T)), (tw_src' _ _ (proj1 T)). apply calm_on. Qed.
Lemma calm_sequence : calmly (ev_sequence W r) (ev_sequence W r').
Proof. unfold ev_sequence. rewrite (tw_src _ _ (proj1 T)), (tw_src' _ _ (proj1 T)). apply calm_on. Qed.
Lemma calm_mapping : calmly (ev_mapping W r) (ev_mapping W r').
Proof. unfold ev_mapping. rewrite (tw_src _ _ (proj1 T)), (tw_src' _ _ (proj1 T)), (tw_keys _ _ (proj1 T)). apply calm_on. Qed.
Lemma calm_report kd : calmly (ev_report W r kd) (ev_report W r' kd).
Proof.
  destruct T as [[A B C D _ _ K _ _] F].
  destruct (r_field r) as [n|e] eqn:RF.
  - destruct (pkeys_str (w_env W) src (r_keys r)) as [t|e] eqn:PS.
    + unfold TameProofs.calm, calm_c, calm_r, ev_report. rewrite A, B, C, D, F, RF, K. fold E in PS. fold E. rewrite PS. destruct md.
      * exists (Ok tt), [(kd, t, n)]. intros es h. split; reflexivity.
      * intros es es' h h' U. do 4 eexists. split; [reflexivity|]. split; [reflexivity|].
        assert (Q : map untied (es' ++ [MkErr kd t n (Some (r_pid r'))]) = map untied (es ++ [MkErr kd t n (Some (r_pid r))])) by (rewrite !map_app, U; reflexivity).
        split; [|exact Q]. cbn [alike spoken]. now rewrite Q.
    + apply calm_ext with (d := eraise e) (d' := eraise e); [| |apply calm_raise]; intros [es h]; unfold ev_report; rewrite ?A, ?B, ?F, ?RF, ?K; fold E; fold E in PS; now rewrite PS.
  - apply calm_ext with (d := eraise e) (d' := eraise e); [| |apply calm_raise]; intros [es h]; unfold ev_report; now rewrite ?F, ?RF.
Qed.
Lemma calm_invalid x : calmly (ev_invalid W r x) (ev_invalid W r' x).
Proof. apply calm_bind; [apply calm_report|intros; apply calm_ret]. Qed.
Lemma calm_missing : calmly (ev_missing W r) (ev_missing W r').
Proof.
  unfold ev_missing. rewrite (tw_igm _ _ (proj1 T)). apply calm_bind; [|intros; apply calm_ret].
  apply calm_if; [apply calm_ret|apply calm_report].
Qed.
Lemma calm_default f : tame_opts (f_opts f) -> calmly (ev_default W r f) (ev_default W r' f).
Proof.
  intros TO. pose proof (to_default _ TO) as D. unfold ev_default. rewrite (tw_igd _ _ (proj1 T)).
  apply calm_if; [apply calm_missing|]. destruct (o_default (f_opts f)) as [[h|]|v|q]; try contradiction.
  - apply calm_missing.
  - destruct v; try apply calm_ret. match goal with c : const |- _ => destruct c; try apply calm_ret end. apply calm_missing.
Qed.
Definition measured (k : kind) : bool := match k with KString _ | KList _ _ _ _ | KDict _ _ _ _ _ => true | _ => false end.
Definition no_form (v : val) : Prop := forall i, v <> VForm i.
Lemma len_no_form ents ents' v : no_form v -> py_len ents v = py_len ents' v.
Proof. intros N. destruct v; try reflexivity. exfalso. now eapply N. Qed.
Lemma violation_no_form f v ents ents' : (measured (f_kind f) = true -> no_form v) ->
  field_violation E ents f v = field_violation E ents' f v.
Proof.
  intros N. unfold field_violation. destruct (vio_null f v); [reflexivity|].
  assert (X : vio_kind E ents f v = vio_kind E ents' f v).
  { unfold vio_kind. destruct (f_kind f); try reflexivity; specialize (N eq_refl).
    - unfold vio_min_len, vio_max_len. now rewrite (len_no_form ents ents' v N).
    - unfold vio_min_len, vio_max_len. now rewrite (len_no_form ents ents' v N).
    - unfold vio_max_keys. rewrite (len_no_form ents ents' v N). f_equal. unfold vio_required. destruct required; [reflexivity|].
      destruct v; try reflexivity. exfalso. now eapply N. }
  destruct v; try exact X; reflexivity.
Qed.
Lemma calm_validate f v : (measured (f_kind f) = true -> no_form v) -> calmly (ev_validate W r f v) (ev_validate W r' f v).
Proof.
  intros N.
  assert (X : forall q s, ev_validate W q f v s = match field_violation E (fun _ => []) f v with
      | Ok (Some x) => (ev_report W q (Invalid x);;; eret false) s | Ok None => (Ok true, s) | Exn e => (Exn e, s) end).
  { intros q s. unfold ev_validate. fold E. now rewrite (violation_no_form f v (hents (snd s)) (fun _ => []) N). }
  destruct (field_violation E (fun _ => []) f v) as [[x|]|e] eqn:V.
  - eapply calm_ext; [intros s; apply X|intros s; apply X|]. apply calm_bind; [apply calm_report|intros; apply calm_ret].
  - apply calm_ext with (d := eret true) (d' := eret true); [intros s; apply X|intros s; apply X|apply calm_ret].
  - apply calm_ext with (d := eraise e) (d' := eraise e); [intros s; apply X|intros s; apply X|apply calm_raise].
Qed.
Lemma dict_get_In l k v : dict_get l k = Some v -> exists k', In (k', v) l.
Proof.
  unfold dict_get. destruct (find _ l) as [[a b]|] eqn:F; [|discriminate]. intros [= <-]. exists a. now apply find_some in F.
Qed.
Lemma calm_after f v : tame_opts (f_opts f) -> (measured (f_kind f) = true -> no_form v) ->
  calmly (ev_after W r f v) (ev_after W r' f v).
Proof.
  intros TO N. unfold ev_after. rewrite (to_munge _ TO), (to_filter _ TO), (to_validate _ TO). unfold ev_hook_or.
  apply calm_bind_if.
  { unfold ev_translate. destruct (o_translations (f_opts f)); [apply calm_ret|]. apply calm_if; [apply calm_ret|apply calm_raise]. }
  intros w Hw.
  assert (N' : measured (f_kind f) = true -> no_form w).
  { intros M. destruct Hw as (es & h & es2 & Hw). unfold ev_translate in Hw.
    assert (TT := to_translations _ TO).
    destruct (o_translations (f_opts f)) as [|x tr]; [injection Hw as <- _; auto|].
    destruct (hashable v); [|discriminate]. injection Hw as Hw _.
    destruct (dict_get (x :: tr) v) as [y|] eqn:G; subst; [|auto]. destruct (dict_get_In _ _ _ G) as (k' & I).
    intros i ->. exact (TT _ _ I). }
  clear N Hw. apply calm_bind_if; [apply calm_if; apply calm_ret|].
  intros w2 (es & h & es2 & Hw). assert (w2 = w) by (destruct (ignored w); now injection Hw). subst w2. clear es h es2 Hw.
  apply calm_if; [now apply calm_default|]. apply calm_if; [apply calm_ret|]. apply calm_if; [now apply calm_default|].
  apply calm_bind; [apply calm_ret|intros b]. apply calm_if; [now apply calm_default|].
  apply calm_bind; [now apply calm_validate|intros b2]. apply calm_if; [apply calm_ret|].
  apply calm_bind; [apply calm_ret|intros; apply calm_ret].
Qed.
Lemma calm_need_str v : calmly (ev_need_str v) (ev_need_str v).
Proof. destruct v; try apply calm_raise. apply calm_ret. Qed.
Lemma calm_decimal : calmly (ev_decimal W r) (ev_decimal W r').
Proof.
  unfold ev_decimal. apply calm_bind; [apply calm_value|intros v].
  assert (X : calmly
    (match dec_of_number v with Some d => eret (VDec d) | None =>
       w <~ ev_primitive W r TyStr; match w with VStr s => match e_dec (w_env W) s with Some d => eret (VDec d) | None => eraise EDecimal end
         | VDec _ => eret w | _ => match dec_of_number w with Some d => eret (VDec d) | None => eraise (EType "Cannot convert to Decimal") end end end)
    (match dec_of_number v with Some d => eret (VDec d) | None =>
       w <~ ev_primitive W r' TyStr; match w with VStr s => match e_dec (w_env W) s with Some d => eret (VDec d) | None => eraise EDecimal end
         | VDec _ => eret w | _ => match dec_of_number w with Some d => eret (VDec d) | None => eraise (EType "Cannot convert to Decimal") end end end)).
  { destruct (dec_of_number v); [apply calm_ret|]. apply calm_bind; [apply calm_primitive|intros w].
    destruct w; try apply calm_ret; cbn [dec_of_number];
      match goal with
      | |- TameProofs.calm _ _ _ (match ?x with Some _ => _ | None => _ end) _ => destruct x; [apply calm_ret|apply calm_raise]
      | _ => try apply calm_ret; apply calm_raise
      end. }
  destruct v; try exact X. apply calm_ret.
Qed.
Lemma calm_date fmts : calmly (ev_date W r fmts) (ev_date W r' fmts).
Proof.
  unfold ev_date. apply calm_bind; [apply calm_value|intros v].
  destruct v; try apply calm_ret; (apply calm_bind; [apply calm_primitive|intros w]; destruct fmts; [apply calm_invalid|];
    apply calm_bind; [apply calm_need_str|intros; apply calm_ret]).
Qed.
Lemma calm_time fmt : calmly (ev_time W r fmt) (ev_time W r' fmt).
Proof.
  unfold ev_time. apply calm_bind; [apply calm_value|intros v].
  destruct v; try apply calm_ret; (apply calm_bind; [apply calm_primitive|intros w]; destruct fmt as [fm|]; [|apply calm_invalid];
    apply calm_bind; [apply calm_need_str|intros s0; destruct (e_strptime_time (w_env W) s0 fm); [apply calm_ret|apply calm_raise]]).
Qed.
Lemma calm_datetime fmt : calmly (ev_datetime W r fmt) (ev_datetime W r' fmt).
Proof.
  unfold ev_datetime. apply calm_bind; [apply calm_value|intros v].
  destruct v; try apply calm_ret; (apply calm_bind; [apply calm_primitive|intros w]; destruct fmt as [fm|]; [|apply calm_invalid];
    apply calm_bind; [apply calm_need_str|intros s0]; apply calm_if;
    [destruct (e_iso (w_env W) s0); [apply calm_ret|apply calm_invalid]|destruct (e_strp (w_env W) s0 fm); [apply calm_ret|apply calm_raise]]).
Qed.
Lemma calm_code : calmly (ev_code W r) (ev_code W r').
Proof.
  unfold ev_code. apply calm_bind; [apply calm_primitive|intros v].
  destruct v; try apply calm_ret. apply calm_if.
  - destruct (e_compile (w_env W) s); [apply calm_ret|apply calm_invalid].
  - destruct (e_import (w_env W) s) as [[m|e]|]; [apply calm_ret|apply calm_invalid|apply calm_invalid].
Qed.
Lemma calm_uuid : calmly (ev_uuid W r) (ev_uuid W r').
Proof.
  unfold ev_uuid. cbv zeta. apply calm_bind; [apply calm_primitive|intros v].
  assert (X : calmly (w <~ ev_primitive W r TyStr; match w with VStr s => match e_uuid (w_env W) s with Some u => eret u | None => eraise (EValue "badly formed hexadecimal UUID string") end | _ => eraise (EAttr "no attribute 'replace'") end)
                     (w <~ ev_primitive W r' TyStr; match w with VStr s => match e_uuid (w_env W) s with Some u => eret u | None => eraise (EValue "badly formed hexadecimal UUID string") end | _ => eraise (EAttr "no attribute 'replace'") end)).
  { apply calm_bind; [apply calm_primitive|intros w]. destruct w; try apply calm_raise.
    destruct (e_uuid (w_env W) s); [apply calm_ret|apply calm_raise]. }
  destruct v; try exact X. apply calm_if; [apply calm_ret|exact X].
Qed.
End Same.

(** *** Everything that recurses *)
Definition ready (r : rd) : Prop := r_val r = Ok (VConst NONE) -> absorb.
Lemma ready_at r k w : r_child W r k = Ok w -> (absorb \/ is_NONE w = false) -> ready (r_at W r k).
Proof. intros H K Q. cbn in Q. rewrite H in Q. injection Q as ->. destruct K as [K|K]; [exact K|discriminate]. Qed.
Section Knot.
Variables (rec rec' : rd -> field -> val -> Ev val) (Sub : field -> Prop).
Hypothesis REC : forall r r' f v, Sub f -> twin r r' -> ready r -> no_form v ->
  calm (r_pid r) (r_pid r') (rec r f v) (rec' r' f v).

Lemma calm_map_at r r' k f : Sub f -> twin r r' -> plain_key k -> ready r -> ready (r_at W r k) ->
  calm (r_pid r) (r_pid r') (rec (r_at W r k) f NONEv) (rec' (r_at W r' k) f NONEv).
Proof.
  intros D T K R R'. change (r_pid r) with (r_pid (r_at W r k)). change (r_pid r') with (r_pid (r_at W r' k)).
  apply REC; auto; [|discriminate]. now apply twin_at.
Qed.
Definition at_loc (r : rd) (v : val) : Prop := r_src r = src /\ r_val r = Ok v /\ Loc v.
Lemma loc_ready r v : at_loc r v -> ready r.
Proof. intros (_ & V & L) Q. rewrite V in Q. injection Q as ->. pose proof (rg_some _ _ _ _ RG _ L). discriminate. Qed.
Lemma loc_seq r v n i : at_loc r v -> psource_sequence E src v = Ok n -> 0 <= i < Z.of_nat n -> ready (r_at W r (KInt i)).
Proof.
  intros (S & H & L) Q B. destruct (rg_seq _ _ _ _ RG v n i L Q B) as (w & Hw & K).
  apply (ready_at r (KInt i) w); [|exact K]. unfold r_child. rewrite H, S. exact Hw.
Qed.
Lemma calm_list r r' f v : Sub f -> twin r r' -> at_loc r v -> forall n i acc total,
  psource_sequence E src v = Ok total -> 0 <= i -> i + Z.of_nat n <= Z.of_nat total ->
  calm (r_pid r) (r_pid r') (ev_list W rec r i n f acc) (ev_list W rec' r' i n f acc).
Proof.
  intros D T H. induction n as [|n IH]; intros i acc total Q P B; cbn [ev_list]; [apply calm_ret|].
  apply calm_bind.
  - apply calm_map_at; auto; [exact I|eapply loc_ready; eauto|eapply loc_seq; eauto; lia].
  - intros w. eapply IH; eauto; lia.
Qed.
Lemma calm_tuple r r' v : twin r r' -> at_loc r v -> forall fs i acc total, (forall f, In f fs -> Sub f) ->
  psource_sequence E src v = Ok total -> 0 <= i -> i + Z.of_nat (length fs) <= Z.of_nat total ->
  calm (r_pid r) (r_pid r') (ev_tuple W rec r i fs acc) (ev_tuple W rec' r' i fs acc).
Proof.
  intros T H. induction fs as [|f fs IH]; intros i acc total D Q P B; cbn [ev_tuple length] in *; [apply calm_ret|].
  apply calm_bind.
  - apply calm_map_at; [apply D; now left|auto|exact I|eapply loc_ready; eauto|eapply loc_seq; eauto; lia].
  - intros w. eapply IH; eauto; try lia. intros g I. apply D. now right.
Qed.
Definition fine_keys (r : rd) (l : list val) : Prop :=
  forall k, In k l -> plain_key (key_of_val k) /\ ready (r_at W r (key_of_val k)).
Lemma loc_map r v d l : at_loc r v -> psource_mapping E no_ents src d v = Ok (Ok l) -> fine_keys r l.
Proof.
  intros (S & H & L) Q k I. destruct (rg_map _ _ _ _ RG v d l k L Q I) as (P & w & Hw & K).
  split; [exact P|]. apply (ready_at r _ w); [|exact K]. unfold r_child. rewrite H, S. exact Hw.
Qed.
Lemma key_no_form k : plain_key (key_of_val k) -> no_form k.
Proof. intros P i ->. exact P. Qed.
Lemma calm_dict r r' kf vf : Sub kf -> Sub vf -> twin r r' -> ready r -> forall l acc, fine_keys r l ->
  calm (r_pid r) (r_pid r') (ev_dict W rec r None kf vf l acc) (ev_dict W rec' r' None kf vf l acc).
Proof.
  intros Dk Dv T R. induction l as [|k l IH]; intros acc GK; cbn [ev_dict]; [apply calm_ret|].
  assert (GK' : fine_keys r l) by (intros x I; apply GK; now right).
  destruct (GK k (or_introl eq_refl)) as [P SK].
  apply calm_bind; [apply calm_ret|intros b]. apply calm_if; [auto|].
  apply calm_bind; [now apply calm_map_at|intros v]. apply calm_if; [auto|].
  apply calm_bind; [apply REC; auto using key_no_form|intros k']. apply calm_if; [auto|]. apply calm_if; [auto|apply calm_raise].
Qed.
Lemma calm_group r r' g : (forall m f, In (m, f) g -> Sub f) -> twin r r' -> ready r -> forall l n acc, fine_keys r l ->
  calm (r_pid r) (r_pid r') (ev_group W rec r g l n acc) (ev_group W rec' r' g l n acc).
Proof.
  intros D T R. induction l as [|k l IH]; intros n acc GK; cbn [ev_group]; [apply calm_ret|].
  assert (GK' : fine_keys r l) by (intros x I; apply GK; now right).
  destruct (GK k (or_introl eq_refl)) as [P SK].
  apply calm_bind_if; [apply calm_lift|]. intros [[f c]|] (es & h & es2 & Hm); [|now apply IH].
  injection Hm as Hm _. destruct (group_In W g k f c Hm) as (m & Im).
  apply calm_bind; [apply calm_map_at; eauto|intros v]. now apply IH.
Qed.
Lemma on_val_is {A} r v (g : val -> res A) a : r_val r = Ok v ->
  (exists es h es2, on_val r g (es, h) = (Ok a, (es2, h))) -> g v = Ok a.
Proof. intros V (es & h & es2 & H). unfold on_val, elift in H. rewrite V in H. now injection H. Qed.
Lemma calm_parse r r' v k :
  match k with
  | KTuple fs => forall g, In g fs -> Sub g
  | KList g _ _ _ => Sub g
  | KDict kf vf keyf _ _ => Sub kf /\ Sub vf /\ keyf = None
  | KGroup l => forall m g, In (m, g) l -> Sub g
  | KSubForm _ _ _ | KPoly _ _ _ _ _ => False
  | _ => True
  end -> twin_f r r' -> at_loc r v ->
  calm (r_pid r) (r_pid r') (ev_parse W rec r k) (ev_parse W rec' r' k).
Proof.
  intros D TF H. pose proof (loc_ready _ _ H) as ST. pose proof H as (Hs & Hv & HL). pose proof (proj1 TF) as T.
  destruct k; cbn [ev_parse]; try contradiction; try (now apply calm_primitive).
  - now apply calm_decimal.
  - now apply calm_date.
  - now apply calm_time.
  - now apply calm_datetime.
  - apply calm_bind_if; [now apply calm_sequence|intros n Hn].
    apply (on_val_is _ _ _ _ Hv) in Hn. rewrite Hs in Hn.
    destruct (Nat.eqb_spec n (length fs)) as [->|_]; [|now apply calm_invalid].
    apply calm_bind; [|intros; apply calm_ret]. eapply calm_tuple; eauto; lia.
  - unfold ev_sequence, on_val. rewrite Hv, (tw_val _ _ T), Hv, (tw_src _ _ T), (tw_src' _ _ T). apply calm_catch_lift.
    destruct (psource_sequence (w_env W) src v) as [n|e] eqn:Hx.
    + apply calm_bind; [|intros; apply calm_ret]. eapply calm_list; eauto; lia.
    + destruct e; try apply calm_raise. apply calm_if; [|apply calm_raise].
      apply calm_bind; [apply REC; auto; discriminate|intros; apply calm_ret].
  - destruct D as (Dk & Dv & ->). apply calm_bind_if; [now apply calm_mapping|intros vw Hw].
    apply (on_val_is _ _ _ _ Hv) in Hw. rewrite Hs in Hw.
    apply calm_bind_if; [apply calm_lift|intros l (es & h & es2 & Hl)]. unfold elift in Hl. injection Hl as -> _.
    apply calm_bind; [|intros; apply calm_ret]. apply calm_dict; auto. eapply loc_map; eauto.
  - now apply calm_code.
  - now apply calm_uuid.
  - apply calm_bind_if; [now apply calm_mapping|intros vw Hw].
    apply (on_val_is _ _ _ _ Hv) in Hw. rewrite Hs in Hw.
    apply calm_bind_if; [apply calm_lift|intros ks (es & h & es2 & Hl)]. unfold elift in Hl. injection Hl as -> _.
    apply calm_group; auto. eapply loc_map; eauto.
Qed.
Lemma catch_ok {A B} (m : Ev A) (g : res A -> Ev B) s b s2 : ecatch m g s = (Ok b, s2) -> exists a s1, m s = (a, s1) /\ g a s1 = (Ok b, s2).
Proof. unfold ecatch. destruct (m s) as [a s1]. eauto. Qed.
Lemma bind_ok {A B} (m : Ev A) (g : A -> Ev B) s b s2 : ebind m g s = (Ok b, s2) -> exists a s1, m s = (Ok a, s1) /\ g a s1 = (Ok b, s2).
Proof. unfold ebind. destruct (m s) as [[a|e] s1]; [eauto|discriminate]. Qed.
Lemma invalid_value r x s w s2 : ev_invalid W r x s = (Ok w, s2) -> w = ERRORv.
Proof. intros H. apply bind_ok in H. destruct H as (a & s1 & _ & H). now injection H. Qed.
Lemma parse_measured r k s w s2 : r_src r = src -> measured k = true -> ev_parse W rec r k s = (Ok w, s2) -> ignored w = false -> no_form w.
Proof.
  intros RS M. destruct k; try discriminate; cbn [ev_parse]; intros H N.
  - unfold ev_primitive, on_val, elift in H. rewrite RS in H. destruct (r_val r) as [v|e]; [|discriminate].
    injection H as H _. destruct (STR v w H) as (x & ->). discriminate.
  - apply catch_ok in H. destruct H as (a & s1 & _ & H). destruct a as [n|e].
    + apply bind_ok in H. destruct H as (l & s3 & _ & H). injection H as <- _. discriminate.
    + destruct e; try discriminate. match type of H with (if ?b then _ else _) _ = _ => destruct b; try discriminate end.
      apply bind_ok in H. destruct H as (l & s3 & _ & H). injection H as <- _.
      destruct (ignored l) eqn:I; [congruence|discriminate].
  - apply bind_ok in H. destruct H as (vw & s1 & _ & H). apply bind_ok in H. destruct H as (l & s3 & _ & H).
    apply bind_ok in H. destruct H as (d & s4 & _ & H). injection H as <- _. discriminate.
Qed.
Lemma calm_compute r r' f : tame_opts (f_opts f) ->
  match f_kind f with
  | KTuple fs => forall g, In g fs -> Sub g
  | KList g _ _ _ => Sub g
  | KDict kf vf keyf _ _ => Sub kf /\ Sub vf /\ keyf = None
  | KGroup l => forall m g, In (m, g) l -> Sub g
  | KSubForm _ _ _ | KPoly _ _ _ _ _ => False
  | _ => True
  end -> twin_f r r' ->
  calm (r_pid r) (r_pid r') (ev_compute W rec r f) (ev_compute W rec' r' f).
Proof.
  intros TO D T. unfold ev_compute. rewrite (to_parse _ TO).
  apply calm_bind_if; [now apply calm_exists|]. intros b Hb.
  destruct (r_val r) as [v|e] eqn:V.
  2:{ destruct Hb as (es & h & es2 & Hb). unfold ev_exists, on_val, elift in Hb. rewrite V in Hb. discriminate. }
  apply (on_val_is _ _ _ _ V) in Hb. injection Hb as <-. rewrite Bool.negb_involutive.
  destruct (is_NONE v) eqn:N; [apply calm_ret|].
  assert (L : at_loc r v).
  { split; [apply (tw_src _ _ (proj1 T))|]. split; [exact V|]. destruct (tw_loc _ _ (proj1 T) v V) as [->|L]; [discriminate|exact L]. }
  apply calm_bind; [now apply calm_null|intros nl]. apply calm_if; [apply calm_ret|].
  apply calm_catch_if; [eapply calm_parse; eauto|]. intros [w|e] [w'|e'] L' _; cbn in L'; try contradiction; [subst; apply calm_ret|].
  assert (SP : spoken e' = spoken e) by exact (alike_spoken md e e' L').
  assert (CC : caught_by_compute e' = caught_by_compute e) by (destruct e, e'; try discriminate; reflexivity). rewrite CC, SP.
  apply calm_if; [now apply calm_invalid|now apply calm_fail].
Qed.
Lemma compute_measured r f s w s2 : tame_opts (f_opts f) -> r_src r = src -> measured (f_kind f) = true ->
  ev_compute W rec r f s = (Ok w, s2) -> ignored w = false -> no_form w.
Proof.
  intros TO RS M H N. unfold ev_compute in H. rewrite (to_parse _ TO) in H.
  apply bind_ok in H. destruct H as (ex & s1 & _ & H). destruct (negb ex); [injection H as <- _; discriminate|].
  apply bind_ok in H. destruct H as (nl & s3 & _ & H). destruct nl; [injection H as <- _; discriminate|].
  apply catch_ok in H. destruct H as ([a|e] & s4 & Hp & H).
  - injection H as <- _. eapply parse_measured; eauto.
  - destruct (caught_by_compute e); [|discriminate]. apply invalid_value in H. subst. discriminate.
Qed.
Lemma calm_body r r' f v : tame_opts (f_opts f) ->
  match f_kind f with
  | KTuple fs => forall g, In g fs -> Sub g
  | KList g _ _ _ => Sub g
  | KDict kf vf keyf _ _ => Sub kf /\ Sub vf /\ keyf = None
  | KGroup l => forall m g, In (m, g) l -> Sub g
  | KSubForm _ _ _ | KPoly _ _ _ _ _ => False
  | _ => True
  end -> twin_f r r' -> no_form v ->
  calm (r_pid r) (r_pid r') (ev_body W rec r f v) (ev_body W rec' r' f v).
Proof.
  intros TO D T NF. unfold ev_body. rewrite (to_compute _ TO).
  apply calm_if; [|apply calm_after; auto].
  apply calm_bind_if; [now apply calm_compute|]. intros w (es & h & es2 & Hw).
  destruct (is_NONE w).
  - pose proof (to_default _ TO) as DD. pose proof (calm_default r r' T f TO) as CD.
    destruct (o_default (f_opts f)) as [[g|]|x|q]; try contradiction; exact CD.
  - destruct (ignored w) eqn:I; [apply calm_ret|]. apply calm_after; auto. intros M.
    eapply compute_measured; eauto. apply (tw_src _ _ (proj1 T)).
Qed.
Lemma calm_field_body r r' f v : tame_opts (f_opts f) ->
  match f_kind f with
  | KTuple fs => forall g, In g fs -> Sub g
  | KList g _ _ _ => Sub g
  | KDict kf vf keyf _ _ => Sub kf /\ Sub vf /\ keyf = None
  | KGroup l => forall m g, In (m, g) l -> Sub g
  | KSubForm _ _ _ | KPoly _ _ _ _ _ => False
  | _ => True
  end -> twin r r' -> ready r -> no_form v ->
  calm (r_pid r) (r_pid r') (ev_field_body W rec r f v) (ev_field_body W rec' r' f v).
Proof.
  intros TO D T R NF. unfold ev_field_body, ev_where. rewrite (to_resolve _ TO), (to_attach _ TO). cbn [andb].
  apply calm_bind_if; [apply calm_if; apply calm_ret|]. intros k (es & h & es2 & Hk).
  assert (PK : forall x, k = Some x -> plain_key x).
  { intros x ->. destruct (is_NONE v); [|discriminate]. injection Hk as Hk _.
    assert (Hx : o_src (f_opts f) = Some x) by (destruct (f_kind f); congruence).
    pose proof (to_src _ TO x Hx). now destruct x. }
  apply calm_bind; [|intros w; apply calm_bind; intros; apply calm_ret].
  destruct k as [k|].
  - apply (calm_body (r_at W (r_for r f) k) (r_at W (r_for r' f) k)); auto. apply twin_f_at; auto. now apply twin_for.
  - apply (calm_body (r_for r f) (r_for r' f)); auto. now apply twin_for.
Qed.
End Knot.
Lemma calm_field d : forall n m r r' f v, (n = m \/ (d <= n)%nat /\ (d <= m)%nat) -> tame d f -> twin r r' -> ready r -> no_form v ->
  calm (r_pid r) (r_pid r') (ev_field W n r f v) (ev_field W m r' f v).
Proof.
  induction d as [|d IH]; intros n m r r' f v B D T R NF; [contradiction|].
  destruct n as [|n], m as [|m]; try (exfalso; lia); [apply calm_raise|].
  cbn [ev_field]. destruct D as [TO D].
  apply (calm_field_body (ev_field W n) (ev_field W m) (tame d)); auto.
  intros. apply IH; auto. lia.
Qed.
End Tame.
