(** * CrashProofs: mapping a tame form over JSON raises nothing (C29). *)
From Verif Require Import PyBase PyStr Source Field Context Fields SpecSrc SrcPath SrcProofs Shape Balance Eval Refine Regime SpecForm SpecJson.
From Coq Require Import Lia.

Scheme tame_ind' := Induction for tame Sort Prop
  with tame_kind_ind' := Induction for tame_kind Sort Prop
  with tame_form_ind' := Induction for tame_form Sort Prop.
Combined Scheme tame_mutind from tame_ind', tame_kind_ind', tame_form_ind'.

(** ** Steps that never crash *)
Definition sf {A} (m : mode) (x : Ev A) : Prop := forall s, no_crash m (fst (x s)).
Definition sfv {A} (m : mode) (Q : A -> Prop) (x : Ev A) : Prop :=
  forall s, no_crash m (fst (x s)) /\ forall a, fst (x s) = Ok a -> Q a.
Lemma sf_ret {A} m (a : A) : sf m (eret a). Proof. intros s. exact I. Qed.
Lemma sf_bind {A B} m (x : Ev A) (k : A -> Ev B) : sf m x -> (forall a, sf m (k a)) -> sf m (ebind x k).
Proof.
  intros X K s. unfold ebind. specialize (X s). destruct (x s) as [[a|e] s']; [apply K|]. exact X.
Qed.
Lemma sfv_bind {A B} m (Q : A -> Prop) (R : B -> Prop) (x : Ev A) (k : A -> Ev B) :
  sfv m Q x -> (forall a, Q a -> sfv m R (k a)) -> sfv m R (ebind x k).
Proof.
  intros X K s. unfold ebind. destruct (X s) as [X1 X2]. destruct (x s) as [[a|e] s']; cbn [fst] in *; [exact (K a (X2 a eq_refl) s')|].
  split; [exact X1|discriminate].
Qed.
Lemma sfv_ret {A} m (Q : A -> Prop) (a : A) : Q a -> sfv m Q (eret a).
Proof. intros H s. split; [exact I|]. now intros b [= <-]. Qed.
Lemma sfv_sf {A} m (Q : A -> Prop) (x : Ev A) : sfv m Q x -> sf m x.
Proof. intros H s. exact (proj1 (H s)). Qed.
Lemma sf_sfv {A} m (x : Ev A) : sf m x -> sfv m (fun _ => True) x.
Proof. intros H s. split; [exact (H s)|]. auto. Qed.
Lemma sfv_weak {A} m (Q R : A -> Prop) (x : Ev A) : (forall a, Q a -> R a) -> sfv m Q x -> sfv m R x.
Proof. intros QR H s. destruct (H s) as [H1 H2]. split; [exact H1|]. intros a X. exact (QR a (H2 a X)). Qed.

(** ** Where JSON is read *)
Record calm (r : rd) : Prop := {
  cm_src : exists d st loc, r_src r = SJson d st loc;
  cm_keys : Forall plain_key (r_keys r);
  cm_val : exists v, r_val r = Ok v /\ (json_val v = true \/ v = VConst NONE)
}.
Lemma rest_str_plain ks : Forall plain_key ks -> exists t, rest_str ks = Ok t.
Proof.
  induction 1 as [|k ks K _ (t & IH)]; cbn [rest_str]; [eauto|]. rewrite IH. destruct k; [eauto|eauto|contradiction].
Qed.
Lemma pkeys_str_plain E src ks : Forall plain_key ks -> exists t, pkeys_str E src ks = Ok t.
Proof.
  intros H. unfold pkeys_str, keys_str. destruct H as [|k ks K H]; [eauto|]. destruct (rest_str_plain ks H) as (t & ->). eauto.
Qed.
Section Crash.
Variable W : world.
Let E := w_env W.

Lemma child_calm r k : calm r -> plain_key k -> exists w, r_child W r k = Ok w /\ (json_val w = true \/ w = VConst NONE).
Proof.
  intros [(d & st & loc & S) _ (v & V & J)] K. unfold r_child. rewrite V, S.
  destruct J as [J| ->]; cbn [psource_resolve].
  - destruct (json_resolve_steps E no_ents v k J K) as [Q G]. fold E. rewrite Q. eexists. split; [reflexivity|].
    destruct (json_steps v (key_steps k)) as [w|]; cbn [none_or]; auto.
  - pose proof (json_absorbs E no_ents d st loc k K) as A. cbn [psource_resolve] in A. fold E. rewrite A. eauto.
Qed.
Lemma at_calm r k : calm r -> plain_key k -> calm (r_at W r k).
Proof.
  intros C K. destruct (child_calm r k C K) as (w & Q & J). destruct C as [S P V]. split; cbn [r_at r_src r_keys r_val].
  - exact S.
  - apply Forall_app. auto.
  - eauto.
Qed.
Lemma for_calm r f : calm r -> calm (r_for r f).
Proof. intros [A B C]. split; assumption. Qed.
Lemma inform_calm r id : calm r -> calm (r_inform r id).
Proof. intros [A B C]. split; assumption. Qed.
Lemma collecting_calm r m : calm r -> calm (r_collecting r m).
Proof. intros [A B C]. split; assumption. Qed.

Lemma report_sf r kd : calm r -> (exists n, r_field r = Ok n) -> sf (r_mode r) (ev_report W r kd).
Proof.
  intros [_ P _] (n & N) [es h]. unfold ev_report. rewrite N. destruct (pkeys_str_plain (w_env W) (r_src r) _ P) as (t & ->).
  destruct (r_mode r); cbn [fst]; [exact I|]. cbn. destruct es; reflexivity.
Qed.
Lemma invalid_sf r x (Q : val -> Prop) : calm r -> (exists n, r_field r = Ok n) -> Q ERRORv -> sfv (r_mode r) Q (ev_invalid W r x).
Proof. intros C F H. eapply sfv_bind; [apply sf_sfv, report_sf; assumption|]. intros _ _. now apply sfv_ret. Qed.
Lemma missing_sf r (Q : val -> Prop) : calm r -> (exists n, r_field r = Ok n) -> Q NOTSETv -> sfv (r_mode r) Q (ev_missing W r).
Proof.
  intros C F H. eapply sfv_bind; [apply sf_sfv; destruct (r_igm r); [apply sf_ret|now apply report_sf]|]. intros _ _. now apply sfv_ret.
Qed.
Lemma default_sf r f (Q : val -> Prop) : calm r -> (exists n, r_field r = Ok n) -> tame_opts (f_opts f) ->
  Q NOTSETv -> (forall v, o_default (f_opts f) = DVal v -> Q v) -> sfv (r_mode r) Q (ev_default W r f).
Proof.
  intros C F T H1 H2. unfold ev_default. destruct (r_igd r); [now apply missing_sf|].
  destruct (tm_default _ T) as [D|(v & D)]; rewrite D; [now apply missing_sf|].
  specialize (H2 v D). destruct v; try (now apply sfv_ret). destruct c; try (now apply sfv_ret). now apply missing_sf.
Qed.

(** The values a kind can have, and which its checks accept or reject without crashing. *)
Definition fits (k : kind) (v : val) : Prop :=
  ignored v = true \/ v = VNone \/
  match k with
  | KString _ => exists s, v = VStr s
  | KInteger _ _ => exists z, v = VInt z
  | KDate _ _ _ => exists z, v = VDate z
  | KTime _ _ _ => exists z, v = VTime z
  | KDatetime _ _ _ => exists z, v = VDatetime z
  | KList _ _ _ _ => exists l, v = VList l
  | KDict _ _ _ _ _ => exists l, v = VDict l
  | KFloat _ _ | KDecimal _ _ | KPoly _ _ _ _ _ => False
  | _ => True
  end.
Lemma below_ok o mk v : (forall b, o = Some b -> exists x, py_lt v b = Ok x) -> exists x, vio_below o mk v = Ok x.
Proof. intros H. unfold vio_below. destruct o as [b|]; [|eauto]. destruct (H b eq_refl) as (x & ->). destruct x; eauto. Qed.
Lemma above_ok o mk v : (forall b, o = Some b -> exists x, py_lt b v = Ok x) -> exists x, vio_above o mk v = Ok x.
Proof. intros H. unfold vio_above. destruct o as [b|]; [|eauto]. destruct (H b eq_refl) as (x & ->). destruct x; eauto. Qed.
Lemma vand_ok a b : (exists x, a = Ok x) -> (exists x, b = Ok x) -> exists x, vand a b = Ok x.
Proof. intros (x & ->) (y & ->). destruct x; cbn; eauto. Qed.
Lemma fits_ok ents f v : fits (f_kind f) v -> ignored v = false -> (tame_kind (f_kind f)) -> exists x, field_violation E ents f v = Ok x.
Proof.
  intros F G T. unfold field_violation. destruct (vio_null f v) as [x|]; [eauto|].
  destruct F as [F|[-> |F]]; [congruence|eauto|].
  assert (X : exists x, vio_kind E ents f v = Ok x).
  { unfold vio_kind. destruct T as [|c|lo hi L H| |fm lo hi L H|fm lo hi L H|fm lo hi L H|fs T|g lo hi a T|kf vf rq mx RQ TK T| | |t rs u T U|l T]; eauto; cbn [fits] in F.
    - destruct F as (s & ->). repeat apply vand_ok.
      + unfold vio_alphabet. destruct (sc_alphabet c); [eauto|]. destruct (bad_chars _ s); eauto.
      + unfold vio_min_len. destruct (sc_min c); cbn; eauto.
      + unfold vio_max_len. destruct (sc_max c); cbn; eauto.
      + unfold vio_pattern. destruct (sc_pattern c); [|eauto]. destruct (e_re E _ s); eauto.
      + unfold vio_choices. destruct (sc_choices c); [eauto|]. destruct (py_in _ _); eauto.
    - destruct F as (z & ->). apply vand_ok; [apply below_ok|apply above_ok].
      + intros b Hb. destruct (L b Hb) as (y & ->). cbn. eauto.
      + intros b Hb. destruct (H b Hb) as (y & ->). cbn. eauto.
    - destruct F as (z & ->). apply vand_ok; [apply below_ok|apply above_ok]; intros b Hb; [destruct (L b Hb) as (y & ->)|destruct (H b Hb) as (y & ->)]; cbn; eauto.
    - destruct F as (z & ->). apply vand_ok; [apply below_ok|apply above_ok]; intros b Hb; [destruct (L b Hb) as (y & ->)|destruct (H b Hb) as (y & ->)]; cbn; eauto.
    - destruct F as (z & ->). apply vand_ok; [apply below_ok|apply above_ok]; intros b Hb; [destruct (L b Hb) as (y & ->)|destruct (H b Hb) as (y & ->)]; cbn; eauto.
    - destruct F as (l & ->). apply vand_ok; [unfold vio_min_len; destruct lo; cbn; eauto|unfold vio_max_len; destruct hi; cbn; eauto].
    - destruct F as (l & ->). apply vand_ok.
      + unfold vio_required, keys_required. destruct rq as [|r rq]; [eauto|]. destruct (filter _ _) as [|x xs] eqn:FL; [eauto|].
        replace (forallb is_text (x :: xs)) with true; [eauto|]. symmetry. rewrite <- FL. apply forallb_forall. intros k I.
        apply filter_In in I. destruct (RQ k (proj1 I)) as (y & ->). reflexivity.
      + unfold vio_max_keys. destruct mx as [[|p|p]|]; cbn; eauto. }
  destruct v; try exact X. eauto.
Qed.
Lemma validate_sf r f v : calm r -> (exists n, r_field r = Ok n) -> tame_kind (f_kind f) -> fits (f_kind f) v -> ignored v = false ->
  sf (r_mode r) (ev_validate W r f v).
Proof.
  intros C F T FT G s. unfold ev_validate. destruct (fits_ok (hents (snd s)) f v FT G T) as ([x|] & Q); unfold E in Q; rewrite Q; [|exact I].
  exact (sf_bind _ _ _ (report_sf r _ C F) (fun _ => sf_ret _ _) s).
Qed.
Lemma after_sf r f v (Q : val -> Prop) : calm r -> (exists n, r_field r = Ok n) -> tame_opts (f_opts f) -> tame_kind (f_kind f) -> fits (f_kind f) v ->
  Q v -> Q NOTSETv -> Q ERRORv -> (forall v, o_default (f_opts f) = DVal v -> Q v) ->
  sfv (r_mode r) Q (ev_after W r f v).
Proof.
  intros C F T TK FT Q1 Q2 Q3 Q4. unfold ev_after, ev_translate, ev_hook_or.
  rewrite (tm_translations _ T), (tm_munge _ T), (tm_filter _ T), (tm_validate _ T).
  eapply sfv_bind with (Q := fun w => w = v); [now apply sfv_ret|]. intros ? ->.
  eapply sfv_bind with (Q := fun w => w = v); [destruct (ignored v); now apply sfv_ret|]. intros ? ->.
  destruct (is_NONE v); [now apply default_sf|]. destruct (ignored v) eqn:G; [now apply sfv_ret|].
  destruct (negb (field_filter f v)); [now apply default_sf|].
  eapply sfv_bind with (Q := fun _ => True); [now apply sfv_ret|]. intros [] _; cbn [negb]; [|now apply default_sf].
  eapply sfv_bind; [apply sf_sfv; now apply validate_sf|]. intros [] _; cbn [negb]; [|now apply sfv_ret].
  eapply sfv_bind with (Q := fun _ => True); [now apply sfv_ret|]. intros [] _; now apply sfv_ret.
Qed.

(** Parsing may also raise what [Field._compute] catches. *)
Definition pc {A} (Q : A -> Prop) (x : Ev A) : Prop :=
  forall s, match fst (x s) with Ok a => Q a | Exn e => caught_by_compute e = true end.
Lemma sfv_pc {A} m (Q : A -> Prop) (x : Ev A) : sfv m Q x -> pc Q x.
Proof. intros H s. destruct (H s) as [H1 H2]. destruct (fst (x s)) as [a|e]; [now apply H2|]. destruct e; try contradiction. reflexivity. Qed.
Lemma pc_ret {A} (Q : A -> Prop) (a : A) : Q a -> pc Q (eret a). Proof. intros H s. exact H. Qed.
Lemma pc_raise {A} (Q : A -> Prop) e : caught_by_compute e = true -> pc Q (@eraise A e). Proof. intros H s. exact H. Qed.
Lemma pc_bind {A B} (Q : A -> Prop) (R : B -> Prop) (x : Ev A) (k : A -> Ev B) : pc Q x -> (forall a, Q a -> pc R (k a)) -> pc R (ebind x k).
Proof. intros X K s. unfold ebind. specialize (X s). destruct (x s) as [[a|e] s']; cbn [fst] in *; [exact (K a X s')|exact X]. Qed.
Lemma pc_weak {A} (Q R : A -> Prop) (x : Ev A) : (forall a, Q a -> R a) -> pc Q x -> pc R x.
Proof. intros H X s. specialize (X s). destruct (fst (x s)); auto. Qed.
Lemma pc_sf {A} m (Q : A -> Prop) (x : Ev A) : sf m x -> (forall a, Q a) -> pc Q x.
Proof. intros H X. apply (sfv_pc m). eapply sfv_weak; [|apply sf_sfv, H]. auto. Qed.

Lemma value_pc r : calm r -> pc (fun v => json_val v = true \/ v = VConst NONE) (ev_value r).
Proof. intros [_ _ (v & V & J)] s. unfold ev_value, on_val, elift. rewrite V. exact J. Qed.
Lemma primitive_pc r t : calm r ->
  match t with TyFloat => True | _ =>
  pc (fun v => match t with TyStr => exists s, v = VStr s | TyInt => exists z, v = VInt z | TyBool => exists b, v = VBool b | _ => json_val v = true \/ v = VConst NONE end)
     (ev_primitive W r t) end.
Proof.
  intros [(d & st & loc & S) _ (v & V & J)]. destruct t; auto; intros s; unfold ev_primitive, on_val, elift; rewrite V, S; cbn [fst psource_parse json_parse].
  - unfold json_as_string. destruct v; cbn; eauto; destruct st; cbn; eauto.
  - unfold json_as_int. destruct v; cbn; eauto.
    + destruct st; [reflexivity|]. destruct (float_is_integer _); [eauto|reflexivity].
    + destruct st; [reflexivity|]. destruct (parse_int _); [eauto|reflexivity].
  - unfold json_as_bool. destruct v; cbn; eauto. destruct st; cbn; eauto.
  - exact J.
Qed.
Lemma sequence_pc r : calm r -> pc (fun _ => True) (ev_sequence W r).
Proof. intros [(d & st & loc & S) _ (v & V & J)] s. unfold ev_sequence, on_val, elift. rewrite V, S. cbn. destruct v; reflexivity || exact I. Qed.
Definition strings (vw : view) : Prop := exists l, vw = Ok l /\ Forall (fun k => exists s, k = VStr s) l.
Lemma mapping_pc r : calm r -> pc strings (ev_mapping W r).
Proof.
  intros [(d & st & loc & S) _ (v & V & J)] s. unfold ev_mapping, on_val, elift. rewrite V, S. cbn [fst psource_mapping].
  destruct J as [J| ->]; [|reflexivity]. destruct v; try reflexivity; try discriminate. cbn [keys_view]. eexists. split; [reflexivity|].
  cbn in J. rewrite forallb_forall in J. apply Forall_forall. intros k H. apply in_map_iff in H. destruct H as ([a b] & <- & H). specialize (J _ H). cbn in J. cbn [fst].
  destruct a; try discriminate. eauto.
Qed.
Lemma elift_pc {A} (Q : A -> Prop) (a : A) : Q a -> pc Q (elift (Ok a)). Proof. intros H s. exact H. Qed.
Lemma need_str_pc v : (exists s, v = VStr s) -> pc (fun _ => True) (ev_need_str v).
Proof. intros (s & ->). now apply pc_ret. Qed.
Lemma str_pc r : calm r -> pc (fun v => exists s, v = VStr s) (ev_primitive W r TyStr).
Proof. intros C. exact (primitive_pc r TyStr C). Qed.
Lemma invalid_pc r x (Q : val -> Prop) : calm r -> (exists n, r_field r = Ok n) -> Q ERRORv -> pc Q (ev_invalid W r x).
Proof. intros. eapply sfv_pc. now apply invalid_sf. Qed.
Lemma try_date_none fmts s : try_date W fmts s = VNone \/ exists z, try_date W fmts s = VDate z.
Proof.
  induction fmts as [|fm fmts IH]; cbn [try_date]; [auto|]. destruct (if String.eqb fm "iso8601" then _ else _); eauto.
Qed.
Lemma leaf_pc n r k : calm r -> (exists n, r_field r = Ok n) ->
  match k with KTuple _ | KList _ _ _ _ | KDict _ _ _ _ _ | KSubForm _ _ _ | KGroup _ | KFloat _ _ | KDecimal _ _ | KPoly _ _ _ _ _ => True
  | _ => pc (fits k) (ev_parse W (ev_field W n) r k) end.
Proof.
  intros C F. destruct k; auto; cbn [ev_parse].
  - eapply pc_weak; [|exact (primitive_pc r TyAuto C)]. intros v _. right. right. exact I.
  - eapply pc_weak; [|exact (str_pc r C)]. intros v H. right. right. exact H.
  - eapply pc_weak; [|exact (primitive_pc r TyInt C)]. intros v H. right. right. exact H.
  - eapply pc_weak; [|exact (primitive_pc r TyBool C)]. intros v H. right. right. exact I.
  - unfold ev_date. eapply pc_bind; [exact (value_pc r C)|]. intros v J.
    assert (X : pc (fits (KDate fmts after before)) (w <~ ev_primitive W r TyStr; match fmts with [] => ev_invalid W r (VioFormat w) | _ => s <~ ev_need_str w; eret (try_date W fmts s) end)).
    { eapply pc_bind; [exact (str_pc r C)|]. intros w H. destruct fmts as [|fm fmts]; [apply invalid_pc; auto; now left|].
      eapply pc_bind; [exact (need_str_pc w H)|]. intros s _. apply pc_ret. right. destruct (try_date_none (fm :: fmts) s) as [-> |(z & ->)]; [now left|right; eauto]. }
    destruct v; try exact X; destruct J as [J|J]; discriminate.
  - unfold ev_time. eapply pc_bind; [exact (value_pc r C)|]. intros v J.
    assert (X : pc (fits (KTime fmt after before)) (w <~ ev_primitive W r TyStr;
      match fmt with None => ev_invalid W r (VioFormat w)
      | Some fm => s <~ ev_need_str w; match e_strptime_time (w_env W) s fm with Some t => eret (VTime t) | None => eraise (EValue "time data does not match format") end end)).
    { eapply pc_bind; [exact (str_pc r C)|]. intros w H. destruct fmt as [fm|]; [|apply invalid_pc; auto; now left].
      eapply pc_bind; [exact (need_str_pc w H)|]. intros s _. destruct (e_strptime_time (w_env W) s fm); [apply pc_ret; right; right; eauto|now apply pc_raise]. }
    destruct v; try exact X; destruct J as [J|J]; discriminate.
  - unfold ev_datetime. eapply pc_bind; [exact (value_pc r C)|]. intros v J.
    assert (X : pc (fits (KDatetime fmt after before)) (w <~ ev_primitive W r TyStr;
      match fmt with None => ev_invalid W r (VioFormat w)
      | Some fm => s <~ ev_need_str w;
          if String.eqb fm "iso8601" then match e_iso (w_env W) s with Some t => eret (VDatetime t) | None => ev_invalid W r (VioText "Unable to parse date string") end
          else match e_strp (w_env W) s fm with Some t => eret (VDatetime t) | None => eraise (EValue "time data does not match format") end end)).
    { eapply pc_bind; [exact (str_pc r C)|]. intros w H. destruct fmt as [fm|]; [|apply invalid_pc; auto; now left].
      eapply pc_bind; [exact (need_str_pc w H)|]. intros s _. destruct (String.eqb fm "iso8601").
      - destruct (e_iso (w_env W) s); [apply pc_ret; right; right; eauto|apply invalid_pc; auto; now left].
      - destruct (e_strp (w_env W) s fm); [apply pc_ret; right; right; eauto|now apply pc_raise]. }
    destruct v; try exact X; destruct J as [J|J]; discriminate.
  - unfold ev_code. eapply pc_bind; [exact (primitive_pc r TyAuto C)|]. intros v _.
    assert (Y : forall w, fits KCode w) by (intros w; right; right; exact I).
    destruct v; try (now apply pc_ret). destruct (has_char newline s).
    + destruct (e_compile _ s); [now apply pc_ret|now apply invalid_pc].
    + destruct (e_import _ s) as [[]|]; [now apply pc_ret|now apply invalid_pc|now apply invalid_pc].
  - unfold ev_uuid. eapply pc_bind; [exact (primitive_pc r TyAuto C)|]. intros v _.
    assert (Y : forall w, fits KUUID w) by (intros w; right; right; exact I).
    assert (X : pc (fits KUUID) (w <~ ev_primitive W r TyStr;
      match w with
      | VStr s => match e_uuid (w_env W) s with Some u => eret u | None => eraise (EValue "badly formed hexadecimal UUID string") end
      | _ => eraise (EAttr "no attribute 'replace'")
      end)).
    { eapply pc_bind; [exact (str_pc r C)|]. intros w (s & ->).
      destruct (e_uuid _ s); [now apply pc_ret|now apply pc_raise]. }
    destruct v; try exact X. destruct (String.eqb cls "UUID"); [now apply pc_ret|exact X].
Qed.

(** ** Fields *)
Definition safe (n : nat) (f : field) : Prop := forall r, calm r -> sf (r_mode r) (ev_field W n r f NONEv).
Definition in_time (f : field) : Prop := exists N, forall n, (N <= n)%nat -> safe n f.
Lemma all_in_time fs : (forall f, In f fs -> in_time f) -> exists N, forall n, (N <= n)%nat -> forall f, In f fs -> safe n f.
Proof.
  induction fs as [|f fs IH]; intros H; [exists O; intros n _ f []|].
  destruct (H f (or_introl eq_refl)) as (N1 & H1). destruct IH as (N2 & H2); [intros g G; apply H; now right|].
  exists (N1 + N2)%nat. intros n L g [<-|G]; [apply H1; lia|apply H2; [lia|exact G]].
Qed.
Lemma parsed_safe n r f : calm r -> (exists a, r_field r = Ok a) -> tame_opts (f_opts f) -> tame_kind (f_kind f) ->
  pc (fits (f_kind f)) (ev_parse W (ev_field W n) r (f_kind f)) -> sf (r_mode r) (ev_body W (ev_field W n) r f NONEv).
Proof.
  intros C F T TK P. unfold ev_body. cbn [is_NONE NONEv]. rewrite (tm_compute _ T).
  apply sfv_sf with (Q := fun _ => True). eapply sfv_bind with (Q := fits (f_kind f)).
  - unfold ev_compute. rewrite (tm_parse _ T). destruct (cm_val _ C) as (v & V & J). unfold ev_exists, ev_null, on_val, elift, ebind. rewrite V.
    intros s. destruct (negb (negb (is_NONE v))); [apply sfv_ret; now left|]. destruct (is_None v); [apply sfv_ret; right; now left|].
    unfold ecatch. specialize (P s). destruct (ev_parse W (ev_field W n) r (f_kind f) s) as [[a|e] s']; cbn [fst] in P.
    + now apply sfv_ret.
    + rewrite P. apply invalid_sf; auto. now left.
  - intros v FT. destruct (is_NONE v).
    + destruct (tm_default _ T) as [D|(w & D)]; [|rewrite D]; [|apply default_sf; auto].
      destruct (o_default (f_opts f)) as [[h|]| |] eqn:Q; try discriminate. apply default_sf; auto.
    + destruct (ignored v) eqn:G; [now apply sfv_ret|]. apply after_sf; auto.
Qed.
Lemma field_sf n r f : calm r -> tame_opts (f_opts f) -> tame_kind (f_kind f) ->
  (forall r', calm r' -> (exists a, r_field r' = Ok a) -> pc (fits (f_kind f)) (ev_parse W (ev_field W n) r' (f_kind f))) ->
  sf (r_mode r) (ev_field W (S n) r f NONEv).
Proof.
  intros C T TK P. cbn [ev_field]. unfold ev_field_body. cbn [is_NONE NONEv]. unfold ev_where. rewrite (tm_resolve _ T), (tm_parent _ T). cbn [andb].
  set (ko := match f_kind f with KGroup _ => None | _ => o_src (f_opts f) end).
  assert (KO : forall k, ko = Some k -> plain_key k) by (intros k Q; apply (tm_src _ T); unfold ko in Q; destruct (f_kind f); congruence).
  set (r1 := match ko with Some k0 => r_at W (r_for r f) k0 | None => r_for r f end).
  assert (C1 : calm r1). { unfold r1. destruct ko as [k|]; [apply at_calm; [now apply for_calm|now apply KO]|now apply for_calm]. }
  assert (F1 : exists a, r_field r1 = Ok a) by (unfold r1; destruct ko; eexists; reflexivity).
  assert (M1 : r_mode r1 = r_mode r) by (unfold r1; destruct ko; reflexivity).
  assert (B : sf (r_mode r) (v <~ ev_body W (ev_field W n) r1 f NONEv; eret tt;;; eret v)).
  { apply sf_bind; [|intros a; apply sf_bind; [apply sf_ret|intros; apply sf_ret]]. rewrite <- M1. apply parsed_safe; auto. }
  exact B.
Qed.
Lemma key_sfv n r f k : calm r -> tame_key f -> sfv (r_mode r) (fun v => hashable v = true) (ev_field W (S n) r f (VStr k)).
Proof.
  intros C [o kd T K D]. cbn [ev_field]. unfold ev_field_body. cbn [is_NONE f_opts]. rewrite (tm_parent _ T). cbn [andb].
  assert (B : sfv (r_mode r) (fun v => hashable v = true) (v <~ ev_body W (ev_field W n) (r_for r (MkField o kd)) (MkField o kd) (VStr k); eret tt;;; eret v)).
  { eapply sfv_bind with (Q := fun v => hashable v = true); [|intros a H; eapply sfv_bind with (Q := fun _ => True); [now apply sfv_ret|intros; now apply sfv_ret]].
    unfold ev_body. cbn [is_NONE]. change (r_mode r) with (r_mode (r_for r (MkField o kd))).
    apply after_sf; auto; [now apply for_calm|eexists; reflexivity| |].
    - cbn [f_kind]. destruct K as [-> |(c & ->)]; constructor.
    - cbn [f_kind]. right. right. destruct K as [-> |(c & ->)]; cbn; eauto. }
  exact B.
Qed.
Lemma tuple_sf n fs : (forall f, In f fs -> safe n f) -> forall r i acc, calm r -> sf (r_mode r) (ev_tuple W (ev_field W n) r i fs acc).
Proof.
  induction fs as [|f fs IH]; intros H r i acc C; cbn [ev_tuple]; [apply sf_ret|].
  apply sf_bind; [|intros v; apply IH; [intros g G; apply H; now right|exact C]].
  change (r_mode r) with (r_mode (r_at W r (KInt i))). apply (H f (or_introl eq_refl)). apply at_calm; [exact C|exact I].
Qed.
Lemma list_sf n f : safe n f -> forall m r i acc, calm r -> sf (r_mode r) (ev_list W (ev_field W n) r i m f acc).
Proof.
  intros H. induction m as [|m IH]; intros r i acc C; cbn [ev_list]; [apply sf_ret|].
  apply sf_bind; [|intros v; now apply IH]. change (r_mode r) with (r_mode (r_at W r (KInt i))). apply H. apply at_calm; [exact C|exact I].
Qed.
Lemma dict_sf n kf vf : tame_key kf -> safe (S n) vf -> forall keys r acc, calm r -> Forall (fun k => exists s, k = VStr s) keys ->
  sf (r_mode r) (ev_dict W (ev_field W (S n)) r None kf vf keys acc).
Proof.
  intros K H. induction keys as [|k keys IH]; intros r acc C F; cbn [ev_dict]; [apply sf_ret|].
  inversion F as [|k0 keys0 (s & ->) F']; subst. unfold ev_accept, ev_hook_or.
  apply sf_bind; [apply sf_ret|]. intros [] ; cbn [negb]; [|now apply IH].
  apply sf_bind; [change (r_mode r) with (r_mode (r_at W r (KStr s))); apply H; apply at_calm; [exact C|exact I]|].
  intros v. destruct (ignored v); [now apply IH|].
  apply sfv_sf with (Q := fun _ => True). eapply sfv_bind; [now apply key_sfv|]. intros k' Hk. apply sf_sfv.
  destruct (ignored k'); [now apply IH|]. rewrite Hk. now apply IH.
Qed.
Lemma group_match_in l k m : group_match W l k = Ok (Some m) -> exists g, In (g, fst m) l.
Proof.
  induction l as [|[g f] l IH]; cbn [group_match]; [discriminate|]. destruct g as [s|p].
  - destruct (py_eq (VStr s) k); [intros [= <-]; eexists; now left|]. intros Q. destruct (IH Q) as (g & G). exists g. now right.
  - destruct k; try discriminate. destruct (e_re _ p s); [intros [= <-]; eexists; now left|]. intros Q. destruct (IH Q) as (g & G). exists g. now right.
Qed.
Lemma group_match_ok l s : exists m, group_match W l (VStr s) = Ok m.
Proof.
  induction l as [|[g f] l IH]; cbn [group_match]; [eauto|]. destruct g as [a|p].
  - destruct (py_eq (VStr a) (VStr s)); eauto.
  - destruct (e_re _ p s); eauto.
Qed.
Lemma group_sf n l : (forall g f, In (g, f) l -> safe n f) -> forall keys r c acc, calm r -> Forall (fun k => exists s, k = VStr s) keys ->
  sf (r_mode r) (ev_group W (ev_field W n) r l keys c acc).
Proof.
  intros H. induction keys as [|k keys IH]; intros r c acc C F; cbn [ev_group]; [apply sf_ret|].
  inversion F as [|k0 keys0 (s & ->) F']; subst. destruct (group_match_ok l s) as (m & M). rewrite M.
  destruct m as [[f cap]|]; unfold elift, ebind at 1; intros st; [|now apply IH].
  destruct (group_match_in _ _ _ M) as (g & G). cbn [fst] in G.
  refine (sf_bind _ _ _ _ (fun v => IH _ _ _ C F') st). change (r_mode r) with (r_mode (r_at W r (KStr s))).
  apply (H g f G). apply at_calm; [exact C|exact I].
Qed.
Lemma fields_sf n id tags fs : (forall f, In f fs -> safe n f) -> forall r, calm r -> sf (r_mode r) (ev_fields (ev_field W n) r id tags fs).
Proof.
  induction fs as [|f fs IH]; intros H r C; cbn [ev_fields]; [apply sf_ret|].
  apply sf_bind; [|intros _; apply IH; [intros g G; apply H; now right|exact C]].
  destruct (selected tags f); [|apply sf_ret]. apply sf_bind; [exact (H f (or_introl eq_refl) r C)|].
  intros v. destruct (ignored v); [apply sf_ret|]. apply sf_bind; [intros s; exact I|]. intros l s. unfold ev_set_entries. destruct (nth_error (snd s) id) as [[]|]; exact I.
Qed.
Lemma form_map_pc n r id tags u : calm r -> ignoring u ->
  forall s, (forall f, In f (ft_fields (match nth_error (snd s) id with Some (t, _) => t | None => FormTy "" [] end)) -> safe n f) ->
  match fst (ev_form_map W (ev_field W n) r id tags u s) with
  | Ok _ => True
  | Exn e => caught_by_compute e = true /\ ((exists l, r_val r = Ok (VDict l)) -> no_crash (r_mode r) (@Exn unit e))
  end.
Proof.
  intros C U s H. unfold ev_form_map. unfold ebind at 1. pose proof (mapping_pc r C s) as MP.
  destruct (ev_mapping W r s) as [[vw|e] s1] eqn:Q.
  2:{ cbn [fst] in *. split; [exact MP|]. intros (l & V). exfalso. revert Q. unfold ev_mapping, on_val, elift. rewrite V.
      destruct (cm_src _ C) as (d & st & loc & ->). cbn. discriminate. }
  assert (s1 = s) as -> by (revert Q; unfold ev_mapping, on_val, elift; intros [= _ <-]; reflexivity).
  unfold ebind at 1. unfold ev_type at 1.
  set (t := match nth_error (snd s) id with Some (t, _) => t | None => FormTy "" [] end) in *.
  assert (X : sf (r_mode r) (ev_fields (ev_field W n) (r_inform r id) id tags (ft_fields t);;;
     o <~ ev_unmapped (ev_field W n) r id u; match o with None => eret tt | Some VNone => eret tt | Some (VDict d) => l <~ ev_entries id; ev_set_entries id (dict_update l d) | Some _ => eraise (EType "not iterable") end)).
  { apply sf_bind; [change (r_mode r) with (r_mode (r_inform r id)); apply fields_sf; [exact H|now apply inform_calm]|].
    intros _. intros s2. destruct U as [-> | ->]; exact I. }
  specialize (X s). match goal with |- match ?a with _ => _ end => change (no_crash (r_mode r) a) in X; destruct a as [x|e] end; [exact I|].
  split; [destruct e; try contradiction; reflexivity|]. intros _. exact X.
Qed.
Lemma reset_ok id tags fs : forall s, exists s', ev_reset id tags fs s = (Ok tt, s') /\ fst s' = fst s /\
  option_map fst (nth_error (snd s') id) = option_map fst (nth_error (snd s) id) /\ length (snd s') = length (snd s).
Proof.
  induction fs as [|f fs IH]; intros s; cbn [ev_reset]; [eexists; split; [reflexivity|]; auto|]. unfold ebind at 1.
  destruct (selected tags f); [|apply IH].
  unfold ev_del, ev_entries, ebind at 1. destruct (dict_has _ _); [|apply IH]. unfold ev_set_entries.
  destruct (nth_error (snd s) id) as [[t l]|] eqn:N; [|destruct (IH s) as (s' & A & B & D & L); exists s'; rewrite N in D; auto].
  match goal with |- exists s', ev_reset _ _ _ ?z = _ /\ _ => destruct (IH z) as (s' & A & B & D & L) end. cbn [fst snd] in *.
  exists s'. split; [exact A|]. split; [exact B|].
  assert (LT : (id < length (snd s))%nat) by (apply nth_error_Some; congruence).
  rewrite nth_replace_eq in D by exact LT. split; [exact D|]. rewrite L. apply replace_nth_length.
Qed.
Lemma form_pc n r t rs u : calm r -> ignoring u -> (forall f, In f (ft_fields t) -> safe n f) -> pc (fun _ => True) (ev_form W (ev_field W n) r t rs u).
Proof.
  intros C U H [es h]. unfold ev_form. unfold ebind at 1. unfold ev_new. cbn [fst snd].
  assert (X : exists h', (if rs then ev_reset (length h) (r_tags r) (ft_fields t) else eret tt) (es, h ++ [(t, [])]) = (Ok tt, (es, h')) /\
     option_map fst (nth_error h' (length h)) = Some t).
  { assert (N : nth_error (h ++ [(t, [])]) (length h) = Some (t, [])) by (rewrite nth_error_app2, Nat.sub_diag by lia; reflexivity).
    destruct rs; [|eexists; split; [reflexivity|]; now rewrite N].
    destruct (reset_ok (length h) (r_tags r) (ft_fields t) (es, h ++ [(t, [])])) as ([es' h'] & A & B & D & _). cbn [fst snd] in *. subst es'. exists h'.
    split; [exact A|]. rewrite D. unfold heap in N |- *. now rewrite N. }
  destruct X as (h' & X & N). unfold ebind at 1. unfold heap in X |- *. rewrite X. unfold ebind at 1. unfold ev_sub.
  assert (T : (match nth_error h' (length h) with Some (t, _) => t | None => FormTy "" [] end) = t).
  { destruct (nth_error h' (length h)) as [[t' l]|]; [|discriminate]. now injection N. }
  pose proof (form_map_pc n (r_collecting r Collect) (length h) (r_tags r) u (collecting_calm r Collect C) U ([], h')) as P. cbn [snd] in P.
  rewrite T in P. specialize (P H). unfold heap in P |- *.
  destruct (ev_form_map W (ev_field W n) (r_collecting r Collect) (length h) (r_tags r) u (@pair (list err) (list (formty * list (val * val))) [] h')) as [[x|e] [es' h2]]; cbn [fst] in *; [exact I|exact (proj1 P)].
Qed.

Lemma tame_safe :
  (forall f, tame f -> in_time f) /\
  (forall k, tame_kind k -> exists N, forall n, (N <= n)%nat -> forall r, calm r -> (exists a, r_field r = Ok a) -> pc (fits k) (ev_parse W (ev_field W n) r k)) /\
  (forall t, tame_form t -> exists N, forall n, (N <= n)%nat -> forall f, In f (ft_fields t) -> safe n f).
Proof.
  apply tame_mutind.
  - intros o k T TK (N & IH). exists (S N). intros n L r C. destruct n as [|n]; [lia|]. apply field_sf; auto. intros r' C' F'. apply IH; auto. lia.
  - exists O. intros n _ r C F. exact (leaf_pc n r KAny C F).
  - intros c. exists O. intros n _ r C F. exact (leaf_pc n r (KString c) C F).
  - intros lo hi _ _. exists O. intros n _ r C F. exact (leaf_pc n r (KInteger lo hi) C F).
  - exists O. intros n _ r C F. exact (leaf_pc n r KBool C F).
  - intros fm lo hi _ _. exists O. intros n _ r C F. exact (leaf_pc n r (KDate fm lo hi) C F).
  - intros fm lo hi _ _. exists O. intros n _ r C F. exact (leaf_pc n r (KTime fm lo hi) C F).
  - intros fm lo hi _ _. exists O. intros n _ r C F. exact (leaf_pc n r (KDatetime fm lo hi) C F).
  - intros fs _ IH. destruct (all_in_time fs IH) as (N & H). exists N. intros n L r C F. cbn [ev_parse].
    eapply pc_bind; [now apply sequence_pc|]. intros len _. destruct (Nat.eqb len (length fs)).
    + eapply pc_bind with (Q := fun _ => True); [eapply pc_sf; [now apply (tuple_sf n fs (H n L))|auto]|]. intros l _. apply pc_ret. right. right. exact I.
    + apply invalid_pc; auto. now left.
  - intros f lo hi a _ (N & H). exists N. intros n L r C F. cbn [ev_parse].
    intros s. unfold ecatch. pose proof (sequence_pc r C s) as Q. destruct (ev_sequence W r s) as [[len|e] s']; cbn [fst] in Q.
    + refine (pc_bind (fun _ => True) _ _ _ _ _ s'); [eapply pc_sf; [now apply (list_sf n f (H n L))|auto]|]. intros l _. apply pc_ret. right. right. eauto.
    + destruct e; try exact Q. destruct a; [|reflexivity].
      refine (pc_bind (fun _ => True) _ _ _ _ _ s'); [eapply pc_sf; [exact (H n L r C)|auto]|]. intros v _. apply pc_ret. destruct (ignored v) eqn:G; [now left|right; right; eauto].
  - intros kf vf rq mx RQ K _ (N & H). exists (S N). intros n L r C F. destruct n as [|n]; [lia|]. cbn [ev_parse].
    eapply pc_bind; [now apply mapping_pc|]. intros vw (l & -> & ST). eapply pc_bind; [apply (elift_pc (fun x => x = l)); reflexivity|]. intros ? ->.
    eapply pc_bind with (Q := fun _ => True); [eapply pc_sf; [apply (dict_sf n kf vf K); [apply H; lia|exact C|exact ST]|auto]|]. intros d _. apply pc_ret. right. right. eauto.
  - exists O. intros n _ r C F. exact (leaf_pc n r KCode C F).
  - exists O. intros n _ r C F. exact (leaf_pc n r KUUID C F).
  - intros t rs u _ (N & H) U. exists N. intros n L r C F. cbn [ev_parse]. eapply pc_weak; [|apply form_pc; auto]. intros v _. right. right. exact I.
  - intros l _ IH.
    destruct (all_in_time (map snd l)) as (N & H). { intros f Hf. apply in_map_iff in Hf. destruct Hf as ([g f'] & <- & Hf). exact (IH g f' Hf). }
    exists N. intros n L r C F. cbn [ev_parse]. eapply pc_bind; [now apply mapping_pc|]. intros vw (ks & -> & ST).
    eapply pc_bind; [apply (elift_pc (fun x => x = ks)); reflexivity|]. intros ? ->.
    eapply pc_weak; [|eapply pc_sf with (Q := fun _ => True); [apply (group_sf n l); [|exact C|exact ST]|auto]]. { intros v _. right. right. exact I. }
    intros g f G. apply (H n L). apply in_map_iff. exists (g, f). auto.
  - intros n fs _ IH. destruct (all_in_time fs IH) as (N & H). exists N. exact H.
Qed.
End Crash.


(** Tame forms are covered by the evaluation theorem. *)
Lemma tame_direct_opts o : tame_opts o -> direct_opts o.
Proof.
  intros T. split; try (intros h H; rewrite ?(tm_compute _ T), ?(tm_parse _ T), ?(tm_munge _ T), ?(tm_filter _ T), ?(tm_validate _ T) in H; discriminate).
  - exact (tm_src _ T).
  - destruct (tm_default _ T) as [-> |(v & ->)]; [intros h H; discriminate|exact I].
  - exact (tm_resolve _ T).
Qed.
Lemma tame_direct :
  (forall f, tame f -> direct f) /\ (forall k, tame_kind k -> direct_kind k) /\ (forall t, tame_form t -> direct_form t).
Proof.
  apply tame_mutind; try (intros; constructor; auto using tame_direct_opts; fail).
  - intros kf vf rq mx RQ [o k T K _] _ D. constructor; [|exact D|intros h H; discriminate].
    constructor; [now apply tame_direct_opts|]. destruct K as [-> |(c & ->)]; constructor.
  - intros t rs u _ D U. constructor; [exact D|]. destruct U as [-> | ->]; constructor.
Qed.
Lemma C29_lem W t : tame_form t -> exists N, forall fuel items strict loc id l tags rs u m s, (N <= fuel)%nat ->
  json_val (VDict items) = true -> nth_error (forms s) id = Some (t, l) -> ignoring u -> mapping_context s ->
  no_crash m (fst (Form_map W fuel id (ASrc (SBase (BPlain (SJson (VDict items) strict loc)))) tags rs u m s)).
Proof.
  intros T. destruct (proj2 (proj2 (tame_safe W)) t T) as (N & H). exists N.
  intros fuel items strict loc id l tags rs u m s L J NT U MC.
  assert (DU : direct_unm u) by (destruct U as [-> | ->]; constructor).
  destruct (C30_json_lem W fuel (VDict items) strict loc id t l tags rs u m s J NT (proj2 (proj2 tame_direct) t T) DU MC) as [Q _].
  cbv zeta in Q. apply (f_equal fst) in Q. cbn [fst] in Q. rewrite Q. clear Q. unfold ev_map. rewrite NT.
  set (tags' := match tags with [] => ou_tags (outer_of s) | _ => tags end).
  assert (X : exists x h', (if rs then ev_reset id tags' (ft_fields t) else eret tt) ([], forms s) = (x, ([], h')) /\ option_map fst (nth_error h' id) = Some t).
  { destruct rs; [|eexists _, _; split; [reflexivity|now rewrite NT]].
    destruct (reset_ok id tags' (ft_fields t) ([], forms s)) as ([es' h'] & A & B & D & _). cbn [fst snd] in *. subst es'. eexists _, h'.
    split; [exact A|]. now rewrite D, NT. }
  destruct X as (x & h' & X & N1). unfold heap in X |- *. rewrite X.
  assert (C : calm (r_start (outer_of s) (SJson (VDict items) strict loc) m (VDict items))).
  { split; cbn; [eauto|constructor|]. eexists. split; [reflexivity|]. left. exact J. }
  pose proof (form_map_pc W fuel _ id tags' u C U ([], h')) as P. cbn [snd] in P.
  assert (T1 : (match nth_error h' id with Some (t, _) => t | None => FormTy "" [] end) = t).
  { destruct (nth_error h' id) as [[t' l']|]; [|discriminate]. now injection N1. }
  rewrite T1 in P. specialize (P (H fuel L)). unfold heap in P |- *.
  destruct (ev_form_map W (ev_field W fuel) _ id tags' u (@pair (list err) (list (formty * list (val * val))) [] h')) as [[y|e] [es h2]]; cbn [fst] in *.
  - destruct m, es; exact I || reflexivity.
  - destruct P as [_ P]. apply P. eexists. reflexivity.
Qed.
