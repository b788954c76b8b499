(** * Make82: dates, times and datetimes (C82). *)
From Verif Require Import PyBase PyStr Source Field Context Fields Build SpecCtx SpecField FieldVios SpecBox SpecBuild SpecClock Shape Reads Balance CtxProofs Run FieldProofs FieldLemmas MakeProofs BoxProofs BoxLemmas Make73.
From Coq Require Import Lia.
Open Scope Z_scope.

Definition clock_kind (c : clock) (fmts : list string) (lo hi : option val) (k : kind) : Prop :=
  match c with
  | CDate => k = KDate fmts lo hi
  | CTime => k = KTime (hd_error fmts) lo hi
  | CDatetime => k = KDatetime (hd_error fmts) lo hi
  end.
Lemma between_said kw lo hi : bound_said (alookup kw "after") lo -> bound_said (alookup kw "before") hi ->
  exists kw', pop_between kw = Ok ((lo, hi), kw') /\ some_left kw kw' ["after"; "before"].
Proof.
  intros Lo Hi. unfold pop_between. destruct (pop_bound _ _ _ Lo) as (v & -> & <-). cbn [bindr].
  rewrite <- (alookup_rest "before" "after") in Hi by discriminate. destruct (pop_bound _ _ _ Hi) as (w & -> & <-). cbn [bindr].
  eexists. split; [reflexivity|]. eapply (some_trans _ _ _ ["after"] ["before"]); apply some_rest.
Qed.
Lemma formats_list l : fold_right (fun x r => bindr r (fun l => match x with VStr s => Ok (s :: l) | _ => Exn unmodelled end)) (Ok []) (map VStr l) = Ok l.
Proof. induction l as [|x l IH]; [reflexivity|]. cbn [map fold_right]. rewrite IH. reflexivity. Qed.
Lemma formats_are kw fmts : formats_said (alookup kw "format") fmts -> exists v, pop_value "format" kw = Ok (v, kw_rest "format" kw) /\
  date_formats v = Ok fmts /\ forall o, one_format v = Ok o -> o = hd_error fmts.
Proof.
  intros H. inversion H as [X|X|x NE X|l X|l X].
  - exists VNone. split; [now apply pop_unsaid|]. split; [reflexivity|]. now intros o [= <-].
  - exists VNone. split; [now apply pop_said|]. split; [reflexivity|]. now intros o [= <-].
  - exists (VStr x). split; [now apply pop_said|]. split; [|now intros o [= <-]]. cbn [date_formats]. destruct (String.eqb x "") eqn:Q; [apply String.eqb_eq in Q; contradiction|reflexivity].
  - exists (VList (map VStr fmts)). split; [apply pop_said; subst; congruence|]. split; [apply formats_list|discriminate].
  - exists (VTuple (map VStr fmts)). split; [apply pop_said; subst; congruence|]. split; [apply formats_list|discriminate].
Qed.
Lemma clock_said name c args kw b fmts lo hi : clock_init c args kw = Ok b -> formats_said (alookup kw "format") fmts ->
  bound_said (alookup kw "after") lo -> bound_said (alookup kw "before") hi -> static_default kw -> ~ says kw "attach_parent" ->
  hook_free (attach_as name b) /\ clock_kind c fmts lo hi (f_kind (attach_as name b)).
Proof.
  intros H F Lo Hi SD NA. destruct (between_said kw lo hi Lo Hi) as (kw1 & P & SL). rewrite <- (SL "format") in F by (apply no_in; reflexivity).
  destruct (formats_are kw1 fmts F) as (v & PV & DF & OF).
  assert (SL2 : some_left kw (kw_rest "format" kw1) ["after"; "before"; "format"]) by exact (some_trans _ _ _ _ ["format"] SL (some_rest _ _)).
  destruct c; cbn [clock_init clock_kind] in *; [unfold Date_init in H|unfold Time_init in H|unfold Datetime_init in H]; rewrite P in H; cbn [bindr] in H; rewrite PV in H; cbn [bindr] in H.
  - rewrite DF in H. cbn [bindr fst snd] in H. eapply rest_options; [exact SL2| | |exact SD|exact NA|exact H]; apply no_in; reflexivity.
  - apply bindr_ok in H. destruct H as (o & O & H). rewrite <- (OF o O). cbn [fst snd] in H. eapply rest_options; [exact SL2| | |exact SD|exact NA|exact H]; apply no_in; reflexivity.
  - apply bindr_ok in H. destruct H as (o & O & H). rewrite <- (OF o O). cbn [fst snd] in H. eapply rest_options; [exact SL2| | |exact SD|exact NA|exact H]; apply no_in; reflexivity.
Qed.

Lemma clock_lt c a b x y : at_clock c a x -> at_clock c b y -> py_lt a b = Ok (x <? y).
Proof. destruct c; intros A B; inversion A; inversion B; subst; reflexivity. Qed.
Section Clock.
Variables (W : world) (n : nat) (f : field) (c : clock) (fmts : list string) (lo hi : option val).
Variables (s : st) (eid : nat) (m : mode) (es : list err) (pid : nat) (p : path) (igd igm : bool) (t : string).
Hypothesis MP : mapping W s eid m es pid p igd igm.
Hypothesis HF : hook_free f.
Hypothesis K : clock_kind c fmts lo hi (f_kind f).
Hypothesis T : p_str (w_env W) (place f p) = Ok t.
Notation read := (after_read f NONEv s pid p).
Notation told := (reported f NONEv s eid m es pid p).

Lemma text_str q1 q2 q3 q4 (a b : bool) y x : p_exists (w_env W) (entries s) (place f p) = (q1, Ok a) -> p_is_null (w_env W) (entries s) q1 = (q2, Ok b) ->
  p_value (w_env W) (entries s) q2 = (q3, Ok y) -> p_primitive (w_env W) (entries s) TyStr q3 = (q4, Ok x) -> p_str (w_env W) q4 = Ok t.
Proof.
  intros X1 X2 X3 X4. rewrite (str_prim W s _ _ _ _ X4).
  assert (p_str (w_env W) q3 = p_str (w_env W) q2) as -> by (apply (str_after W s p_value _ _ _ (t_value (w_env W)) X3)).
  rewrite (str_after W s p_is_null _ _ _ (t_is_null (w_env W)) X2), (str_after W s p_exists _ _ _ (t_exists (w_env W)) X1). exact T.
Qed.
(** from what [_parse] gives to the end *)
Lemma parsed_yields w q2 q4 o : (exists q1, p_exists (w_env W) (entries s) (place f p) = (q1, Ok true) /\ p_is_null (w_env W) (entries s) q1 = (q2, Ok false)) ->
  parse_kind W (field_map W n) (f_kind f) pid (read q2) = (Ok w, read q4) -> p_str (w_env W) q4 = Ok t -> ignored w = false -> untouched f w ->
  field_violation (w_env W) (entries s) f w = Ok o ->
  yields W (S n) f NONEv s eid m es (match o with None => w | Some _ => ERRORv end) (match o with None => [] | Some v => [invalid_at f pid v t] end).
Proof.
  intros (q1 & X1 & X2) PK Tq G (L & D & I) V.
  pose proof (body_parsed W n f NONEv s eid m es pid p igd igm MP (hf_read _ HF) HF q1 q2 q4 (Ok w) eq_refl X1 X2 PK G) as B. cbv beta iota in B.
  rewrite (after_run W n f NONEv s eid m es pid p igd igm MP HF w w q4 t Tq L (translated_is f w w (tr_miss f w D)) G), I in B.
  unfold violated in B. rewrite V in B.
  apply (yields_of W n f NONEv s eid m es pid p igd igm MP (hf_read _ HF)) with (q := q4). rewrite B.
  destruct o as [v|]; [reflexivity|]. rewrite (reported_nil W f NONEv s eid m es pid p igd igm MP). destruct m; reflexivity.
Qed.
Lemma stamp_cases E fmt x : stamp E fmt x = if String.eqb fmt "iso8601" then e_iso E x else e_strp E x fmt.
Proof. reflexivity. Qed.
Lemma text_value x q2 q3 q4 y w : p_value (w_env W) (entries s) q2 = (q3, Ok (VStr y)) -> p_primitive (w_env W) (entries s) TyStr q3 = (q4, Ok (VStr x)) ->
  reads_as (w_env W) x c fmts w -> parse_kind W (field_map W n) (f_kind f) pid (read q2) = (Ok w, read q4).
Proof.
  intros X3 X4 R. pose proof (value_run W f s eid m es pid p igd igm MP _ _ _ X3) as V. pose proof (prim_run W f NONEv s eid m es pid p igd igm MP TyStr _ _ _ X4) as P.
  destruct R as [pre fmt post z NM S0|fmt z S0|fmt z S0]; cbn [clock_kind hd_error] in K; rewrite K; cbn [parse_kind].
  - unfold parse_date. rewrite bind_run, V. rewrite bind_run, P.
    change 86400000000 with day. rewrite <- (try_date_first W pre fmt post x z NM S0). destruct pre; reflexivity.
  - unfold parse_time. rewrite bind_run, V. rewrite bind_run, P. cbn [need_str]. rewrite bind_run. cbn [ret]. rewrite S0. reflexivity.
  - unfold parse_datetime. rewrite bind_run, V. rewrite bind_run, P. cbn [need_str]. rewrite bind_run. cbn [ret].
    rewrite stamp_cases in S0. destruct (String.eqb fmt "iso8601"); rewrite S0; reflexivity.
Qed.
Lemma native_value q2 q3 w z : at_clock c w z -> p_value (w_env W) (entries s) q2 = (q3, Ok w) ->
  parse_kind W (field_map W n) (f_kind f) pid (read q2) = (Ok w, read q3).
Proof.
  intros A X3. pose proof (value_run W f s eid m es pid p igd igm MP _ _ _ X3) as V.
  destruct A; cbn [clock_kind] in K; rewrite K; cbn [parse_kind]; [unfold parse_date|unfold parse_time|unfold parse_datetime]; rewrite bind_run, V; reflexivity.
Qed.
(** the two bounds *)
Definition range_says (w : val) (z : Z) : option viol :=
  match match lo with Some a => match py_lt w a with Ok true => Some (VioAfter a) | _ => None end | None => None end with
  | Some v => Some v
  | None => match hi with Some a => match py_lt a w with Ok true => Some (VioBefore a) | _ => None end | None => None end
  end.
Lemma clock_violation w z : at_clock c w z -> (forall a, lo = Some a -> exists y, at_clock c a y) -> (forall a, hi = Some a -> exists y, at_clock c a y) ->
  field_violation (w_env W) (entries s) f w = Ok (range_says w z).
Proof.
  intros A Lo Hi. assert (NN : vio_null f w = None /\ w <> VNone) by (destruct A; split; (discriminate || reflexivity)). destruct NN as [NN NV].
  assert (FV : field_violation (w_env W) (entries s) f w = vio_kind (w_env W) (entries s) f w) by (unfold field_violation; rewrite NN; destruct w; congruence).
  assert (KK : vio_kind (w_env W) (entries s) f w = vand (vio_below lo VioAfter w) (vio_above hi VioBefore w)).
  { unfold vio_kind. destruct c; cbn [clock_kind] in K; rewrite K; reflexivity. }
  rewrite FV, KK. unfold range_says, vio_below, vio_above. destruct lo as [a|].
  - destruct (Lo a eq_refl) as (y & Ay). rewrite (clock_lt c w a z y A Ay). destruct (z <? y); [reflexivity|]. cbn [vand].
    destruct hi as [b|]; [|reflexivity]. destruct (Hi b eq_refl) as (y2 & Ab). rewrite (clock_lt c b w y2 z Ab A). destruct (y2 <? z); reflexivity.
  - cbn [vand]. destruct hi as [b|]; [|reflexivity]. destruct (Hi b eq_refl) as (y2 & Ab). rewrite (clock_lt c b w y2 z Ab A). destruct (y2 <? z); reflexivity.
Qed.
Lemma clock_range w z : at_clock c w z -> (forall a, lo = Some a -> exists y, at_clock c a y) -> (forall a, hi = Some a -> exists y, at_clock c a y) ->
  ((forall a, ~ early c lo z a) -> (forall a, ~ late c hi z a) -> range_says w z = None) /\
  (forall a, early c lo z a -> range_says w z = Some (VioAfter a)) /\
  (forall a, (forall e, ~ early c lo z e) -> late c hi z a -> range_says w z = Some (VioBefore a)).
Proof.
  intros A Lo Hi.
  assert (L1 : (forall a, ~ early c lo z a) -> match lo with Some a => match py_lt w a with Ok true => Some (VioAfter a) | _ => None end | None => None end = None).
  { intros H. destruct lo as [a|]; [|reflexivity]. destruct (Lo a eq_refl) as (y & Ay). rewrite (clock_lt c w a z y A Ay).
    destruct (z <? y) eqn:Q; [|reflexivity]. exfalso. apply (H a). split; [reflexivity|]. exists y. split; [exact Ay|lia]. }
  split; [|split].
  - intros H1 H2. unfold range_says. rewrite (L1 H1). destruct hi as [b|]; [|reflexivity]. destruct (Hi b eq_refl) as (y & Ab). rewrite (clock_lt c b w y z Ab A).
    destruct (y <? z) eqn:Q; [|reflexivity]. exfalso. apply (H2 b). split; [reflexivity|]. exists y. split; [exact Ab|lia].
  - intros a (EQ & y & Ay & LT). unfold range_says. rewrite EQ, (clock_lt c w a z y A Ay). replace (z <? y) with true by lia. reflexivity.
  - intros a H1 (EQ & y & Ay & LT). unfold range_says. rewrite (L1 H1). rewrite EQ, (clock_lt c a w y z Ay A). replace (y <? z) with true by lia. reflexivity.
Qed.
Lemma range_lem w z : at_clock c w z -> (forall a, lo = Some a -> exists y, at_clock c a y) -> (forall a, hi = Some a -> exists y, at_clock c a y) ->
  (exists x, reads_text W s f p x /\ reads_as (w_env W) x c fmts w) \/ has_instant W s f p w -> untouched f w ->
  ((forall a, ~ early c lo z a) -> (forall a, ~ late c hi z a) -> yields W (S n) f NONEv s eid m es w []) /\
  (forall a, early c lo z a -> yields W (S n) f NONEv s eid m es ERRORv [invalid_at f pid (VioAfter a) t]) /\
  (forall a, (forall e, ~ early c lo z e) -> late c hi z a -> yields W (S n) f NONEv s eid m es ERRORv [invalid_at f pid (VioBefore a) t]).
Proof.
  intros A Lo Hi R U.
  assert (G : ignored w = false) by (destruct A; reflexivity).
  assert (Y : yields W (S n) f NONEv s eid m es (match range_says w z with None => w | Some _ => ERRORv end) (match range_says w z with None => [] | Some v => [invalid_at f pid v t] end)).
  { destruct R as [(x & (q1 & q2 & q3 & q4 & y & X1 & X2 & X3 & X4) & R)|(q1 & q2 & q3 & X1 & X2 & X3)].
    - apply (parsed_yields w q2 q4); [eauto|now apply text_value with (x := x) (q3 := q3) (y := y)|exact (text_str _ _ _ _ _ _ _ _ X1 X2 X3 X4)|exact G|exact U|now apply clock_violation].
    - apply (parsed_yields w q2 q3); [eauto|now apply native_value with (z := z)| |exact G|exact U|now apply clock_violation].
      assert (p_str (w_env W) q3 = p_str (w_env W) q2) as -> by (apply (str_after W s p_value _ _ _ (t_value (w_env W)) X3)).
      rewrite (str_after W s p_is_null _ _ _ (t_is_null (w_env W)) X2), (str_after W s p_exists _ _ _ (t_exists (w_env W)) X1). exact T. }
  destruct (clock_range w z A Lo Hi) as (R1 & R2 & R3). split; [|split].
  - intros H1 H2. now rewrite (R1 H1 H2) in Y.
  - intros a H. now rewrite (R2 a H) in Y.
  - intros a H1 H2. now rewrite (R3 a H1 H2) in Y.
Qed.
(** [_parse] reports an error itself, or raises one that [_compute] reports *)
Lemma bad_yields q2 q4 viol : m = Collect -> (exists q1, p_exists (w_env W) (entries s) (place f p) = (q1, Ok true) /\ p_is_null (w_env W) (entries s) q1 = (q2, Ok false)) ->
  p_str (w_env W) q4 = Ok t ->
  (parse_kind W (field_map W n) (f_kind f) pid (read q2) = (Ok ERRORv, told q4 [invalid_at f pid viol t]) \/
   exists e, viol = VioExn (EValue e) /\ parse_kind W (field_map W n) (f_kind f) pid (read q2) = (Exn (EValue e), read q4)) ->
  yields W (S n) f NONEv s eid m es ERRORv [invalid_at f pid viol t].
Proof.
  intros M0 (q1 & X1 & X2) Tq PK. apply (yields_of W n f NONEv s eid m es pid p igd igm MP (hf_read _ HF)) with (q := q4).
  unfold field_body. change (is_NONE NONEv) with true. cbv iota. rewrite (dr_compute _ (hf_read _ HF)). unfold bind at 1.
  assert (C : field_compute W (field_map W n) f (entered f NONEv s pid p) = (Ok ERRORv, told q4 [invalid_at f pid viol t])).
  { unfold field_compute, bind. rewrite (s1_is f NONEv s pid p), (ar_cur W f NONEv s eid m es pid p igd igm MP). unfold path_exists.
    change (spot f NONEv p) with (place f p). rewrite (ar_on W f NONEv s eid m es pid p igd igm MP p_exists _ _ _ X1). cbn [negb]. unfold path_is_null. rewrite (ar_on W f NONEv s eid m es pid p igd igm MP p_is_null _ _ _ X2).
    unfold catch. rewrite (hf_parse _ HF). destruct PK as [PK|(e & -> & PK)].
    - rewrite PK. reflexivity.
    - rewrite PK. cbn [caught_by_compute]. unfold invalid_error, bind. rewrite (ar_report W f NONEv s eid m es pid p igd igm MP (Invalid (VioExn _)) q4 t Tq). rewrite M0. reflexivity. }
  rewrite C. rewrite M0. reflexivity.
Qed.
Lemma unknown_lem x : m = Collect -> fmts = [] -> reads_text W s f p x ->
  yields W (S n) f NONEv s eid m es ERRORv [invalid_at f pid (VioFormat (VStr x)) t].
Proof.
  intros M0 F (q1 & q2 & q3 & q4 & y & X1 & X2 & X3 & X4). pose proof (text_str _ _ _ _ _ _ _ _ X1 X2 X3 X4) as Tq.
  apply (bad_yields q2 q4); [exact M0|eauto|exact Tq|]. left.
  pose proof (value_run W f s eid m es pid p igd igm MP _ _ _ X3) as V. pose proof (prim_run W f NONEv s eid m es pid p igd igm MP TyStr _ _ _ X4) as P.
  pose proof (ar_report W f NONEv s eid m es pid p igd igm MP (Invalid (VioFormat (VStr x))) q4 t Tq) as R.
  subst fmts. destruct c; cbn [clock_kind hd_error] in K; rewrite K; cbn [parse_kind]; [unfold parse_date|unfold parse_time|unfold parse_datetime];
    rewrite bind_run, V; rewrite bind_run, P; unfold invalid_error; rewrite bind_run, R, M0; reflexivity.
Qed.
Lemma unreadable_lem x : m = Collect -> unreadable (w_env W) x c fmts -> reads_text W s f p x ->
  exists viol, yields W (S n) f NONEv s eid m es ERRORv [invalid_at f pid viol t].
Proof.
  intros M0 UR (q1 & q2 & q3 & q4 & y & X1 & X2 & X3 & X4). pose proof (text_str _ _ _ _ _ _ _ _ X1 X2 X3 X4) as Tq.
  pose proof (value_run W f s eid m es pid p igd igm MP _ _ _ X3) as V. pose proof (prim_run W f NONEv s eid m es pid p igd igm MP TyStr _ _ _ X4) as P.
  destruct UR as [fmt S0|fmt S0]; cbn [clock_kind hd_error] in K.
  - eexists. apply (bad_yields q2 q4); [exact M0|eauto|exact Tq|]. right. eexists. split; [reflexivity|].
    rewrite K. cbn [parse_kind]. unfold parse_time. rewrite bind_run, V. rewrite bind_run, P. cbn [need_str]. rewrite bind_run. cbn [ret]. rewrite S0. reflexivity.
  - rewrite stamp_cases in S0. destruct (String.eqb fmt "iso8601") eqn:Q.
    + eexists. apply (bad_yields q2 q4); [exact M0|eauto|exact Tq|]. left.
      rewrite K. cbn [parse_kind]. unfold parse_datetime. rewrite bind_run, V. rewrite bind_run, P. cbn [need_str]. rewrite bind_run. cbn [ret]. rewrite Q, S0.
      unfold invalid_error. rewrite bind_run, (ar_report W f NONEv s eid m es pid p igd igm MP (Invalid (VioText _)) q4 t Tq), M0. reflexivity.
    + eexists. apply (bad_yields q2 q4); [exact M0|eauto|exact Tq|]. right. eexists. split; [reflexivity|].
      rewrite K. cbn [parse_kind]. unfold parse_datetime. rewrite bind_run, V. rewrite bind_run, P. cbn [need_str]. rewrite bind_run. cbn [ret]. rewrite Q, S0. reflexivity.
Qed.
End Clock.
Lemma C82_range_lem W n name c args kw b fmts lo hi s eid m es pid p igd igm t w z :
  clock_init c args kw = Ok b -> formats_said (alookup kw "format") fmts ->
  bound_said (alookup kw "after") lo -> bound_said (alookup kw "before") hi -> static_default kw -> ~ says kw "attach_parent" ->
  let f := attach_as name b in
  mapping W s eid m es pid p igd igm -> p_str (w_env W) (place f p) = Ok t ->
  at_clock c w z -> (forall a, lo = Some a -> exists y, at_clock c a y) -> (forall a, hi = Some a -> exists y, at_clock c a y) ->
  (exists x, reads_text W s f p x /\ reads_as (w_env W) x c fmts w) \/ has_instant W s f p w -> SpecField.untouched f w ->
  ((forall a, ~ early c lo z a) -> (forall a, ~ late c hi z a) -> yields W (S n) f NONEv s eid m es w []) /\
  (forall a, early c lo z a -> yields W (S n) f NONEv s eid m es ERRORv [invalid_at f pid (VioAfter a) t]) /\
  (forall a, (forall e, ~ early c lo z e) -> late c hi z a -> yields W (S n) f NONEv s eid m es ERRORv [invalid_at f pid (VioBefore a) t]).
Proof.
  intros H F Lo Hi SD NA f MP T A L1 L2 R U. destruct (clock_said name c args kw b fmts lo hi H F Lo Hi SD NA) as [HF K].
  exact (range_lem W n f c fmts lo hi s eid m es pid p igd igm t MP HF K T w z A L1 L2 R U).
Qed.
Lemma C82_error_lem W n name c args kw b fmts lo hi s eid es pid p igd igm t x :
  clock_init c args kw = Ok b -> formats_said (alookup kw "format") fmts ->
  bound_said (alookup kw "after") lo -> bound_said (alookup kw "before") hi -> static_default kw -> ~ says kw "attach_parent" ->
  let f := attach_as name b in
  mapping W s eid Collect es pid p igd igm -> p_str (w_env W) (place f p) = Ok t -> reads_text W s f p x ->
  (fmts = [] -> yields W (S n) f NONEv s eid Collect es ERRORv [invalid_at f pid (VioFormat (VStr x)) t]) /\
  (unreadable (w_env W) x c fmts -> exists viol, yields W (S n) f NONEv s eid Collect es ERRORv [invalid_at f pid viol t]).
Proof.
  intros H F Lo Hi SD NA f MP T R. destruct (clock_said name c args kw b fmts lo hi H F Lo Hi SD NA) as [HF K]. split; intros X.
  - exact (unknown_lem W n f c fmts lo hi s eid Collect es pid p igd igm t MP HF K T x eq_refl X R).
  - exact (unreadable_lem W n f c fmts lo hi s eid Collect es pid p igd igm t MP HF K T x eq_refl X R).
Qed.
