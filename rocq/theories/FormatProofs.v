(** * FormatProofs: proofs for C100. *)
From Verif Require Import PyBase PyStr Source Field Context Fields Build Formats SpecCtx SpecField SpecBuild SpecClock SpecFormat FieldLemmas Make82.
Open Scope Z_scope.

Lemma writes_text c v fmt sf mo : writes c mo -> writes_with c v fmt -> clock_format c sf v mo = wrote (sf mo fmt).
Proof. intros [] V; inversion V; subst; reflexivity. Qed.
Lemma said_first c kw v fmt fmts : given_format kw v -> writes_with c v fmt -> formats_said (alookup kw "format") fmts ->
  exists rest, fmts = fmt :: rest /\ (c <> CDate -> rest = []).
Proof.
  intros G V F. destruct G as [G|v G]; [inversion V|]. rewrite G in F.
  inversion V; subst; inversion F; subst.
  - eexists. split; [reflexivity|]. auto.
  - destruct fmts as [|y l0]; [discriminate|]. injection H0 as <- _. eexists. split; [reflexivity|]. intros H. now elim H.
  - destruct fmts as [|y l0]; [discriminate|]. injection H0 as <- _. eexists. split; [reflexivity|]. intros H. now elim H.
Qed.
Lemma stamp_strp E fmt x : fmt <> "iso8601" -> stamp E fmt x = e_strp E x fmt.
Proof. intros N. unfold stamp. destruct (String.eqb_spec fmt "iso8601"); [contradiction|reflexivity]. Qed.
Lemma inverts_reads E x fmt rest c mo w : fmt <> "iso8601" -> (c <> CDate -> rest = []) -> inverts E x fmt c mo w ->
  reads_as E x c (fmt :: rest) w.
Proof.
  intros N R V. destruct V as [z t H <-|z t H <-|z H|z H|z H].
  - apply (ra_date E x [] fmt rest t); [intros g []|now rewrite stamp_strp].
  - apply (ra_date E x [] fmt rest t); [intros g []|now rewrite stamp_strp].
  - rewrite R by discriminate. now constructor.
  - rewrite R by discriminate. constructor. now rewrite stamp_strp.
  - rewrite R by discriminate. constructor. now rewrite stamp_strp.
Qed.
Lemma C100_reads_back_lem W n name c args kw b v fmt fmts lo hi sf mo x w z s eid m es pid p igd igm t :
  clock_init c args kw = Ok b -> given_format kw v -> formats_said (alookup kw "format") fmts ->
  bound_said (alookup kw "after") lo -> bound_said (alookup kw "before") hi -> static_default kw -> ~ says kw "attach_parent" ->
  writes c mo -> writes_with c v fmt -> fmt <> "iso8601" -> sf mo fmt = Ok x -> inverts (w_env W) x fmt c mo w ->
  let f := attach_as name b in
  clock_format c sf v mo = Ok (Wrote x) /\
  (mapping W s eid m es pid p igd igm -> p_str (w_env W) (place f p) = Ok t -> reads_text W s f p x -> untouched f w ->
   at_clock c w z -> (forall a, lo = Some a -> exists y, at_clock c a y) -> (forall a, hi = Some a -> exists y, at_clock c a y) ->
   (forall a, ~ early c lo z a) -> (forall a, ~ late c hi z a) -> yields W (S n) f NONEv s eid m es w []).
Proof.
  intros I G F B1 B2 D A Wr Ww N X V f. split; [now rewrite (writes_text c v fmt sf mo Wr Ww), X|].
  intros M P R U C L H Q1 Q2. destruct (said_first c kw v fmt fmts G Ww F) as (rest & -> & Z).
  refine (proj1 (C82_range_lem W n name c args kw b (fmt :: rest) lo hi s eid m es pid p igd igm t w z I F B1 B2 D A M P C L H _ U) Q1 Q2).
  left. exists x. split; [exact R|]. exact (inverts_reads _ x fmt rest c mo w N Z V).
Qed.
Lemma C100_iso_lem c v sf mo : writes c mo -> writes_with c v "iso8601" -> copies_text sf -> clock_format c sf v mo = Ok (Wrote "iso8601").
Proof. intros A B C. rewrite (writes_text c v "iso8601" sf mo A B), C; [reflexivity|]. cbn. intuition discriminate. Qed.
Lemma C100_iso_datetime_lem W n name args kw b lo hi s eid es pid p igd igm t :
  Datetime_init args kw = Ok b -> alookup kw "format" = Some (AV (VStr "iso8601")) ->
  bound_said (alookup kw "after") lo -> bound_said (alookup kw "before") hi -> static_default kw -> ~ says kw "attach_parent" ->
  e_iso (w_env W) "iso8601" = None ->
  let f := attach_as name b in
  mapping W s eid Collect es pid p igd igm -> p_str (w_env W) (place f p) = Ok t -> reads_text W s f p "iso8601" ->
  exists x, yields W (S n) f NONEv s eid Collect es ERRORv [invalid_at f pid x t].
Proof.
  intros I F B1 B2 D A N f M P R.
  assert (F' : formats_said (alookup kw "format") ["iso8601"]) by (rewrite F; apply fo_one; discriminate).
  refine (proj2 (C82_error_lem W n name CDatetime args kw b ["iso8601"] lo hi s eid es pid p igd igm t "iso8601" I F' B1 B2 D A M P R) _).
  constructor. exact N.
Qed.
Lemma C100_clock_time_lem c v sf z : clock_format c sf v (ClockTime z) = Ok (Became (ClockTime z)).
Proof. destruct c; reflexivity. Qed.
Lemma C100_no_text_lem c sf mo v : writes c mo -> (forall x, ~ writes_with c v x) ->
  (c = CDate /\ (v = VList [] \/ v = VTuple []) /\ clock_format c sf v mo = Exn EIndex) \/ exists x, clock_format c sf v mo = Exn (EType x).
Proof.
  assert (P : forall sf mo v, (forall x, v <> VStr x) -> exists x, wrote (write_with sf mo v) = Exn (EType x)).
  { intros sf' mo' v' H. destruct v'; try (eexists; reflexivity). exfalso. eapply H. reflexivity. }
  assert (D : forall sf mo v, (forall x, ~ writes_with CDate v x) -> is_date mo = true ->
    ((v = VList [] \/ v = VTuple []) /\ Date_format sf v mo = Exn EIndex) \/ exists x, Date_format sf v mo = Exn (EType x)).
  { intros sf' mo' v' N I. unfold Date_format. rewrite I. destruct v' as [| | | |x| | | | | | | | | | | | | | |] eqn:Q; cbn [first_of]; try (right; apply P; intros y; discriminate).
    all: try (right; apply P; intros y Y; subst; eapply N; constructor).
    all: match goal with l : list val |- _ => destruct l as [|y l] end; [left; auto|right; apply P; intros z ->; eapply N; constructor]. }
  intros Wr N. destruct Wr; try (right; apply P; intros x ->; eapply N; apply ww_one).
  - destruct (D sf (Day z) v N eq_refl) as [[A B]|C]; [left; auto|right; exact C].
  - destruct (D sf (Instant z) v N eq_refl) as [[A B]|C]; [left; auto|right; exact C].
Qed.
Lemma C100_no_format_lem c sf mo : writes c mo -> exists x, clock_format c sf VNone mo = Exn (EType x).
Proof. intros []; eexists; reflexivity. Qed.
