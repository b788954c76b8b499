(** * Theorems C100: [format] of dates, times and datetimes. *)
From Verif Require Import PyBase PyStr Source Field Context Fields Build Formats SpecCtx SpecField SpecBuild SpecClock SpecFormat FormatProofs Demo PropsBuild PropsField PropsPlace.
Open Scope Z_scope.

(** C100: called with an instant of its class, [format] writes it with the (first) format of the
    field; where [strptime] undoes [strftime] for this format and instant, the field maps the text
    to the instant again (a date to the day). *)
Theorem C100_reads_back_partial : forall W n name c args kw b v fmt fmts lo hi sf mo x w z s eid m es pid p igd igm t,
  clock_init c args kw = Ok b -> given_format kw v -> formats_said (alookup kw "format") fmts ->
  bound_said (alookup kw "after") lo -> bound_said (alookup kw "before") hi -> static_default kw -> ~ says kw "attach_parent" ->
  writes c mo -> writes_with c v fmt -> fmt <> "iso8601" -> sf mo fmt = Ok x -> inverts (w_env W) x fmt c mo w ->
  let f := attach_as name b in
  clock_format c sf v mo = Ok (Wrote x) /\
  (mapping W s eid m es pid p igd igm -> p_str (w_env W) (place f p) = Ok t -> reads_text W s f p x -> untouched f w ->
   at_clock c w z -> (forall a, lo = Some a -> exists y, at_clock c a y) -> (forall a, hi = Some a -> exists y, at_clock c a y) ->
   (forall a, ~ early c lo z a) -> (forall a, ~ late c hi z a) -> yields W (S n) f NONEv s eid m es w []).
Proof. exact C100_reads_back_lem. Qed.
Print Assumptions C100_reads_back_partial.
(** With the format 'iso8601' every instant is written as the word iso8601, which a datetime
    field then rejects. *)
Theorem C100_iso_writes_its_name : forall c v sf mo, writes c mo -> writes_with c v "iso8601" -> copies_text sf ->
  clock_format c sf v mo = Ok (Wrote "iso8601").
Proof. exact C100_iso_lem. Qed.
Print Assumptions C100_iso_writes_its_name.
Theorem C100_iso_rejected : forall W n name args kw b lo hi s eid es pid p igd igm t,
  Datetime_init args kw = Ok b -> alookup kw "format" = Some (AV (VStr "iso8601")) ->
  bound_said (alookup kw "after") lo -> bound_said (alookup kw "before") hi -> static_default kw -> ~ says kw "attach_parent" ->
  e_iso (w_env W) "iso8601" = None ->
  let f := attach_as name b in
  mapping W s eid Collect es pid p igd igm -> p_str (w_env W) (place f p) = Ok t -> reads_text W s f p "iso8601" ->
  exists x, yields W (S n) f NONEv s eid Collect es ERRORv [invalid_at f pid x t].
Proof. exact C100_iso_datetime_lem. Qed.
Print Assumptions C100_iso_rejected.
(** A [datetime.time] is never written: it becomes the format of the field.  Without a format an
    instant is a TypeError. *)
Theorem C100_clock_time : forall c v sf z, clock_format c sf v (ClockTime z) = Ok (Became (ClockTime z)).
Proof. exact C100_clock_time_lem. Qed.
Print Assumptions C100_clock_time.
Theorem C100_no_format : forall c sf mo, writes c mo -> exists x, clock_format c sf VNone mo = Exn (EType x).
Proof. exact C100_no_format_lem. Qed.
Print Assumptions C100_no_format.
(** A format that is no text, nor for a date a sequence that begins with one, is not written with:
    only a date knows lists of formats. *)
Theorem C100_no_text : forall c sf mo v, writes c mo -> (forall x, ~ writes_with c v x) ->
  (c = CDate /\ (v = VList [] \/ v = VTuple []) /\ clock_format c sf v mo = Exn EIndex) \/ exists x, clock_format c sf v mo = Exn (EType x).
Proof. exact C100_no_text_lem. Qed.
Print Assumptions C100_no_text.
Example C100_no_text_case : (forall x, ~ writes_with CDatetime (VList [VStr "%H"]) x) /\ (forall x, ~ writes_with CDate (VTuple []) x) /\
  writes_with CDate (VList [VStr "%H"]) "%H" /\
  Datetime_format (fun _ x => Ok x) (VList [VStr "%H"]) (Day 3) = Exn (EType "strftime() argument 1 must be str") /\
  Date_format (fun _ x => Ok x) (VTuple []) (Day 3) = Exn EIndex.
Proof. split; [intros x H; inversion H|]. split; [intros x H; inversion H|]. split; [constructor|]. split; reflexivity. Qed.

Example C100_other_case : writes CTime (StructTime 3) /\ Time_format (fun _ x => Ok x) (VStr "%H") (ClockTime 3) = Ok (Became (ClockTime 3)) /\
  Datetime_format (fun _ x => Ok x) VNone (Day 3) = Exn (EType "strftime() argument 1 must be str").
Proof. split; [constructor|]. split; reflexivity. Qed.
(** Days and seconds as decimal numbers; everything else is copied. *)
Definition sf0 : strftime_oracle := fun m fmt =>
  match m with
  | Day z => Ok (if String.eqb fmt "%j" then print_int z else fmt)
  | Instant z => Ok (if String.eqb fmt "%j" then print_int (z / 86400000000) else fmt)
  | StructTime z | ClockTime z => Ok (if String.eqb fmt "%S" then print_int z else fmt)
  end.
Lemma sf0_copies : copies_text sf0.
Proof.
  intros m fmt N. assert (A : String.eqb fmt "%j" = false) by (destruct (String.eqb_spec fmt "%j") as [->|]; [elim N; now left|reflexivity]).
  assert (B : String.eqb fmt "%S" = false) by (destruct (String.eqb_spec fmt "%S") as [->|]; [elim N; now left|reflexivity]).
  destruct m; cbn [sf0]; now rewrite ?A, ?B.
Qed.
Definition day_kw : kwargs := [("format", AV (VList [VStr "%j"; VStr "iso8601"])); ("before", AV (VDate 20))].
Definition day_b : bfield := get_b (Date_init [] day_kw).
Example C100_reads_back_case : let f := attach_as "n" day_b in let s := in_clock (jdict [("n", VStr "15")]) in
  clock_init CDate [] day_kw = Ok day_b /\ given_format day_kw (VList [VStr "%j"; VStr "iso8601"]) /\
  writes CDate (Day 15) /\ writes_with CDate (VList [VStr "%j"; VStr "iso8601"]) "%j" /\ sf0 (Day 15) "%j" = Ok "15" /\
  inverts envc "15" "%j" CDate (Day 15) (VDate 15) /\ reads_text worldc s f (at_root s) "15" /\ untouched f (VDate 15) /\
  fst (field_map worldc 3 f NONEv s) = Ok (VDate 15).
Proof.
  cbv zeta. split; [reflexivity|]. split; [now apply gf_some|]. split; [constructor|]. split; [constructor|]. split; [reflexivity|].
  split; [now apply (inv_day envc "15" "%j" 15 1296000000000)|]. split; [do 5 eexists; repeat split; reflexivity|].
  split; [repeat split; left; reflexivity|vm_compute; reflexivity].
Qed.
Definition iso_b : bfield := get_b (Datetime_init [] [("format", AV (VStr "iso8601"))]).
Example C100_iso_case : let s := in_clock (jdict [("n", VStr "iso8601")]) in
  Datetime_init [] [("format", AV (VStr "iso8601"))] = Ok iso_b /\ writes CDatetime (Instant 7) /\ writes_with CDatetime (VStr "iso8601") "iso8601" /\
  copies_text sf0 /\ e_iso envc "iso8601" = None /\ reads_text worldc s (attach_as "n" iso_b) (at_root s) "iso8601" /\
  clock_format CDatetime sf0 (VStr "iso8601") (Instant 7) = Ok (Wrote "iso8601").
Proof.
  cbv zeta. split; [reflexivity|]. split; [constructor|]. split; [constructor|]. split; [exact sf0_copies|]. split; [reflexivity|].
  split; [do 5 eexists; repeat split; reflexivity|reflexivity].
Qed.
(** What a date field writes is mapped to None by the same field. *)
Theorem C100_reads_back_refuted : exists W n name args kw b v sf mo x s s',
  Date_init args kw = Ok b /\ given_format kw v /\ writes CDate mo /\ copies_text sf /\ clock_format CDate sf v mo = Ok (Wrote x) /\
  let f := attach_as name b in
  mapping W s 0 Collect [] 0 (at_root s) false false /\ reads_text W s f (at_root s) x /\
  field_map W n f NONEv s = (Ok VNone, s') /\ errs s' = errs s.
Proof.
  exists worldc, 3%nat, "n", [], [("format", AV (VStr "iso8601"))], (get_b (Date_init [] [("format", AV (VStr "iso8601"))])), (VStr "iso8601"), sf0, (Day 15), "iso8601",
    (in_clock (jdict [("n", VStr "iso8601")])). eexists.
  split; [reflexivity|]. split; [now apply gf_some|]. split; [constructor|]. split; [exact sf0_copies|]. split; [reflexivity|]. cbv zeta.
  split; [apply in_clock_mapping|]. split; [do 5 eexists; repeat split; reflexivity|]. split; [vm_compute; reflexivity|]. reflexivity.
Qed.
Print Assumptions C100_reads_back_refuted.
(** A time field maps a [datetime.time] that is in the data, and does not write it. *)
Theorem C100_written_refuted : exists W n name args kw b v sf mo s,
  Time_init args kw = Ok b /\ given_format kw v /\
  mapping W s 0 Collect [] 0 (at_root s) false false /\ has_instant W s (attach_as name b) (at_root s) (value_of mo) /\
  fst (field_map W n (attach_as name b) NONEv s) = Ok (value_of mo) /\ (forall x, clock_format CTime sf v mo <> Ok (Wrote x)).
Proof.
  exists worldc, 3%nat, "n", [], [("format", AV (VStr "%S"))], (get_b (Time_init [] [("format", AV (VStr "%S"))])), (VStr "%S"), sf0, (ClockTime 15),
    (in_clock (jdict [("n", VTime 15)])).
  split; [reflexivity|]. split; [now apply gf_some|]. split; [apply in_clock_mapping|]. split; [do 3 eexists; repeat split; reflexivity|].
  split; [vm_compute; reflexivity|]. intros x. discriminate.
Qed.
Print Assumptions C100_written_refuted.
