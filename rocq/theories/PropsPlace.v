(** * Properties C81 and C82: where constructed fields read, and dates and times in a range. *)
From Verif Require Import PyBase PyStr Source Field Context Fields Build SpecCtx SpecField SpecBuild SpecClock Make81 Make82 PropsField Demo.
From Coq Require Import Lia.
Open Scope Z_scope.

(** ** C81: the place *)
(** A constructed field reads at the key or index it was given, be it positional or as [src];
    without one, under its own name; with [src=None], the enclosing mapping. *)
Theorem C81_place : forall args kw b name key p, constructed args kw b -> src_said args kw name key ->
  place (attach_as name b) p = match key with Some k => p_append k p | None => p end.
Proof. exact C81_lem. Qed.
Print Assumptions C81_place.
(** [flat=True] for a sub-form is [src=None], whatever else was given. *)
Theorem C81_flat : forall args kw b name p, SubForm_init args kw = Ok b -> says kw "flat" -> place (attach_as name b) p = p.
Proof. exact C81_flat_lem. Qed.
Print Assumptions C81_flat.
(** [Integer()], [Integer('k')], [List(Integer(), src='l')], [Tuple('t', Integer(), Integer())],
    [List('l', Integer())] and a flat sub-form, all named "n" *)
Definition get_b (r : res bfield) : bfield := match r with Ok b => b | Exn _ => BF false no_opts KAny end.
Definition int_of (r : res bfield) : list arg := match r with Ok b => [AF b] | Exn _ => [] end.
Definition one_int : list arg := int_of (Number_init NInteger [] []).
Definition doc81 : val := jdict [("n", VInt 1); ("k", VInt 2); ("l", VList [VInt 3]); ("t", VList [VInt 4; VInt 5])].
Example C81_cases :
  constructed [AV (VStr "l")] [] (get_b (List_init ([AV (VStr "l")] ++ one_int) [])) /\
  src_said [AV (VStr "l")] [] "n" (Some (KStr "l")) /\
  constructed [AV (VStr "t")] [] (get_b (Tuple_init ([AV (VStr "t")] ++ one_int ++ one_int) [])) /\
  map (fun b => fst (field_map world0 4 (attach_as "n" b) NONEv (in_map doc81 [] Collect)))
    [get_b (Number_init NInteger [] []); get_b (Number_init NInteger [AV (VStr "k")] []); get_b (List_init one_int [("src", AV (VStr "l"))]);
     get_b (Tuple_init ([AV (VStr "t")] ++ one_int ++ one_int) []); get_b (List_init ([AV (VStr "l")] ++ one_int) [])] =
    [Ok (VInt 1); Ok (VInt 2); Ok (VList [VInt 3]); Ok (VTuple [VInt 4; VInt 5]); Ok (VList [VInt 3])].
Proof.
  split; [|split; [|split]].
  - eapply (con_list _ _ _ [AV (VStr "l")] _ [] _ (item_is_field _)); [..|reflexivity|reflexivity]; intros g [X|[]]; discriminate.
  - eapply ss_arg; [reflexivity|reflexivity|constructor].
  - eapply con_tuple with (fields := one_int ++ one_int).
    + intros a [<-|[]]. eauto.
    + cbn. lia.
    + apply (fs_apart [get_b (Number_init NInteger [] []); get_b (Number_init NInteger [] [])]). cbn. lia.
    + discriminate.
    + reflexivity.
  - vm_compute. reflexivity.
Qed.
Definition flat_b : bfield := get_b (SubForm_init [ACls (FormTy "A" [fld "k" (KInteger None None)])] [("flat", AV (VBool true))]).
Example C81_flat_case : says [("flat", AV (VBool true))] "flat" /\
  (let '(r, s) := field_map world0 4 (attach_as "n" flat_b) NONEv (in_map doc81 [] Collect) in (r, map snd (forms s))) = (Ok (VForm 0), [[(VStr "k", VInt 2)]]).
Proof. split; [eexists; split; [reflexivity|]; split; [discriminate|now constructor]|vm_compute; reflexivity]. Qed.

(** ** C93: how sub-forms are mapped *)
(** A sub-form field maps a new form of its class as [form.map(unmapped=...)] does with what
    [unmapped] says, and is that form if there are no errors.  [reset] makes no difference. *)
Theorem C93_maps_its_form : forall W rec name pre t post kw b u pid s,
  (forall c, ~ In (ACls c) pre) -> SubForm_init (pre ++ ACls t :: post) kw = Ok b -> unmapped_said (alookup kw "unmapped") u ->
  parse_kind W rec (f_kind (attach_as name b)) pid s = maps_new_form W rec t u s.
Proof. exact C93_maps_lem. Qed.
Print Assumptions C93_maps_its_form.
(** So does one that chooses the class by a type field, once it is chosen. *)
Theorem C93_polymorphic : forall W rec name probe tf table args kw b u pid s,
  Poly_init probe tf table args kw = Ok b -> unmapped_said (alookup kw "unmapped") u ->
  parse_kind W rec (f_kind (attach_as name b)) pid s =
    match poly_type W rec probe tf table pid s with
    | (Ok (inl t), s') => maps_new_form W rec t u s'
    | (Ok (inr v), s') => (Ok v, s')
    | (Exn e, s') => (Exn e, s')
    end.
Proof. exact C93_poly_lem. Qed.
Print Assumptions C93_polymorphic.
(** The three keywords of a sub-form field are accepted, in any combination. *)
Theorem C93_accepts : forall t kw u,
  (forall n a, In (n, a) kw -> In n ["reset"; "unmapped"; "flat"]) -> unmapped_said (alookup kw "unmapped") u ->
  exists b, SubForm_init [ACls t] kw = Ok b.
Proof. exact C93_accepts_lem. Qed.
Print Assumptions C93_accepts.
Example C93_case :
  let t := FormTy "A" [fld "k" (KInteger None None)] in
  let kw := [("reset", AV (VBool true)); ("unmapped", AV (VStr "capture")); ("flat", AV (VBool true))] in
  unmapped_said (alookup kw "unmapped") UCapture /\
  (forall b, SubForm_init [ACls t] kw = Ok b ->
    (let '(r, s) := field_map world0 4 (attach_as "n" b) NONEv (in_map (jdict [("k", VInt 2); ("z", VInt 3)]) [] Collect) in (r, map snd (forms s))) =
      (Ok (VForm 0), [[(VStr "k", VInt 2); (VStr "z", VInt 3)]])).
Proof. split; [constructor|]. intros b [= <-]. vm_compute. reflexivity. Qed.

(** ** C82: dates, times and datetimes *)
(** What a date, time or datetime reads from a text with one of its formats (or finds as it
    is) is its value if it lies between [after] and [before], both included; otherwise there is
    one error, and it names the bound that is violated. *)
Theorem C82_range : forall W n name c args kw b fmts lo hi s eid m es pid p igd igm t w z,
  clock_init c args kw = Ok b -> formats_said (alookup kw "format") fmts ->
  bound_said (alookup kw "after") lo -> bound_said (alookup kw "before") hi -> static_default kw -> ~ says kw "attach_parent" ->
  let f := attach_as name b in
  mapping W s eid m es pid p igd igm -> p_str (w_env W) (place f p) = Ok t ->
  at_clock c w z -> (forall a, lo = Some a -> exists y, at_clock c a y) -> (forall a, hi = Some a -> exists y, at_clock c a y) ->
  (exists x, reads_text W s f p x /\ reads_as (w_env W) x c fmts w) \/ has_instant W s f p w -> untouched f w ->
  ((forall a, ~ early c lo z a) -> (forall a, ~ late c hi z a) -> yields W (S n) f NONEv s eid m es w []) /\
  (forall a, early c lo z a -> yields W (S n) f NONEv s eid m es ERRORv [invalid_at f pid (VioAfter a) t]) /\
  (forall a, (forall e, ~ early c lo z e) -> late c hi z a -> yields W (S n) f NONEv s eid m es ERRORv [invalid_at f pid (VioBefore a) t]).
Proof. exact C82_range_lem. Qed.
Print Assumptions C82_range.
(** When errors are collected: without a format a text is one error; so is, for a time or a
    datetime, a text that does not have the format.  (For a date see C27.) *)
Theorem C82_unread : forall W n name c args kw b fmts lo hi s eid es pid p igd igm t x,
  clock_init c args kw = Ok b -> formats_said (alookup kw "format") fmts ->
  bound_said (alookup kw "after") lo -> bound_said (alookup kw "before") hi -> static_default kw -> ~ says kw "attach_parent" ->
  let f := attach_as name b in
  mapping W s eid Collect es pid p igd igm -> p_str (w_env W) (place f p) = Ok t -> reads_text W s f p x ->
  (fmts = [] -> yields W (S n) f NONEv s eid Collect es ERRORv [invalid_at f pid (VioFormat (VStr x)) t]) /\
  (unreadable (w_env W) x c fmts -> exists viol, yields W (S n) f NONEv s eid Collect es ERRORv [invalid_at f pid viol t]).
Proof. exact C82_error_lem. Qed.
Print Assumptions C82_unread.
(** A world where the format "%j" reads a number of days and the format "%S" a number of seconds *)
Definition envc : env := {|
  py3 := true; e_attr := e_attr env0; e_item := e_item env0; e_call := e_call env0; e_float := e_float env0; e_dec := e_dec env0;
  e_str := e_str env0; e_iso := e_iso env0;
  e_strp := fun x fmt => if String.eqb fmt "%j" then option_map (fun d => d * 86400000000) (parse_int x) else None;
  e_strptime_time := fun x fmt => if String.eqb fmt "%S" then parse_int x else None;
  e_uuid := e_uuid env0; e_re := e_re env0; e_compile := e_compile env0; e_import := e_import env0; e_shlex := e_shlex env0; e_format := e_format env0
|}.
Definition worldc : world := MkWorld envc (fun _ => None).
Definition in_clock (d : val) : st := snd (push worldc [("src", CSrc (json d)); ("errors", CErrs 0)] (St (stk init) [] [] [(Collect, [])])).
Lemma in_clock_mapping d : mapping worldc (in_clock d) 0 Collect [] 0 (at_root (in_clock d)) false false.
Proof.
  split; try reflexivity; try (eexists; split; reflexivity).
  apply (reach_open worldc [("src", CSrc (json d)); ("errors", CErrs 0)] (St (stk init) [] [] [(Collect, [])])); [|reflexivity|reflexivity].
  apply (reach_heap worldc [] [(Collect, [])] init), reach_init.
Qed.
Definition date_kw : kwargs := [("format", AV (VList [VStr "iso8601"; VStr "%j"])); ("after", AV (VDate 10)); ("before", AV (VDate 20))].
Definition date_b : bfield := get_b (Date_init [] date_kw).
Example C82_date_case : let f := attach_as "n" date_b in let s := in_clock (jdict [("n", VStr "15")]) in
  clock_init CDate [] date_kw = Ok date_b /\ formats_said (alookup date_kw "format") ["iso8601"; "%j"] /\ bound_said (alookup date_kw "after") (Some (VDate 10)) /\
  reads_text worldc s f (at_root s) "15" /\ reads_as envc "15" CDate ["iso8601"; "%j"] (VDate 15) /\ untouched f (VDate 15) /\
  map (fun x => let '(r, s) := field_map worldc 3 f NONEv (in_clock (jdict [("n", VStr x)])) in (r, flat_map snd (errs s))) ["10"; "15"; "20"; "9"; "21"] =
  [(Ok (VDate 10), []); (Ok (VDate 15), []); (Ok (VDate 20), []);
   (Ok ERRORv, [MkErr (Invalid (VioAfter (VDate 10))) "n" (Some "n") (Some 0%nat)]); (Ok ERRORv, [MkErr (Invalid (VioBefore (VDate 20))) "n" (Some "n") (Some 0%nat)])].
Proof.
  cbv zeta. split; [reflexivity|]. split; [apply (fo_list ["iso8601"; "%j"])|]. split; [now apply bnd_val|].
  split; [do 5 eexists; repeat split; reflexivity|]. split.
  - refine (ra_date envc "15" ["iso8601"] "%j" [] 1296000000000 _ eq_refl). intros g [<-|[]]. reflexivity.
  - split; [repeat split; left; reflexivity|vm_compute; reflexivity].
Qed.
Definition clock_fields : list bfield :=
  [get_b (Time_init [] [("format", AV (VStr "%S")); ("before", AV (VTime 30))]); get_b (Datetime_init [] [("format", AV (VStr "%j"))]);
   get_b (Datetime_init [] [("format", AV (VStr "iso8601"))]); get_b (Date_init [] [])].
Example C82_unread_case : map (fun b => let '(r, s) := field_map worldc 3 (attach_as "n" b) NONEv (in_clock (jdict [("n", VStr "x")])) in (r, length (flat_map snd (errs s)))) clock_fields =
  repeat (Ok ERRORv, 1%nat) 4 /\ unreadable envc "x" CTime ["%S"] /\ unreadable envc "x" CDatetime ["iso8601"].
Proof. split; [vm_compute; reflexivity|]. split; constructor; reflexivity. Qed.
(** A datetime where a date with a bound is expected is not an error but an exception: it is
    accepted as a date, then cannot be compared with one. *)
Theorem C82_any_instant_refuted : exists W n name args kw b s p w y e,
  clock_init CDate args kw = Ok b /\ alookup kw "after" = Some (AV (VDate y)) /\ mapping W s 0 Collect [] 0 p false false /\
  has_instant W s (attach_as name b) p (VDatetime w) /\ fst (field_map W n (attach_as name b) NONEv s) = Exn (EType e).
Proof.
  exists worldc, 3%nat, "n", [], date_kw, date_b, (in_clock (jdict [("n", VDatetime 0)])), (at_root (in_clock (jdict [("n", VDatetime 0)]))), 0, 10. eexists.
  split; [reflexivity|]. split; [reflexivity|]. split; [apply in_clock_mapping|]. split; [do 3 eexists; repeat split; reflexivity|]. vm_compute. reflexivity.
Qed.
Print Assumptions C82_any_instant_refuted.
