(** * Theorems C07-C15 and C68: reading sources. *)
From Coq Require Import SpecFloat.
From Verif Require Import PyBase PyStr Source Field Context Fields SpecSrc SrcPath SrcProofs SpecRound FloatProofs SpecParse ParseProofs Demo.

Definition no_forms : entries_of := fun _ => [].

(** C07: each read along any sequence of descents, ascents and reads equals a read by a
    path nobody has used.  JSON and ConfigParser sources, every sequence. *)
Theorem C07_json_reads_repeatable : forall E ents d strict loc l,
  Forall plain_cmd l ->
  drive E ents l (untouched (SJson d strict loc) d []) = afresh E ents (SJson d strict loc) d l [].
Proof. exact C07_json_lem. Qed.
Print Assumptions C07_json_reads_repeatable.
Example C07_json_case :
  let cmds := [Down (KStr "l"); Down (KInt 1); Read OpValue; Up; Read OpValue; Down (KInt 7); Read OpExists; Read OpExists] in
  Forall plain_cmd cmds /\
  drive env0 no_forms cmds (untouched (SJson outer_ok false None) outer_ok []) =
  [ObsUnit (Ok tt); ObsUnit (Ok tt); ObsVal (Ok (VInt 2)); ObsUnit (Ok tt);
   ObsVal (Ok (VList [VInt 1; VInt 2])); ObsUnit (Ok tt); ObsBool (Ok false); ObsBool (Ok false)].
Proof. split; [repeat constructor|vm_compute; reflexivity]. Qed.

Theorem C07_config_reads_repeatable : forall E ents cfg sec defaults loc root l,
  Forall plain_cmd l ->
  drive E ents l (untouched (SConfig cfg sec defaults loc) root []) =
  afresh E ents (SConfig cfg sec defaults loc) root l [].
Proof. exact C07_config_lem. Qed.
Print Assumptions C07_config_reads_repeatable.
Example C07_config_case :
  let cfg := [("s", [("x", "1")])] in
  let cmds := [Down (KStr "s"); Down (KStr "x"); Read (OpPrimitive TyInt); Up; Down (KStr "y"); Read OpExists] in
  Forall plain_cmd cmds /\
  drive env0 no_forms cmds (untouched (SConfig cfg None (VDict []) None) (VCfgRoot cfg (VDict [])) []) =
  [ObsUnit (Ok tt); ObsUnit (Ok tt); ObsVal (Ok (VInt 1)); ObsUnit (Ok tt); ObsUnit (Ok tt); ObsBool (Ok false)].
Proof. split; [repeat constructor|vm_compute; reflexivity]. Qed.

(** Native data without aliases and ignores, as long as every location above a read
    exists. *)
Theorem C07_native_reads_repeatable : forall E ents d loc l,
  Forall plain_cmd l -> reads_below_existing E ents (SDefault d [] [] loc) d l [] ->
  drive E ents l (untouched (SDefault d [] [] loc) d []) = afresh E ents (SDefault d [] [] loc) d l [].
Proof. exact C07_native_lem. Qed.
Print Assumptions C07_native_reads_repeatable.
Example C07_native_case :
  let cmds := [Down (KStr "sub"); Read OpMapping; Down (KStr "x"); Read OpValue; Up; Read OpExists] in
  Forall plain_cmd cmds /\
  reads_below_existing env0 no_forms (SDefault outer_ok [] [] None) outer_ok cmds [] /\
  value_at env0 no_forms (SDefault outer_ok [] [] None) outer_ok [KStr "sub"; KStr "x"] = Ok (VInt 3).
Proof.
  split; [repeat constructor|]. split; [|vm_compute; reflexivity].
  cbn [reads_below_existing app removelast]. repeat split; intros [|k1 [|k2 [|k3 pre]]] k post H; try discriminate;
    cbn [app] in H; injection H as ? ?; subst; try discriminate; vm_compute; discriminate.
Qed.

(** What a read of JSON data is: the value at that location of the document. *)
Theorem C07_json_value : forall E ents d strict loc ks,
  json_val d = true -> Forall plain_key ks ->
  value_at E ents (SJson d strict loc) d ks =
  Ok (match json_at d ks with Some v => v | None => VConst NONE end).
Proof. exact C07_json_value_lem. Qed.
Print Assumptions C07_json_value.
Example C07_json_value_case :
  json_val outer_ok = true /\ json_at outer_ok [KStr "sub.y"] = Some (VStr "z") /\
  json_at outer_ok [KStr "l"; KInt (-1)] = Some (VInt 2) /\ json_at outer_ok [KStr "a"; KStr "q"] = None.
Proof. vm_compute. auto. Qed.

(** C08 is false: the first question caches the missing container, and the sentinel it
    caches has an attribute called "name". *)
Theorem C08_missing_stays_missing_refuted : exists E ents d ks,
  drive E ents (map Down ks ++ [Read OpExists; Read OpExists]) (untouched (SDefault d [] [] None) d []) =
  map (fun _ => ObsUnit (Ok tt)) ks ++ [ObsBool (Ok false); ObsBool (Ok true)].
Proof. exists env0, no_forms, (VDict []), [KStr "missing"; KStr "name"]. vm_compute. reflexivity. Qed.
Print Assumptions C08_missing_stays_missing_refuted.

(** This is so below every missing key of any data: the first question answers no, all
    later ones yes. *)
Theorem C08_name_appears : forall E ents d loc k, (forall v, k <> KRaw v) ->
  psource_resolve E ents (SDefault d [] [] loc) [k; KStr "name"] d k = Ok (VConst NONE) ->
  forall n, drive E ents ([Down k; Down (KStr "name"); Read OpExists] ++ repeat (Read OpExists) n) (untouched (SDefault d [] [] loc) d []) =
    [ObsUnit (Ok tt); ObsUnit (Ok tt); ObsBool (Ok false)] ++ repeat (ObsBool (Ok true)) n.
Proof. exact C08_name_lem. Qed.
Print Assumptions C08_name_appears.
Example C08_name_case : forall ents, psource_resolve env0 ents (SDefault outer_ok [] [] None) [KStr "missing"; KStr "name"] outer_ok (KStr "missing") = Ok (VConst NONE).
Proof. reflexivity. Qed.

(** It holds as soon as no key, nor its first dotted piece, is "name" (call suffixes
    aside), in an interpreter whose sentinel has no other public attribute: then every
    read is repeatable, also through missing locations. *)
Theorem C08_missing_stays_missing_partial : forall E ents d loc l,
  (forall s, e_attr E (VConst NONE) s = None) -> Forall (cmd_in tame_key) l ->
  drive E ents l (untouched (SDefault d [] [] loc) d []) = afresh E ents (SDefault d [] [] loc) d l [].
Proof. exact C08_lem. Qed.
Print Assumptions C08_missing_stays_missing_partial.
Example C08_case :
  let cmds := [Down (KStr "missing"); Down (KStr "names"); Read OpExists; Read OpExists] in
  (forall s, e_attr env0 (VConst NONE) s = None) /\ Forall (cmd_in tame_key) cmds /\
  drive env0 no_forms cmds (untouched (SDefault outer_ok [] [] None) outer_ok []) =
  [ObsUnit (Ok tt); ObsUnit (Ok tt); ObsBool (Ok false); ObsBool (Ok false)].
Proof.
  split; [reflexivity|]. split; [|vm_compute; reflexivity].
  repeat constructor; cbn; discriminate.
Qed.

(** C68 is false: an ignored location whose child is read first is read as present. *)
Theorem C68_ignored_stays_ignored_refuted : exists E ents d ignores ks k,
  In ["a"] ignores /\ ks = [KStr "a"] /\
  drive E ents ([Down (KStr "a"); Read OpExists]) (untouched (SDefault d [] ignores None) d []) =
    [ObsUnit (Ok tt); ObsBool (Ok false)] /\
  drive E ents ([Down (KStr "a"); Down k; Read OpExists; Up; Read OpExists]) (untouched (SDefault d [] ignores None) d []) =
    [ObsUnit (Ok tt); ObsUnit (Ok tt); ObsBool (Ok true); ObsUnit (Ok tt); ObsBool (Ok true)].
Proof.
  exists env0, no_forms, (jdict [("a", jdict [("b", VInt 1)])]), [["a"]], [KStr "a"], (KStr "b").
  vm_compute. auto.
Qed.
Print Assumptions C68_ignored_stays_ignored_refuted.

(** C09 *)
Theorem C09_text_determines_path : forall E src ks ks' s,
  Forall clear_key ks -> Forall clear_key ks' ->
  pkeys_str E src ks = Ok s -> pkeys_str E src ks' = Ok s -> ks = ks'.
Proof. exact C09_source_lem. Qed.
Print Assumptions C09_text_determines_path.
Theorem C09_every_path_has_text : forall E src ks, Forall clear_key ks -> exists s, pkeys_str E src ks = Ok s.
Proof. exact C09_total_lem. Qed.
Print Assumptions C09_every_path_has_text.
Theorem C09_union_text_determines_path : forall E ks ks' s,
  Forall clear_key ks -> Forall clear_key ks' ->
  keys_str E ks = Ok s -> keys_str E ks' = Ok s -> ks = ks'.
Proof. exact C09_keys_lem. Qed.
Print Assumptions C09_union_text_determines_path.
(** The text itself. *)
Theorem C09_text : forall E src ks t, pkeys_str E src ks = Ok t <-> exists b r, leading src b /\ spelled E ks r /\ t = (b ++ r)%string.
Proof. exact C09_text_lem. Qed.
Print Assumptions C09_text.
(** A key that is neither a name nor an index, other than the first, has no text: asking raises. *)
Theorem C09_no_text : forall E src k ks, Exists (fun k => exists v, k = KRaw v) ks ->
  pkeys_str E src (k :: ks) = Exn (EAttr "no attribute 'key'").
Proof. exact C09_none_lem. Qed.
Print Assumptions C09_no_text.
Example C09_text_case :
  leading (SConfig [] (Some "main") VNone (Some "a.cfg")) "a.cfg:[main]:" /\ spelled env0 [KStr "l"; KInt 3; KStr "x"] "l[3].x" /\
  pkeys_str env0 (SConfig [] (Some "main") VNone (Some "a.cfg")) [KStr "l"; KInt 3; KStr "x"] = Ok "a.cfg:[main]:l[3].x" /\
  pkeys_str env0 (SJson VNone false None) [KStr "l"; KRaw VNone] = Exn (EAttr "no attribute 'key'").
Proof.
  split; [apply (lg_config [] (Some "main") VNone (Some "a.cfg") "a.cfg:" "[main]:"); constructor; discriminate|].
  split; [|split; vm_compute; reflexivity]. apply (sp_name env0 "l" _ "[3].x"), (sr_index 3 _ ".x"), (sr_name "x" _ ""), sr_nil.
Qed.
Example C09_case :
  Forall clear_key [KStr "l"; KInt (-12); KStr "x"] /\
  pkeys_str env0 (SJson VNone false (Some "f.json")) [KStr "l"; KInt (-12); KStr "x"] = Ok "f.json:l[-12].x".
Proof.
  split; [|vm_compute; reflexivity].
  assert (NP : forall c z, digit_of c = None -> Ascii.eqb c "-" = false -> String c "" <> print_int z).
  { intros c z D M H. pose proof (print_chars z c) as P. rewrite <- H in P. cbn in P.
    destruct P as [->|[d P]]; [now left|discriminate|congruence]. }
  repeat constructor; cbn; try discriminate;
    try (intros z; now apply NP); intros [H|[]]; discriminate.
Qed.

(** C10 *)
Theorem C10_present_wins : forall E ents P d aliases ignores loc ks c s v,
  native_data E ents P -> P c -> (forall i, In i ignores -> ks <> map KStr i) ->
  strip_call s = None -> is_NONE v = false ->
  (psource_resolve E ents (SDefault d aliases ignores loc) ks c (KStr s) = Ok v <->
   found E ents aliases (length ks) c s v).
Proof. exact C10_present_lem. Qed.
Print Assumptions C10_present_wins.
Theorem C10_missing_only_if_nowhere : forall E ents P d aliases ignores loc ks c s,
  native_data E ents P -> P c -> (forall i, In i ignores -> ks <> map KStr i) ->
  strip_call s = None ->
  (psource_resolve E ents (SDefault d aliases ignores loc) ks c (KStr s) = Ok (VConst NONE) <->
   forall v, ~ found E ents aliases (length ks) c s v).
Proof. exact C10_absent_lem. Qed.
Print Assumptions C10_missing_only_if_nowhere.
Lemma json_native : native_data env0 no_forms (fun v => json_val v = true).
Proof.
  split.
  - intros c H. destruct c; try discriminate; exact I.
  - intros c k v H I0. destruct I0 as [l x w G|i x w G|l i w G|l i w G|l i w G|l i w G|s i a G|s i a G|cls i x w G]; try discriminate; try reflexivity.
    + cbn in H. rewrite forallb_forall in H. unfold dict_get in G.
      destruct (find _ l) as [[a b]|] eqn:F; [|discriminate]. cbn in G. injection G as ->. apply find_some in F.
      specialize (H _ (proj1 F)). cbn in H. destruct a; try discriminate. exact H.
    + cbn in H. rewrite forallb_forall in H. apply nth_error_In in G. auto.
    + cbn in H. rewrite forallb_forall in H. apply nth_error_In in G. apply in_rev in G. auto.
  - discriminate.
  - discriminate.
Qed.
Example C10_case :
  let c := jdict [("a.b", VInt 1); ("a", jdict [("c", VInt 2)])] in
  native_data env0 no_forms (fun v => json_val v = true) /\ json_val c = true /\
  found env0 no_forms [] 1 c "a.b" (VInt 1) /\ found env0 no_forms [] 1 c "a.c" (VInt 2).
Proof.
  split; [exact json_native|]. split; [reflexivity|]. split.
  - apply found_whole, by_item. constructor. reflexivity.
  - apply found_pieces.
    + intros w [v H|v a _ _ H _|v _ _ H]; [|discriminate|discriminate]. inversion H as [? ? ? G| | | | | | | |]. vm_compute in G. discriminate.
    + apply (steps_next _ _ _ _ _ _ (jdict [("c", VInt 2)])); [apply by_item; constructor; reflexivity|].
      apply (steps_next _ _ _ _ _ _ (VInt 2)); [apply by_item; constructor; reflexivity|constructor].
Qed.

(** C11: only with the extra hypothesis that a dict has no attribute of that name. *)
Theorem C11_absent_key_missing_partial : forall E ents d aliases ignores loc ks l s,
  dict_get l (VStr s) = None -> has_char dot s = false -> strip_call s = None ->
  e_attr E (VDict l) s = None -> (forall a, alookup aliases s = Some a -> length ks <> 1%nat) ->
  psource_resolve E ents (SDefault d aliases ignores loc) ks (VDict l) (KStr s) = Ok (VConst NONE).
Proof. exact C11_lem. Qed.
Print Assumptions C11_absent_key_missing_partial.
Example C11_case : dict_get [(VStr "a", VInt 1)] (VStr "b") = None /\ has_char dot "b" = false /\
  strip_call "b" = None /\ e_attr env0 (VDict [(VStr "a", VInt 1)]) "b" = None.
Proof. vm_compute. auto. Qed.
(** An interpreter in which a dict has its [items] method. *)
Definition env_items : env := {|
  py3 := true;
  e_attr := fun v a => match v with VDict _ => if String.eqb a "items" then Some (VObj "builtin_method" 0) else None | _ => None end;
  e_item := e_item env0; e_call := e_call env0; e_float := e_float env0; e_dec := e_dec env0; e_str := e_str env0;
  e_iso := e_iso env0; e_strp := e_strp env0; e_strptime_time := e_strptime_time env0; e_uuid := e_uuid env0;
  e_re := e_re env0; e_compile := e_compile env0; e_import := e_import env0; e_shlex := e_shlex env0; e_format := e_format env0
|}.
Theorem C11_absent_key_missing_refuted : exists E ents d l s v,
  dict_get l (VStr s) = None /\ has_char dot s = false /\ strip_call s = None /\
  psource_resolve E ents (SDefault d [] [] None) [KStr s] (VDict l) (KStr s) = Ok v /\ is_NONE v = false.
Proof. exists env_items, no_forms, (VDict []), [], "items", (VObj "builtin_method" 0). vm_compute. auto. Qed.
Print Assumptions C11_absent_key_missing_refuted.

(** In general an absent key gives the attribute of that name, of any dict, if it has one. *)
Theorem C11_absent_key_is_attribute : forall E ents d aliases ignores loc ks l s,
  dict_get l (VStr s) = None -> has_char dot s = false -> strip_call s = None ->
  is_ignored ignores ks = false -> (forall a, alookup aliases s = Some a -> length ks <> 1%nat) ->
  psource_resolve E ents (SDefault d aliases ignores loc) ks (VDict l) (KStr s) =
  Ok (match e_attr E (VDict l) s with Some v => v | None => VConst NONE end).
Proof. exact C11_exact_lem. Qed.
Print Assumptions C11_absent_key_is_attribute.
Example C11_attribute_case : forall ents,
  psource_resolve env_items ents (SDefault VNone [] [["a"; "b"]] None) [KStr "x"; KStr "items"] (VDict [(VStr "a", VInt 1)]) (KStr "items") = Ok (VObj "builtin_method" 0) /\
  psource_resolve env_items ents (SDefault VNone [] [["a"; "b"]] None) [KStr "x"; KStr "y"] (VDict [(VStr "a", VInt 1)]) (KStr "y") = Ok (VConst NONE).
Proof. split; reflexivity. Qed.

(** C12: [mixin_parse] is the parser of native, union and config sources. *)
Theorem C12_accepts_exactly : forall E v w,
  mixin_parse E TyInt v = Ok w <-> exists n, w = VInt n /\ denotes v n.
Proof.
  exact (fun E v w => conj (C12_only_lem v w)
    (fun H => match H with ex_intro _ n (conj e d) => eq_ind_r (fun w => as_int v = Ok w) (proj2 (C12_accept_lem v n) d) e end)).
Qed.
Print Assumptions C12_accepts_exactly.
Theorem C12_rejects_the_rest : forall E v,
  (forall n, ~ denotes v n) -> mixin_parse E TyInt v = Exn (ESource (NotInteger v)).
Proof. exact (fun E => C12_reject_lem). Qed.
Print Assumptions C12_rejects_the_rest.
Example C12_case :
  denotes (VFloat (SpecFloat.S754_finite false 6755399441055744 (-51))) 3 /\ denotes (VStr " +12 ") 12 /\
  (forall n, ~ denotes (VStr "1.0") n) /\ (forall n, ~ denotes (VBool true) n).
Proof.
  split; [econstructor; [reflexivity|vm_compute; reflexivity]|].
  split; [constructor; exists [" "%char], ["+"%char; "1"%char; "2"%char], [" "%char];
          split; [reflexivity|]; split; [repeat constructor|]; split; [repeat constructor|]; apply sign_plus|].
  { exact (digits_more ["1"%char] "2"%char 1 2 (digits_one "1"%char 1 eq_refl) eq_refl). }
  split; intros n H; apply C12_accept_lem in H; vm_compute in H; discriminate.
Qed.

(** C13 *)
Theorem C13_text_round_trips : forall E a b n,
  blank a -> blank b -> mixin_parse E TyInt (VStr (of_chars a ++ print_int n ++ of_chars b)) = Ok (VInt n).
Proof. exact (fun E => C13_spaced_lem). Qed.
Print Assumptions C13_text_round_trips.
Theorem C13_plus_sign_round_trips : forall E a b n,
  blank a -> blank b -> 0 <= n ->
  mixin_parse E TyInt (VStr (of_chars a ++ "+" ++ print_int n ++ of_chars b)) = Ok (VInt n).
Proof. exact (fun E => C13_plus_lem). Qed.
Print Assumptions C13_plus_sign_round_trips.
(** [print_int] is decimal notation. *)
Theorem C13_text_is_decimal : forall n, signed (chars (print_int n)) n.
Proof. exact print_signed. Qed.
Print Assumptions C13_text_is_decimal.
Example C13_case : print_int (-1203) = "-1203" /\ print_int 0 = "0" /\ blank [" "%char; ascii_of_nat 9].
Proof. repeat split; repeat constructor. Qed.

(** C14 *)
Theorem C14_accepts_exactly : forall E v b, mixin_parse E TyBool v = Ok (VBool b) <-> means v b.
Proof. exact (fun E => C14_accept_lem). Qed.
Print Assumptions C14_accepts_exactly.
Theorem C14_rejects_the_rest : forall E v,
  (forall b, ~ means v b) -> mixin_parse E TyBool v = Exn (ESource (NotBoolean v)).
Proof. exact (fun E => C14_reject_lem). Qed.
Print Assumptions C14_rejects_the_rest.
Example C14_case : means (VStr "FALSE") false /\ means (VStr "t") true /\ (forall b, ~ means (VStr "yes") b) /\
  forall b, ~ means VNone b.
Proof.
  split; [apply means_no; vm_compute; auto|]. split; [apply means_yes; vm_compute; auto|].
  split; intros b H; apply C14_accept_lem in H; vm_compute in H; discriminate.
Qed.

(** C15 *)
Theorem C15_strict_value_unchanged : forall E d loc t v w,
  psource_parse E (SJson d true loc) t v = Ok w ->
  w = v \/ (t = TyFloat /\ exists z, (v = VInt z \/ exists b, v = VBool b /\ z = Z.b2z b) /\ float_of z w).
Proof. exact C15_value_lem. Qed.
Print Assumptions C15_strict_value_unchanged.
Theorem C15_int_as_float : forall E d loc strict z,
  (Z.abs z < 2 ^ 1024 - 2 ^ 970 -> exists w, psource_parse E (SJson d strict loc) TyFloat (VInt z) = Ok w /\ float_of z w) /\
  (2 ^ 1024 - 2 ^ 970 <= Z.abs z -> psource_parse E (SJson d strict loc) TyFloat (VInt z) = Exn EOverflow).
Proof. exact C15_float_lem. Qed.
Print Assumptions C15_int_as_float.
(** [2 ** 53 + 1] is no double: it is rounded to [2 ** 53]. *)
Example C15_float_case : psource_parse env0 (SJson VNone true None) TyFloat (VInt (2 ^ 53 + 1)) = Ok (VFloat (S754_finite false (2 ^ 52) 1)).
Proof. reflexivity. Qed.
Theorem C15_strict_value_has_type : forall E d loc t v w,
  psource_parse E (SJson d true loc) t v = Ok w -> has_type t w.
Proof. exact (fun E d loc => C15_type_lem E). Qed.
Print Assumptions C15_strict_value_has_type.
Theorem C15_lax_extends_strict : forall E d loc t v w,
  psource_parse E (SJson d true loc) t v = Ok w -> psource_parse E (SJson d false loc) t v = Ok w.
Proof. exact (fun E d loc => C15_mono_lem E). Qed.
Print Assumptions C15_lax_extends_strict.
Example C15_case : psource_parse env0 (SJson VNone true None) TyInt (VInt 3) = Ok (VInt 3) /\
  psource_parse env0 (SJson VNone true None) TyInt (VStr "3") = Exn (ESource (NotInteger (VStr "3"))) /\
  psource_parse env0 (SJson VNone false None) TyInt (VStr "3") = Ok (VInt 3) /\
  exists f, psource_parse env0 (SJson VNone true None) TyFloat (VInt 3) = Ok (VFloat f).
Proof. repeat split. eexists. vm_compute. reflexivity. Qed.

(** C96: what a source reads as a text, an integer, a float and a boolean, and what it
    raises otherwise.  A JSON source, strict or not. *)
Theorem C96_json : forall E d strict loc t v,
  json_read E strict t v (psource_parse E (SJson d strict loc) t v).
Proof. exact json_reads. Qed.
Print Assumptions C96_json.
(** Native and configuration sources *)
Theorem C96_other_sources : forall E src t v,
  (forall d strict loc, src <> SJson d strict loc) -> native_read E t v (psource_parse E src t v).
Proof.
  exact (fun E src t v => match src with
    | SJson d s l => fun H => match H d s l eq_refl with end
    | _ => fun _ => native_reads E t v end).
Qed.
Print Assumptions C96_other_sources.
Example C96_case :
  let lax := SJson VNone false None in let strict := SJson VNone true None in let nat := SDefault (VDict []) [] [] None in
  psource_parse env0 lax TyBool (VInt 2) = Ok (VBool true) /\ psource_parse env0 lax TyBool (VInt 0) = Ok (VBool false) /\
  psource_parse env0 strict TyBool (VInt 2) = Exn (ESource (NotBoolean (VInt 2))) /\
  psource_parse env0 lax TyBool (VStr "true") = Exn (ESource (NotBoolean (VStr "true"))) /\
  psource_parse env0 nat TyBool (VStr "true") = Ok (VBool true) /\
  psource_parse env0 lax TyInt (VStr " 12 ") = Ok (VInt 12) /\
  psource_parse env0 nat TyStr (VInt 1) = Exn (ESource (NotString (VInt 1))) /\
  psource_parse env0 strict TyFloat (VBool true) = Ok (VFloat (S754_finite false (2 ^ 52) (-52))) /\
  psource_parse env0 nat TyFloat (VInt (2 ^ 1024)) = Exn EOverflow /\ too_large (2 ^ 1024) /\
  (forall d strict loc, nat <> SJson d strict loc).
Proof. repeat split; discriminate. Qed.

