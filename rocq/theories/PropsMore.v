(** * Theorems C83-C85, C90: names in the context, configurations from text, and the text and lists of options. *)
From Verif Require Import PyBase PyStr Source Field Context Fields More SpecCtx SpecMount SpecMore MoreProofs Demo.

(** C83: after opening blocks, [ctx.values_for(k)] lists what it listed before and then what the
    blocks give for [k], oldest first; its last item is [ctx.k]. *)
Theorem C83_values : forall W blocks s s' k, free_name (w_env W) k -> k <> "src_path"%string -> open_all W blocks s = (Ok tt, s') ->
  values_for (w_env W) k s' = values_for (w_env W) k s ++ map Entry (given_by k blocks).
Proof. exact C83_values_lem. Qed.
Print Assumptions C83_values.
Theorem C83_last : forall E k s, free_name E k -> free_in_context k ->
  match ctx_attr k s with
  | Some a => exists l, values_for E k s = l ++ [a]
  | None => values_for E k s = []
  end.
Proof. exact C83_last_lem. Qed.
Print Assumptions C83_last.
Definition three : list frame := [[("colour", CVal (VInt 1))]; [("size", CVal (VInt 2))]; [("colour", CVal (VInt 3))]]%string.
Example C83_case : exists s', free_name (w_env world2) "colour" /\ open_all world2 three init = (Ok tt, s') /\
  values_for (w_env world2) "colour" s' = [Entry (CVal (VInt 1)); Entry (CVal (VInt 3))] /\ ctx_attr "colour" s' = Some (Entry (CVal (VInt 3))) /\
  values_for (w_env world2) "weight" s' = [].
Proof.
  eexists. split; [unfold free_name; rewrite <- dict_names; apply existsb_in; reflexivity|]. split; [vm_compute; reflexivity|]. repeat split; vm_compute; reflexivity.
Qed.
(** For the names of methods of dicts it lists the method of every frame, and a name of
    [Context] itself is never looked up. *)
Theorem C83_method_names : forall E k s, dict_method (py3 E) k -> values_for E k s = repeat (Method k) (length (stk s)).
Proof. exact C83_methods_lem. Qed.
Print Assumptions C83_method_names.
Theorem C83_own_names : forall k s, context_method k -> ctx_attr k s = Some (Method k).
Proof. exact C83_context_lem. Qed.
Print Assumptions C83_own_names.
Example C83_names_case : dict_method (py3 env0) "values" /\ context_method "values_for" /\
  values_for env0 "values" (St [[("values"%string, CVal (VInt 1))]; []] [] [] []) = [Method "values"; Method "values"].
Proof. split; [apply dm_all; cbn; tauto|]. split; [cbn; tauto|reflexivity]. Qed.
(** Not for every name: with a block that gives "items", every frame lists the dict's method;
    and [ctx.stack] is the context's list, whatever a block gives. *)
Theorem C83_any_name_refuted : exists W kw s s', open_all W [kw] s = (Ok tt, s') /\
  (exists c, alookup kw "items"%string = Some c /\ ~ In (Entry c) (values_for (w_env W) "items" s') /\ values_for (w_env W) "items" s' <> []) /\
  (exists c, alookup kw "stack"%string = Some c /\ ctx_attr "stack" s' <> Some (Entry c)).
Proof.
  exists world2, [("items", CVal (VInt 1)); ("stack", CVal (VInt 2))]%string, init. eexists. split; [vm_compute; reflexivity|].
  split; (eexists; split; [reflexivity|]); vm_compute; [split; [intros [H|[H|[]]]|]|]; discriminate.
Qed.
Print Assumptions C83_any_name_refuted.

(** C84: a ConfigSource over a parser with a dict of defaults reads the options of every section;
    without defaults, and without a section, reading any section that exists raises; and a text
    is never accepted as a configuration. *)
Theorem C84_reads : forall E ents cfg loc sec opts d o, alookup cfg sec = Some opts ->
  exists p q v, ConfigSource_init (CfgParser cfg) None loc (VDict d) false false = Ok (SConfig cfg None (VDict d) loc, false) /\
    psource_path (SConfig cfg None (VDict d) loc) = Ok p /\
    pp_value E ents (pp_append (KStr o) (pp_append (KStr sec) p)) = (q, Ok v) /\
    config_value opts (match dict_get d (VStr sec) with Some y => y | None => VNone end) o v.
Proof. exact C84_reads_lem. Qed.
Print Assumptions C84_reads.
Theorem C84_no_defaults : forall E ents cfg loc sec opts, alookup cfg sec = Some opts ->
  exists p q m, ConfigSource_init (CfgParser cfg) None loc VNone false false = Ok (SConfig cfg None VNone loc, false) /\
    psource_path (SConfig cfg None VNone loc) = Ok p /\ pp_value E ents (pp_append (KStr sec) p) = (q, Exn (EAttr m)).
Proof. exact C84_none_lem. Qed.
Print Assumptions C84_no_defaults.
Theorem C84_no_text : forall x section location d keep_space keep_case, exists m,
  ConfigSource_init (CfgText x) section location d keep_space keep_case = Exn (EAttr m) \/
  (keep_space = true /\ location = None /\ ConfigSource_init (CfgText x) section location d keep_space keep_case = Exn (EValue m)).
Proof. exact C84_text_lem. Qed.
Print Assumptions C84_no_text.
Definition slurp : config := [("slurp", [("backfill", "f"); ("strict", "F")])]%string.
Example C84_case : forall ents, exists p, psource_path (SConfig slurp None (VDict []) None) = Ok p /\
  map (fun k => snd (pp_value env0 ents (pp_append (KStr k) (pp_append (KStr "slurp") p)))) ["backfill"; "missing"]%string = [Ok (VStr "f"); Ok (VConst NONE)].
Proof. intros ents. eexists. split; reflexivity. Qed.

(** C85: with [preserve_whitespace], a text with a line break is read from the file: the indented
    lines below the first line of the section that begins with the option's name. *)
Theorem C85_raw : forall dedent E ents file t p q v cfg section d loc option body, pp_primitive E ents t p = (q, Ok (VStr v)) ->
  pp_src p = SConfig cfg (Some section) d loc -> (exists ks, pp_keys p = ks ++ [KStr option]) ->
  solid (chars option) -> lines_below section option file body ->
  raw_primitive dedent E ents true (of_chars (concat file)) t p =
    (q, Ok (VStr (if has_char newline_char v then dedent (of_chars (concat body)) else v))).
Proof. exact C85_raw_lem. Qed.
Print Assumptions C85_raw.
(** Everything else is read as without [preserve_whitespace]. *)
Theorem C85_else : forall dedent E ents keep file t p q r, pp_primitive E ents t p = (q, r) ->
  (keep = false \/ (forall v, r = Ok (VStr v) -> has_char newline_char v = false)) ->
  raw_primitive dedent E ents keep file t p = (q, r).
Proof. exact C85_else_lem. Qed.
Print Assumptions C85_else.
(** A file without the section's header — for a source without a section, the header "[None]" — gives the empty text. *)
Theorem C85_nowhere : forall dedent section option file, Forall a_line file ->
  (forall l, In l file -> ~ around (header_of (match section with Some s => s | None => "None" end)) l) ->
  as_raw dedent section option (of_chars (concat file)) = dedent ""%string.
Proof. exact C85_nowhere_lem. Qed.
Print Assumptions C85_nowhere.
Definition line (x : string) : list ascii := chars x ++ [newline_char].
Definition nl : string := of_chars [newline_char].
Definition mail : list (list ascii) := map line ["[other]"; "body ="; "  no"; "[mail]"; "subject = x"; "body ="; "  Hello"; "    you"; "to = z"]%string.
Definition option_path (cfg : config) (section option : string) : ppath :=
  pp_append (KStr option) (Source.PPath (SConfig cfg (Some section) VNone (Some "f.ini"%string)) (VCfgSec (match alookup cfg section with Some o => o | None => [] end) VNone) []).
Definition mail_cfg : config := [("mail", [("subject", "x"); ("body", nl ++ "Hello" ++ nl ++ "you"); ("to", "z")])]%string.
Ltac solve_line := match goal with |- a_line ?l => let n := eval vm_compute in (length l - 1)%nat in exists (firstn n l); split; [vm_compute; reflexivity|vm_compute; intuition discriminate] end.
Example C85_case : forall ents,
  lines_below "mail" "body" mail [line "  Hello"; line "    you"] /\
  snd (pp_primitive env0 ents TyStr (option_path mail_cfg "mail" "body")) = Ok (VStr (nl ++ "Hello" ++ nl ++ "you")) /\
  snd (raw_primitive (fun x => x) env0 ents true (of_chars (concat mail)) TyStr (option_path mail_cfg "mail" "body")) = Ok (VStr ("  Hello" ++ nl ++ "    you" ++ nl)) /\
  snd (raw_primitive (fun x => x) env0 ents true (of_chars (concat mail)) TyStr (option_path mail_cfg "mail" "to")) = Ok (VStr "z").
Proof.
  intros ents. split; [constructor; exists (map line ["[other]"; "body ="; "  no"])%string, (line "[mail]"), [line "subject = x"], (line "body ="), [line "to = z"]; split; [reflexivity|]|].
  - split; [repeat constructor; solve_line|]. split; [apply strip_around; [apply header_solid|reflexivity]|].
    split; [intros l [<-|[<-|[<-|[]]]] H; apply strip_around in H; [discriminate|apply header_solid|discriminate|apply header_solid|discriminate|apply header_solid]|].
    assert (SB : solid (chars "body")) by (split; [exists "b"%char; eexists|exists "y"%char, (chars "bod")]; split; reflexivity).
    split; [apply starts_leads; [exact SB|reflexivity]|]. split; [intros l [<-|[]] H; apply starts_leads in H; [discriminate|exact SB]|].
    split; [repeat constructor; eexists; eexists; split; reflexivity|]. intros (c & r & [= <- <-] & X). discriminate.
  - vm_compute. repeat split; reflexivity.
Qed.
(** What the file says on the option's own line is lost. *)
Theorem C85_first_line_refuted : exists cfg file v w, forall ents,
  snd (pp_primitive env0 ents TyStr (option_path cfg "mail" "body")) = Ok (VStr v) /\ v = ("Dear" ++ nl ++ "you")%string /\
  snd (raw_primitive (fun x => x) env0 ents true (of_chars (concat file)) TyStr (option_path cfg "mail" "body")) = Ok (VStr w) /\ w = ("  you" ++ nl)%string /\
  file = map line ["[mail]"; "body = Dear"; "  you"]%string.
Proof.
  exists [("mail", [("body", "Dear" ++ nl ++ "you")])]%string, (map line ["[mail]"; "body = Dear"; "  you"]%string). eexists. eexists. intros ents. vm_compute. repeat split; reflexivity.
Qed.
Print Assumptions C85_first_line_refuted.
(** An option whose name begins an earlier option's gets that option's text. *)
Theorem C85_own_option_refuted : exists cfg file, forall ents,
  file = map line ["[mail]"; "body_html ="; "  <p>"; "  </p>"; "body ="; "  Dear"; "  you"]%string /\
  snd (pp_primitive env0 ents TyStr (option_path cfg "mail" "body")) = Ok (VStr (nl ++ "Dear" ++ nl ++ "you")) /\
  snd (raw_primitive (fun x => x) env0 ents true (of_chars (concat file)) TyStr (option_path cfg "mail" "body")) = Ok (VStr ("  <p>" ++ nl ++ "  </p>" ++ nl)).
Proof.
  exists [("mail", [("body_html", nl ++ "<p>" ++ nl ++ "</p>"); ("body", nl ++ "Dear" ++ nl ++ "you")])]%string. eexists. intros ents. split; [reflexivity|]. vm_compute. split; reflexivity.
Qed.
Print Assumptions C85_own_option_refuted.

(** C90: an option whose text has a line break is the list of its lines, without the space
    around them and without blank lines: so many elements, and each read by its index. *)
Theorem C90_lines : forall E ents p q v cfg section d loc ps xs, pp_value E ents p = (q, Ok (VStr v)) -> pp_src p = SConfig cfg section d loc ->
  In newline_char (chars v) -> broken (chars v) ps -> stripped ps xs ->
  pp_sequence E ents p = (q, Ok (length xs)) /\
  forall i : nat, snd (pp_value E ents (pp_append (KInt (Z.of_nat i)) q)) = Ok (match nth_error xs i with Some x => VStr (of_chars x) | None => VConst NONE end).
Proof. exact C90_lines_lem. Qed.
Print Assumptions C90_lines.
(** On one line it is the words that [shlex.split] finds; what that raises, the length raises and
    every read of an element (but for the errors that stand for a missing key). *)
Theorem C90_words : forall E ents p q v cfg section d loc, pp_value E ents p = (q, Ok (VStr v)) -> pp_src p = SConfig cfg section d loc ->
  ~ In newline_char (chars v) ->
  match e_shlex E v with
  | Ok ws => pp_sequence E ents p = (q, Ok (length ws)) /\
      forall i : nat, snd (pp_value E ents (pp_append (KInt (Z.of_nat i)) q)) = Ok (match nth_error ws i with Some x => VStr x | None => VConst NONE end)
  | Exn e => pp_sequence E ents p = (q, Exn e) /\
      (is_lookup_or_type e = false -> forall k, (forall x, k <> KRaw x) -> snd (pp_value E ents (pp_append k q)) = Exn e)
  end.
Proof. exact C90_words_lem. Qed.
Print Assumptions C90_words.
Definition hosts_text : string := nl ++ "  one " ++ nl ++ nl ++ "two words" ++ nl.
Definition hosts : config := [("web", [("hosts", hosts_text)])]%string.
Example C90_case : forall ents,
  snd (pp_value env0 ents (option_path hosts "web" "hosts")) = Ok (VStr hosts_text) /\ In newline_char (chars hosts_text) /\
  broken (chars hosts_text) (map chars [""; "  one "; ""; "two words"; ""]%string) /\
  stripped (map chars [""; "  one "; ""; "two words"; ""]%string) (map chars ["one"; "two words"]%string) /\
  (let s := snd (new_form (FormTy "Web" [fld "hosts" (KList (anon (KString no_strc)) None None false)]) init) in
   let x := Form_map world0 9 0 (ASrc (SBase (BPlain (SConfig hosts (Some "web"%string) (VDict []) None)))) [] true UIgnore Collect s in
   fst x = Ok [] /\ match forms (snd x) with [(_, l)] => l = [(VStr "hosts", VList [VStr "one"; VStr "two words"])] | _ => False end).
Proof.
  intros ents. split; [reflexivity|]. split; [cbn; auto|]. split.
  { apply (broken_at [] newline_char); [intros c []|now left|].
    apply (broken_at (chars "  one ") newline_char); [|now left|].
    { intros c I [Q|Q]; subst c; vm_compute in I; intuition discriminate. }
    apply (broken_at [] newline_char); [intros c []|now left|].
    apply (broken_at (chars "two words") newline_char); [|now left|].
    { intros c I [Q|Q]; subst c; vm_compute in I; intuition discriminate. }
    apply (broken_end []). intros c []. }
  split.
  { assert (S1 : solid (chars "one")) by (split; [exists "o"%char; eexists|exists "e"%char, (chars "on")]; split; reflexivity).
    assert (S2 : solid (chars "two words")) by (split; [exists "t"%char; eexists|exists "s"%char, (chars "two word")]; split; reflexivity).
    cbn [map]. apply stripped_blank; [intros c []|]. apply (stripped_line _ (chars "one")); [apply strip_around; [exact S1|reflexivity]|exact S1|].
    apply stripped_blank; [intros c []|]. apply (stripped_line _ (chars "two words")); [apply strip_around; [exact S2|reflexivity]|exact S2|].
    apply stripped_blank; [intros c []|]. apply stripped_nil. }
  vm_compute. auto.
Qed.
