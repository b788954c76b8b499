(** * Theorems C45, C46: the keys of the source that no field reads. *)
From Verif Require Import PyBase PyStr Source Field Context Fields SpecCtx SpecSrc SpecForm SpecJson SpecMount Eval FormLemmas MountProofs ReadProofs ReadMore CaptureProofs Regime Demo PropsEval.
Open Scope Z_scope.

(** C45: mapping a JSON object with [unmapped='capture'] is mapping it with 'ignore' and
    then adding to the form each key of the object that is not an entry, with the value at
    that key; a key without value (it contains a dot or an index) is reported as missing
    instead. *)
Theorem C45_capture : forall W fuel items strict loc id t l tags rs s es s0,
  json_val (VDict items) = true -> nth_error (forms s) id = Some (t, l) -> direct_form t -> mapping_context s ->
  Form_map W (S (S fuel)) id (ASrc (SBase (BPlain (SJson (VDict items) strict loc)))) tags rs UIgnore Collect s = (Ok es, s0) ->
  exists s1,
    Form_map W (S (S fuel)) id (ASrc (SBase (BPlain (SJson (VDict items) strict loc)))) tags rs UCapture Collect s =
      (Ok (es ++ if missing_ignored s then [] else map (lost loc (length (paths s))) (lost_keys items (entries_at s0 id))), s1) /\
    (forall k, dict_get (entries_at s1 id) (VStr k) =
       match dict_get (entries_at s0 id) (VStr k) with
       | Some v => Some v
       | None => if existsb (String.eqb k) (str_keys items) then at_key items k else None
       end) /\
    (forall k, (forall a, k <> VStr a) -> dict_get (entries_at s1 id) k = dict_get (entries_at s0 id) k) /\
    (forall i, i <> id -> nth_error (forms s1) i = nth_error (forms s0) i).
Proof. exact C45_json_lem. Qed.
Print Assumptions C45_capture.
(** From native data every key is stored, with the value it has, and no error is added. *)
Theorem C45_native_capture : forall W fuel P items loc id t l tags rs s es s0,
  plain_native (w_env W) P -> P (VDict items) -> nth_error (forms s) id = Some (t, l) -> direct_form t -> mapping_context s ->
  Form_map W (S (S fuel)) id (ASrc (SBase (BPlain (SDefault (VDict items) [] [] loc)))) tags rs UIgnore Collect s = (Ok es, s0) ->
  exists s1,
    Form_map W (S (S fuel)) id (ASrc (SBase (BPlain (SDefault (VDict items) [] [] loc)))) tags rs UCapture Collect s = (Ok es, s1) /\
    (forall k, dict_get (entries_at s1 id) (VStr k) =
       match dict_get (entries_at s0 id) (VStr k) with
       | Some v => Some v
       | None => dict_get items (VStr k)
       end) /\
    (forall i, i <> id -> nth_error (forms s1) i = nth_error (forms s0) i).
Proof. exact native_capture. Qed.
Print Assumptions C45_native_capture.
(** So it is with the options of a section of a configuration (on Python 2; the parser writes
    their names in lower case) and the names of its mappings. *)
Theorem C45_config_capture : forall W fuel cfg sec opts d loc id t l tags rs s es s0,
  config_given cfg (Some sec) d -> alookup cfg sec = Some opts -> py3 (w_env W) = false -> (forall o v, In (o, v) opts -> lower o = o) ->
  nth_error (forms s) id = Some (t, l) -> direct_form t -> mapping_context s ->
  Form_map W (S (S fuel)) id (ASrc (SBase (BPlain (SConfig cfg (Some sec) d loc)))) tags rs UIgnore Collect s = (Ok es, s0) ->
  exists s1,
    Form_map W (S (S fuel)) id (ASrc (SBase (BPlain (SConfig cfg (Some sec) d loc)))) tags rs UCapture Collect s = (Ok es, s1) /\
    (forall k v, dict_get (entries_at s0 id) (VStr k) = Some v -> dict_get (entries_at s1 id) (VStr k) = Some v) /\
    (forall k, dict_get (entries_at s0 id) (VStr k) = None -> In k (map fst opts) \/ has_sub opts k ->
       exists v, config_value opts d k v /\ dict_get (entries_at s1 id) (VStr k) = Some v) /\
    (forall k, dict_get (entries_at s0 id) (VStr k) = None -> ~ In k (map fst opts) -> ~ has_sub opts k -> dict_get (entries_at s1 id) (VStr k) = None) /\
    (forall k, (forall a, k <> VStr a) -> dict_get (entries_at s1 id) k = dict_get (entries_at s0 id) k) /\
    (forall i, i <> id -> nth_error (forms s1) i = nth_error (forms s0) i).
Proof. exact C45_config_lem. Qed.
Print Assumptions C45_config_capture.
(** With 'ignore' no key is captured: an entry of the form was there before or is named like
    a chosen field.  This holds for every source. *)
Theorem C45_ignore : forall W C n id t l a src tags rs u m s tg gs es s' k,
  reach W s -> nth_error (forms s) id = Some (t, l) -> at_top s a -> as_source a src ->
  ignoring u -> in_force s tags tg -> choice tg (ft_fields t) gs -> still_classes C W -> still_form C t ->
  Form_map W n id a tags rs u m s = (Ok es, s') -> (forall g, In g gs -> k <> VStr (fname g)) ->
  dict_get (entries_at s' id) k = dict_get (entries_at s id) k.
Proof. exact C43_lem. Qed.
Print Assumptions C45_ignore.
(** Any other word is a [ValueError], raised after the fields have been mapped. *)
Theorem C45_bad_directive : forall W fuel a id t l tags rs word s es s0,
  plain_data W a -> nth_error (forms s) id = Some (t, l) -> direct_form t -> mapping_context s ->
  Form_map W fuel id a tags rs UIgnore Collect s = (Ok es, s0) ->
  exists msg s1, Form_map W fuel id a tags rs (UBad word) Collect s = (Exn (EValue msg), s1) /\ forms s1 = forms s0.
Proof. exact C45_bad_lem. Qed.
Print Assumptions C45_bad_directive.
Definition spare : val := jdict [("n", VInt 1); ("x", VNone); ("y.z", VInt 3); ("w", VList [VInt 4])].
Definition One : formty := FormTy "One" [fld "n" (KInteger None None)].
Definition s_one : st := snd (new_form One init).
Lemma direct_One : direct_form One.
Proof. constructor. intros f [<-|[]]. apply direct_fld. constructor. Qed.
Example C45_case :
  json_val spare = true /\ nth_error (forms s_one) 0 = Some (One, []) /\ direct_form One /\ mapping_context s_one /\
  (exists s0, Form_map world0 3 0 (ASrc (json spare)) [] true UIgnore Collect s_one = (Ok [], s0) /\ entries_at s0 0 = [(VStr "n", VInt 1)]) /\
  (exists s1, Form_map world0 3 0 (ASrc (json spare)) [] true UCapture Collect s_one = (Ok [lost None 0 "y.z"], s1) /\
     entries_at s1 0 = [(VStr "n", VInt 1); (VStr "x", VNone); (VStr "w", VList [VInt 4])]) /\
  (exists msg, fst (Form_map world0 3 0 (ASrc (json spare)) [] true (UBad "keep") Collect s_one) = Exn (EValue msg)).
Proof.
  split; [reflexivity|]. split; [reflexivity|]. split; [exact direct_One|]. split; [repeat split; eexists; reflexivity|].
  split; [eexists; split; vm_compute; reflexivity|]. split; [eexists; split; vm_compute; reflexivity|]. eexists. vm_compute. reflexivity.
Qed.
Example C45_native_case :
  plain_native (w_env world0) (fun v => tidy v = true) /\ tidy spare = true /\
  (exists s1, Form_map world0 3 0 (AVal spare) [] true UCapture Collect s_one = (Ok [], s1) /\
     entries_at s1 0 = [(VStr "n", VInt 1); (VStr "x", VNone); (VStr "y.z", VInt 3); (VStr "w", VList [VInt 4])]) /\
  plain_data world0 (AVal spare).
Proof.
  split; [exact tidy_native|]. split; [reflexivity|].
  split; [eexists; split; vm_compute; reflexivity|]. eapply SpecJson.pd_dict; [exact tidy_native|reflexivity].
Qed.
Example C45_config_case :
  let opts := [("n", "1"); ("sub[x]", "3"); ("w", "z")] in
  let cfg := [("app", opts)] in
  config_given cfg (Some "app") (VDict []) /\ alookup cfg "app" = Some opts /\ py3 (w_env world2) = false /\ (forall o v, In (o, v) opts -> lower o = o) /\
  has_sub opts "sub" /\
  (exists s1, Form_map world2 3 0 (ASrc (SBase (BPlain (SConfig cfg (Some "app") (VDict []) None)))) [] true UCapture Collect s_one = (Ok [], s1) /\
     entries_at s1 0 = [(VStr "n", VInt 1); (VStr "sub", VDict [(VStr "x", VStr "3")]); (VStr "sub[x]", VStr "3"); (VStr "w", VStr "z")]).
Proof.
  split; [split; [reflexivity|split; discriminate]|]. split; [reflexivity|]. split; [reflexivity|].
  split; [intros o v [[= <- <-]|[[= <- <-]|[[= <- <-]|[]]]]; reflexivity|].
  split; [exists "sub[x]", "3", "x"; split; [right; now left|]; exists ""; split; [reflexivity|]; split; [discriminate|]; split; [repeat constructor|]; split; [discriminate|]; repeat constructor|].
  eexists. split; vm_compute; reflexivity.
Qed.
(** So "every" is false: a string key with a dot is not captured but reported as missing. *)
Theorem C45_every_key_refuted : exists W n t items s es s' k v,
  json_val (VDict items) = true /\ nth_error (forms s) 0 = Some (t, []) /\ mapping_context s /\ In (VStr k, v) items /\
  Form_map W n 0 (ASrc (json (VDict items))) [] true UCapture Collect s = (Ok es, s') /\
  dict_get (entries_at s' 0) (VStr k) = None /\ es <> [].
Proof.
  exists world0, 3%nat, One, (match spare with VDict l => l | _ => [] end), s_one. eexists _, _. exists "y.z", (VInt 3).
  split; [reflexivity|]. split; [reflexivity|]. split; [repeat split; eexists; reflexivity|]. split; [cbn; tauto|].
  split; [vm_compute; reflexivity|]. split; [reflexivity|discriminate].
Qed.
Print Assumptions C45_every_key_refuted.

(** C46: two JSON documents that are the same at every key read by the chosen fields give the
    same errors (or the same exception) and the same forms. *)
Theorem C46_json_unread_keys : forall W fuel items items' strict loc id t l tags tg rs u m s,
  json_val (VDict items) = true -> json_val (VDict items') = true ->
  nth_error (forms s) id = Some (t, l) -> direct_form t -> ignoring u -> mapping_context s -> in_force s tags tg ->
  (forall f, In f (ft_fields t) -> chosen tg f -> reads_within (same_json (VDict items) (VDict items')) f) ->
  let x := Form_map W fuel id (ASrc (SBase (BPlain (SJson (VDict items) strict loc)))) tags rs u m s in
  let y := Form_map W fuel id (ASrc (SBase (BPlain (SJson (VDict items') strict loc)))) tags rs u m s in
  fst x = fst y /\ forms (snd x) = forms (snd y).
Proof. exact C46_json_lem. Qed.
Print Assumptions C46_json_unread_keys.
Definition spare2 : val := jdict [("w", VDict []); ("n", VInt 1); ("n.o", VStr "q")].
Example C46_json_case :
  json_val spare = true /\ json_val spare2 = true /\ nth_error (forms s_one) 0 = Some (One, []) /\ direct_form One /\
  mapping_context s_one /\ in_force s_one [] [] /\
  (forall f, In f (ft_fields One) -> chosen [] f -> reads_within (same_json spare spare2) f) /\
  spare <> spare2 /\
  fst (Form_map world0 3 0 (ASrc (json spare2)) [] true UIgnore Collect s_one) = Ok [].
Proof.
  split; [reflexivity|]. split; [reflexivity|]. split; [reflexivity|]. split; [exact direct_One|].
  split; [repeat split; eexists; reflexivity|]. split; [right; split; reflexivity|].
  split; [|split; [discriminate|vm_compute; reflexivity]].
  intros f [<-|[]] _. eapply rw_key; [reflexivity|split; [exact I|reflexivity]|discriminate].
Qed.
Theorem C46_native_unread_keys : forall W P fuel items items' id t l tags tg rs u m s,
  plain_native (w_env W) P -> P (VDict items) -> P (VDict items') ->
  nth_error (forms s) id = Some (t, l) -> direct_form t -> ignoring u -> mapping_context s -> in_force s tags tg ->
  (forall f, In f (ft_fields t) -> chosen tg f -> reads_within (same_native (w_env W) (VDict items) (VDict items')) f) ->
  let x := Form_map W fuel id (AVal (VDict items)) tags rs u m s in
  let y := Form_map W fuel id (AVal (VDict items')) tags rs u m s in
  fst x = fst y /\ forms (snd x) = forms (snd y).
Proof. exact C46_native_lem. Qed.
Print Assumptions C46_native_unread_keys.
Lemma whole_key l k w v : dict_get l (VStr k) = Some w -> found env0 no_ents [] 0 (VDict l) k v <-> v = w.
Proof.
  intros G. assert (H : has_item env0 no_ents (VDict l) (KStr k) w) by now constructor.
  split.
  - intros [[u U|u a N|u N]|N _]; [|destruct (N _ H)|destruct (N _ H)|].
    + inversion U as [l' k' v' G'| | | | | | | |]; subst. cbn in G'. congruence.
    + destruct (N w). now constructor.
  - intros ->. apply found_whole. now constructor.
Qed.
Example C46_native_case :
  plain_native (w_env world0) (fun v => tidy v = true) /\ tidy spare = true /\ tidy spare2 = true /\
  nth_error (forms s_one) 0 = Some (One, []) /\ direct_form One /\ mapping_context s_one /\ in_force s_one [] [] /\
  (forall f, In f (ft_fields One) -> chosen [] f -> reads_within (same_native (w_env world0) spare spare2) f) /\
  spare <> spare2 /\
  fst (Form_map world0 3 0 (AVal spare2) [] true UIgnore Collect s_one) = Ok [].
Proof.
  split; [exact tidy_native|]. split; [reflexivity|]. split; [reflexivity|]. split; [reflexivity|]. split; [exact direct_One|].
  split; [repeat split; eexists; reflexivity|]. split; [right; split; reflexivity|].
  split; [|split; [discriminate|vm_compute; reflexivity]].
  intros f [<-|[]] _. eapply rw_key; [reflexivity| |discriminate]. split; [reflexivity|]. intros v.
  unfold spare, spare2, jdict. rewrite !(whole_key _ "n" (VInt 1)) by reflexivity. reflexivity.
Qed.

(** Two sections of configurations, or two whole ones, that hold the same at every key read. *)
Theorem C46_config_unread_keys : forall W fuel cfg sec d cfg' d' loc id t l tags tg rs u m s,
  config_given cfg sec d -> config_given cfg' sec d' ->
  nth_error (forms s) id = Some (t, l) -> direct_form t -> ignoring u -> mapping_context s -> in_force s tags tg ->
  (forall f, In f (ft_fields t) -> chosen tg f -> reads_within (same_config cfg sec d cfg' d') f) ->
  let x := Form_map W fuel id (ASrc (SBase (BPlain (SConfig cfg sec d loc)))) tags rs u m s in
  let y := Form_map W fuel id (ASrc (SBase (BPlain (SConfig cfg' sec d' loc)))) tags rs u m s in
  fst x = fst y /\ forms (snd x) = forms (snd y).
Proof. exact C46_config_lem. Qed.
Print Assumptions C46_config_unread_keys.
Example C46_config_case :
  let cfg := [("app", [("n", "1"); ("sub[x]", "3"); ("w", "z")]); ("more", [])] in
  let cfg' := [("app", [("n[]", "q"); ("n", "1")])] in
  config_given cfg (Some "app") (VDict []) /\ config_given cfg' (Some "app") (jdict [("w", VNone)]) /\
  nth_error (forms s_one) 0 = Some (One, []) /\ direct_form One /\ mapping_context s_one /\ in_force s_one [] [] /\
  (forall f, In f (ft_fields One) -> chosen [] f -> reads_within (same_config cfg (Some "app") (VDict []) cfg' (jdict [("w", VNone)])) f) /\
  entries_at (snd (Form_map world2 3 0 (ASrc (SBase (BPlain (SConfig cfg' (Some "app") (jdict [("w", VNone)]) None)))) [] true UIgnore Collect s_one)) 0 = [(VStr "n", VInt 1)].
Proof.
  cbv zeta. split; [split; [reflexivity|split; discriminate]|]. split; [split; [reflexivity|split; discriminate]|].
  split; [reflexivity|]. split; [exact direct_One|].
  split; [repeat split; eexists; reflexivity|]. split; [right; split; reflexivity|].
  split; [|vm_compute; reflexivity].
  intros f [<-|[]] _. eapply rw_key; [reflexivity| |discriminate].
  assert (NC : forall o, o <> "n" -> match sub_option o with Some (n, _) => n <> "n" | None => True end -> ~ concerns "n" o).
  { intros o No Ns [->|(k & H)]; [now destruct No|]. apply sub_option_iff in H. rewrite H in Ns. now destruct Ns. }
  exists "n", [("n", "1")]. split; [reflexivity|]. split; [|split; [|reflexivity]].
  - apply only_keep; [now left|]. apply only_drop; [apply NC; [discriminate|vm_compute; discriminate]|].
    apply only_drop; [apply NC; [discriminate|exact I]|]. constructor.
  - apply only_drop; [apply NC; [discriminate|exact I]|]. apply only_keep; [now left|]. constructor.
Qed.

(** So it is with forms that hold polymorphic sub-forms, whenever the evaluation of C30 knows the outcome for one of the documents. *)
Theorem C46_polymorphic_json : forall W P fuel items items' strict loc id t l tags tg rs u m s,
  plain_native (w_env W) P -> P (VDict items) -> P (VDict items') -> json_val (VDict items) = true -> json_val (VDict items') = true ->
  (forall c ty, w_class W c = Some ty -> pdirect_form True ty) ->
  nth_error (forms s) id = Some (t, l) -> pdirect_form True t -> ignoring u -> mapping_context s -> in_force s tags tg ->
  (forall f, In f (ft_fields t) -> chosen tg f -> reads_within (same_json (VDict items) (VDict items')) f) ->
  fst (ev_map W fuel (outer_of s) (SJson (VDict items) strict loc) (VDict items) id tags rs u m (forms s)) <> Exn unevaluated ->
  let x := Form_map W fuel id (ASrc (SBase (BPlain (SJson (VDict items) strict loc)))) tags rs u m s in
  let y := Form_map W fuel id (ASrc (SBase (BPlain (SJson (VDict items') strict loc)))) tags rs u m s in
  fst x = fst y /\ forms (snd x) = forms (snd y).
Proof. exact C46_poly_json_lem. Qed.
Print Assumptions C46_polymorphic_json.
Theorem C46_polymorphic_native : forall W P fuel items items' id t l tags tg rs u m s,
  plain_native (w_env W) P -> P (VDict items) -> P (VDict items') ->
  (forall c ty, w_class W c = Some ty -> pdirect_form True ty) ->
  nth_error (forms s) id = Some (t, l) -> pdirect_form True t -> ignoring u -> mapping_context s -> in_force s tags tg ->
  (forall f, In f (ft_fields t) -> chosen tg f -> reads_within (same_native (w_env W) (VDict items) (VDict items')) f) ->
  fst (ev_map W fuel (outer_of s) (SDefault (VDict items) [] [] None) (VDict items) id tags rs u m (forms s)) <> Exn unevaluated ->
  let x := Form_map W fuel id (AVal (VDict items)) tags rs u m s in
  let y := Form_map W fuel id (AVal (VDict items')) tags rs u m s in
  fst x = fst y /\ forms (snd x) = forms (snd y).
Proof. exact C46_poly_native_lem. Qed.
Print Assumptions C46_polymorphic_native.
Definition pets_and (extra : list (val * val)) : list (val * val) := match pets with VDict l => extra ++ l | _ => [] end.
Example C46_polymorphic_case :
  let s := snd (new_form House init) in
  let d := VDict (pets_and []) in
  let d' := VDict (pets_and [(VStr "kind", VStr "cat"); (VStr "plants", VInt 4)]) in
  plain_native (w_env zoo) (fun v => tidy v = true) /\ tidy d = true /\ tidy d' = true /\ json_val d = true /\ json_val d' = true /\
  (forall c ty, w_class zoo c = Some ty -> pdirect_form True ty) /\ nth_error (forms s) 0 = Some (House, []) /\ pdirect_form True House /\
  mapping_context s /\ in_force s [] [] /\
  (forall f, In f (ft_fields House) -> chosen [] f -> reads_within (same_json d d') f /\ reads_within (same_native (w_env zoo) d d') f) /\
  fst (ev_map zoo 19 (outer_of s) (SJson d true None) d 0 [] true UIgnore Collect (forms s)) <> Exn unevaluated /\
  fst (ev_map zoo 19 (outer_of s) (SDefault d [] [] None) d 0 [] true UIgnore Collect (forms s)) <> Exn unevaluated.
Proof.
  cbv zeta. split; [exact tidy_native|]. do 4 (split; [reflexivity|]). split; [exact (proj1 (proj2 (proj2 (proj2 C30_polymorphic_case))))|].
  split; [reflexivity|]. split; [constructor; intros f [<-|[]]; apply pdirect_animals|]. split; [repeat split; eexists; reflexivity|].
  split; [right; split; reflexivity|]. split; [|split; vm_compute; discriminate].
  intros f [<-|[]] _. split; (eapply rw_key; [reflexivity| |discriminate]).
  - split; [exact I|reflexivity].
  - split; [reflexivity|]. intros v. unfold pets_and, pets. change (w_env zoo) with env0. rewrite !(whole_key _ "pets" (VList
      [a_cat (VInt 3); VDict [(VStr "kind", VStr "dog"); (VStr "chases", VList [a_cat (VStr "old"); VStr "tail"])]; VDict [(VStr "kind", VStr "cow")]])) by reflexivity. reflexivity.
Qed.
