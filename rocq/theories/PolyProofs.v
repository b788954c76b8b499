(** Proofs about polymorphic dispatch. *)
From Coq Require Import Lia.
From Verif Require Import PyBase PyStr Source Field Context Fields SpecSrc SpecCtx SpecField Eval Refine Regime SpecPoly Shape Reads Balance CtxProofs Run BoxProofs FormProofs SrcProofs.
From Verif Require ObjProofs.

Lemma direct_type_field n : direct (type_field n).
Proof. constructor; [|constructor]. split; cbn; try discriminate; auto. intros k0 [= <-]. exact I. Qed.
Lemma direct_probe n : direct_form (type_probe n).
Proof. constructor. intros f [<-|[]]. apply direct_type_field. Qed.

Section One.
Variables (W : world) (fuel : nat) (P : val -> Prop) (n i : string) (items : list (val * val)).
Hypothesis PN : plain_native (w_env W) P.
Hypothesis PD : P (VDict items).
Hypothesis IN : dict_get items (VStr n) = Some (VStr i).

Lemma key_plain : strip_call n = None.
Proof.
  assert (I : exists k, In k (map fst items) /\ py_eq k (VStr n) = true).
  { unfold dict_get in IN. destruct (find _ items) as [[k v]|] eqn:F; [|discriminate]. apply find_some in F. destruct F as [F1 F2].
    exists k. split; [apply in_map_iff; now exists (k, v)|exact F2]. }
  destruct I as (k & I & E). destruct (pn_keys _ _ PN _ _ PD I) as [(z & ->)|(s & -> & S)]; [discriminate|]. cbn in E. apply String.eqb_eq in E. now subst.
Qed.
Lemma child_is : psource_resolve (w_env W) no_ents (SDefault (VDict items) [] [] None) [] (VDict items) (KStr n) = Ok (VStr i).
Proof.
  cbn [psource_resolve]. destruct (String.length n); cbn [default_resolve]; rewrite key_plain; unfold default_resolve1; cbn [is_ignored existsb]; unfold as_item, py_getitem, val_of_key, or_NONE; cbn [hashable]; rewrite IN; reflexivity.
Qed.
Lemma type_eval r x : r_src r = SDefault (VDict items) [] [] None -> r_val r = Ok (VDict items) ->
  ev_field W (S fuel) r (type_field n) NONEv x = (Ok (VStr i), x).
Proof.
  intros A B. cbn [ev_field]. unfold ev_field_body. cbn [NONEv is_NONE ev_where type_field f_opts named o_resolve no_opts f_kind o_src].
  unfold ebind at 1. cbn [eret]. unfold ebind at 1.
  assert (BODY : ev_body W (ev_field W fuel) (r_at W (r_for r (type_field n)) (KStr n)) (type_field n) NONEv x = (Ok (VStr i), x)).
  { unfold ev_body. cbn [NONEv is_NONE type_field f_opts named o_compute no_opts]. unfold ev_compute, ebind, ev_exists, ev_null, on_val.
    unfold r_at. cbn [r_val]. unfold r_child. cbn [r_for r_val r_src]. rewrite A, B, child_is. cbn [elift is_NONE negb is_None ecatch].
    unfold ecatch. cbn [type_field f_opts named o_parse no_opts ev_parse f_kind]. unfold ev_primitive, on_val. cbn [r_val r_src].
    cbn. destruct x. reflexivity. }
  change (MkField (named n no_opts) (KString no_strc)) with (type_field n). fold NONEv. rewrite BODY. reflexivity.
Qed.
Lemma probe_eval (o : outer) (h : heap) l : ou_tags o = [] ->
  ev_map W (S fuel) o (SDefault (VDict items) [] [] None) (VDict items) (length h) [] false UIgnore Collect (h ++ [(type_probe n, l)]) =
  (Ok [], h ++ [(type_probe n, dict_set l (VStr n) (VStr i))]).
Proof.
  intros T. unfold ev_map. rewrite T. unfold heap in *.
  assert (N : nth_error (h ++ [(type_probe n, l)]) (length h) = Some (type_probe n, l)) by (rewrite nth_error_app2, Nat.sub_diag by lia; reflexivity).
  assert (R : replace_nth (length h) (type_probe n, dict_set l (VStr n) (VStr i)) (h ++ [(type_probe n, l)]) = h ++ [(type_probe n, dict_set l (VStr n) (VStr i))]).
  { apply ObjProofs.replace_last. }
  cbn [eret]. unfold ev_form_map, ebind. unfold ev_mapping, on_val, elift. cbn [r_start r_val r_src r_keys psource_mapping].
  cbn [keys_view]. unfold ev_type. cbn [snd]. unfold heap in *. rewrite N. cbn [ft_fields type_probe ev_fields selected].
  unfold ebind. rewrite type_eval by reflexivity. cbn [ignored]. unfold ev_set, ebind, ev_entries, ev_set_entries, hents. cbn [snd fst eret].
  rewrite N. change (fname (type_field n)) with n. rewrite R. reflexivity.
Qed.

(** ** Probing *)
Variables (s : st) (pid : nat).
Hypothesis R : reach W s.
Hypothesis MC : mapping_context s.
Hypothesis UT : untagged s.
Hypothesis DH : dict_here W s pid items.

Lemma probe_run : exists s0 s1,
  path_value W pid s = (Ok (VDict items), s0) /\
  types_probe W (field_map W (S fuel)) (type_probe n) (type_field n) (VDict items) s0 = (Ok (VStr i), s1) /\
  stk s1 = stk s /\ forms s1 = forms s ++ [(type_probe n, [(VStr n, VStr i)])] /\
  (forall j, (j < length (errs s))%nat -> nth_error (errs s1) j = nth_error (errs s) j) /\ stable s s1.
Proof.
  destruct DH as (C & p & p' & Hp & V). pose proof (reach_wf _ _ R) as WF.
  set (s0 := St (stk s) (forms s) (replace_nth pid p' (paths s)) (errs s)).
  assert (E0 : path_value W pid s = (Ok (VDict items), s0)) by (unfold path_value, on_path; rewrite Hp, V; reflexivity).
  assert (S0 : stable s s0) by (eapply good_stable; [apply good_path_value|exact WF|exact E0]).
  set (sn := St (stk s) (forms s ++ [(type_probe n, [])]) (replace_nth pid p' (paths s)) (errs s)).
  destruct MC as (C1 & C2 & C3).
  destruct (map_refines W (S fuel) (SDefault (VDict items) [] [] None) (VDict items) _ (length (forms s)) (type_probe n) [] [] false UIgnore Collect sn eq_refl
              (native_regime _ _ _ None PN PD) (ObjProofs.nth_last _ _) (direct_probe n) du_ignore C1 C2 C3) as (A1 & A2 & A3 & A4).
  change (forms sn) with (forms s ++ [(type_probe n, [])]) in A1, A2.
  assert (OT : ou_tags (outer_of sn) = []) by exact UT.
  pose proof (probe_eval (outer_of sn) (forms s) [] OT) as PE. rewrite PE in A1, A2. cbn [fst snd] in A1, A2. rewrite <- dict_is_source in A1, A2, A3, A4.
  exists s0. destruct (Form_map W (S fuel) (length (forms s)) (AVal (VDict items)) [] false UIgnore Collect sn) as [x s1] eqn:X. cbn [fst snd] in *. subst x.
  exists s1. split; [exact E0|].
  assert (TP : types_probe W (field_map W (S fuel)) (type_probe n) (type_field n) (VDict items) s0 = (Ok (VStr i), s1)).
  { unfold types_probe, new_form, bind. cbn [s0 stk forms paths errs]. fold sn. unfold Form_map in X. rewrite X.
    unfold field_get, form_entries, get, bind. unfold entries. rewrite A2, ObjProofs.nth_last. change (fname (type_field n)) with n.
    cbn [dict_set dict_get find fst]. assert (Q : py_eq (VStr n) (VStr n) = true) by now apply py_eq_str. unfold dict_get. cbn [find fst]. rewrite Q. reflexivity. }
  split; [exact TP|]. split; [exact A3|]. split; [exact A2|]. split; [exact A4|].
  eapply stable_trans; [exact S0|]. refine (good_stable _ _ _ _ (good_types_probe W (field_map W (S fuel)) (good_field_map W (S fuel)) _ _ _) (stable_wf _ _ WF S0) TP).
Qed.
Variables (table : list (string * string)) (rs : bool) (u : unm).
Lemma table_get : dict_get (map (fun ic => (fst ic, VStr (snd ic))) (map (fun ic => (VStr (fst ic), snd ic)) table)) (VStr i) =
  option_map VStr (alookup table i).
Proof.
  induction table as [|[a b] l IH]; [reflexivity|]. cbn [map fst snd alookup]. unfold dict_get in *. cbn [find fst].
  destruct (String.eqb a i) eqn:E.
  - apply String.eqb_eq in E as ->. assert (Q : py_eq (VStr i) (VStr i) = true) by now apply py_eq_str. rewrite Q. reflexivity.
  - destruct (py_eq (VStr a) (VStr i)) eqn:Q; [|exact IH]. apply py_eq_str in Q. injection Q as ->. rewrite String.eqb_refl in E. discriminate.
Qed.
Lemma C55_known_lem c t : alookup table i = Some c -> w_class W c = Some t ->
  exists s1, parse_kind W (field_map W (S fuel)) (poly_kind n table rs u) pid s =
             parse_kind W (field_map W (S fuel)) (KSubForm t rs u) pid s1 /\
    context_kept s s1 /\ forms s1 = forms s ++ [(type_probe n, [(VStr n, VStr i)])].
Proof.
  intros A B. destruct probe_run as (s0 & s1 & E0 & TP & S1 & S2 & S3 & S4). exists s1. split; [|split; [now split|exact S2]].
  unfold poly_kind, parse_kind, parse_poly, poly_type, bind, catch. rewrite E0, TP. cbn [is_None hashable negb].
  rewrite table_get, A. cbn [option_map]. rewrite B. reflexivity.
Qed.
Lemma C55_unknown_lem eid m es f p tx : alookup table i = None ->
  lookup "errors" (stk s) = Some (CErrs eid) -> nth_error (errs s) eid = Some (m, es) ->
  lookup "field" (stk s) = Some (CField f) -> nth_error (paths s) pid = Some p -> p_str (w_env W) p = Ok tx ->
  let e := MkErr (Invalid (VioIdentity (VStr i))) tx (f_name f) (Some pid) in
  exists s1, parse_kind W (field_map W (S fuel)) (poly_kind n table rs u) pid s = (match m with Collect => Ok ERRORv | Raise => Exn (EForm (es ++ [e])) end, s1) /\
    stk s1 = stk s /\
    nth_error (errs s1) eid = Some (m, es ++ [e]) /\
    (forall j, (j < length (errs s))%nat -> j <> eid -> nth_error (errs s1) j = nth_error (errs s) j).
Proof.
  intros A B C D F G e. destruct probe_run as (s0 & s1 & E0 & TP & S1 & S2 & S3 & S4).
  assert (LE : (eid < length (errs s))%nat) by (apply nth_error_Some; congruence).
  assert (X : exists q, nth_error (paths s1) pid = Some q /\ p_str (w_env W) q = Ok tx).
  { destruct (stable_paths _ _ S4) as (more & M & _). assert (Z : nth_error (shapes s1) pid = Some (pshape p)).
    { rewrite M, nth_error_app1; [unfold shapes; now rewrite nth_error_map, F|]. unfold shapes. rewrite map_length. apply nth_error_Some. congruence. }
    unfold shapes in Z. rewrite nth_error_map in Z. destruct (nth_error (paths s1) pid) as [q|]; [|discriminate]. cbn in Z. injection Z as Z.
    exists q. split; [reflexivity|]. now rewrite (pshape_text (w_env W) q p Z). }
  destruct X as (q & Q1 & Q2).
  assert (E1 : nth_error (errs s1) eid = Some (m, es)) by (rewrite S3; [exact C|exact LE]).
  eexists. split; [|split; [|split]].
  - unfold poly_kind, parse_kind, parse_poly, poly_type, bind, catch. rewrite E0, TP. cbn [is_None hashable negb].
    rewrite table_get, A. cbn [option_map].
    rewrite (report_run W (Invalid (VioIdentity (VStr i))) s1 eid m es f pid q tx); [fold e; destruct m; reflexivity|now rewrite S1|exact E1|now rewrite S1| |exact Q1|exact Q2].
    rewrite S1. now destruct DH.
  - exact S1.
  - cbn [errs]. apply nth_replace_eq. apply nth_error_Some. congruence.
  - intros j J NE. cbn [errs]. rewrite nth_replace_neq by congruence. now apply S3.
Qed.
End One.

Lemma nil_right s : (s ++ "")%string = s.
Proof. induction s as [|c s IH]; [reflexivity|]. cbn. now rewrite IH. Qed.
(** ** Data without a type, with a null or with something else for it *)
Section Other.
Variables (W : world) (fuel : nat) (P : val -> Prop) (n : string) (items : list (val * val)).
Hypothesis PN : plain_native (w_env W) P.
Hypothesis PD : P (VDict items).
Hypothesis KP : strip_call n = None.
Hypothesis DP : has_char dot n = false.
Let tv := dict_get items (VStr n).
Hypothesis NA : tv = None -> e_attr (w_env W) (VDict items) n = None.
(** what the type field becomes, and the error *)
Let found : val := match tv with None => NOTSETv | Some (VStr i) => VStr i | Some VNone => VNone | Some _ => ERRORv end.
Let wrong : option ekind := match tv with None => Some Missing | Some (VStr _) | Some VNone => None | Some v => Some (Invalid (VioExn (ESource (NotString v)))) end.
Let told (pid : nat) : list err := match wrong with Some k => [MkErr k n (Some n) (Some pid)] | None => [] end.
Lemma item_good v : tv = Some v -> P v.
Proof. intros G. apply (nd_item _ _ _ (pn_data _ _ PN) (VDict items) (KStr n) v PD). now constructor. Qed.
Lemma child_any : psource_resolve (w_env W) no_ents (SDefault (VDict items) [] [] None) [] (VDict items) (KStr n) =
  Ok (match tv with Some v => v | None => NONEv end).
Proof.
  assert (S1 : default_resolve1 (w_env W) no_ents [] [] [] (VDict items) (KStr n) = Ok (match tv with Some v => v | None => NONEv end)).
  { unfold default_resolve1. cbn [is_ignored existsb]. unfold as_item, py_getitem, val_of_key, or_NONE. cbn [hashable]. fold tv. destruct tv as [v|] eqn:T.
    - rewrite (P_not_NONE _ _ _ (pn_data _ _ PN) v (item_good v T)). reflexivity.
    - cbn. unfold as_attr. now rewrite (NA eq_refl). }
  cbn [psource_resolve]. destruct (String.length n); cbn [default_resolve]; rewrite KP, S1;
    (destruct tv as [v|] eqn:T; [rewrite (P_not_NONE _ _ _ (pn_data _ _ PN) v (item_good v T)); reflexivity|]);
    cbn [NONEv is_NONE]; rewrite split_none by exact DP; cbn [walk_atoms]; rewrite S1; reflexivity.
Qed.
Lemma text_any : pkeys_str (w_env W) (SDefault (VDict items) [] [] None) [KStr n] = Ok n.
Proof. unfold pkeys_str, keys_str. cbn [rest_str first_str psource_prefix opt_str app String.concat]. now rewrite nil_right. Qed.
Lemma type_any r es (h : heap) : r_src r = SDefault (VDict items) [] [] None -> r_val r = Ok (VDict items) -> r_mode r = Collect -> r_igm r = false -> r_keys r = [] ->
  ev_field W (S fuel) r (type_field n) NONEv (es, h) = (Ok found, (es ++ told (r_pid r), h)).
Proof.
  intros A B C D K. cbn [ev_field]. unfold ev_field_body. cbn [NONEv is_NONE ev_where type_field f_opts named o_resolve no_opts f_kind o_src].
  unfold ebind at 1. cbn [eret]. unfold ebind at 1.
  assert (BODY : ev_body W (ev_field W fuel) (r_at W (r_for r (type_field n)) (KStr n)) (type_field n) NONEv (es, h) = (Ok found, (es ++ told (r_pid r), h))).
  { unfold ev_body. cbn [NONEv is_NONE type_field f_opts named o_compute no_opts]. unfold ev_compute, ebind, ev_exists, ev_null, on_val.
    unfold r_at. cbn [r_val]. unfold r_child. cbn [r_for r_val r_src r_keys r_pid r_mode r_igd r_igm r_tags r_form r_field]. rewrite A, B, C, D, K, child_any. cbn [elift app].
    unfold found, told, wrong. destruct tv as [v|] eqn:T.
    - pose proof (item_good v T) as Pv. rewrite (P_not_NONE _ _ _ (pn_data _ _ PN) v Pv). cbn [negb].
      destruct v; cbn [is_None elift ecatch type_field f_opts named o_parse no_opts ev_parse f_kind];
        unfold ecatch, ev_primitive, on_val; cbn [r_val r_src psource_parse mixin_parse as_string elift caught_by_compute];
        try (unfold ev_invalid, ebind, ev_report; cbn [r_field r_src r_keys f_name o_name f_opts r_mode r_pid]; rewrite text_any; reflexivity);
        try (cbn; rewrite ?app_nil_r; reflexivity).
      all: exfalso; apply (nd_ordinary _ _ _ (pn_data _ _ PN)) in Pv; exact Pv.
    - cbn [NONEv is_NONE negb elift eret]. unfold ev_default. cbn [r_igd type_field f_opts named o_default no_opts].
      assert (M : ev_missing W (Rd (SDefault (VDict items) [] [] None) (r_pid r) Collect (r_igd r) false (r_tags r) (r_form r) (Ok (Some n)) [KStr n] (Ok NONEv)) (es, h) =
        (Ok NOTSETv, (es ++ [MkErr Missing n (Some n) (Some (r_pid r))], h))).
      { unfold ev_missing, ebind, ev_report. cbn [r_igm r_field r_src r_keys r_mode r_pid]. rewrite text_any. reflexivity. }
      destruct (r_igd r); exact M. }
  change (MkField (named n no_opts) (KString no_strc)) with (type_field n). fold NONEv. rewrite BODY. reflexivity.
Qed.
Let entry : list (val * val) := if ignored found then [] else [(VStr n, found)].
Lemma probe_eval_any (o : outer) (h : heap) : ou_tags o = [] -> ou_igm o = false ->
  ev_map W (S fuel) o (SDefault (VDict items) [] [] None) (VDict items) (length h) [] false UIgnore Collect (h ++ [(type_probe n, [])]) =
  (Ok (told (ou_pid o)), h ++ [(type_probe n, entry)]).
Proof.
  intros T G. unfold ev_map. rewrite T. unfold heap in *.
  assert (N : nth_error (h ++ [(type_probe n, [])]) (length h) = Some (type_probe n, [])) by (rewrite nth_error_app2, Nat.sub_diag by lia; reflexivity).
  cbn [eret]. unfold ev_form_map, ebind. unfold ev_mapping, on_val, elift. cbn [r_start r_val r_src r_keys psource_mapping].
  cbn [keys_view]. unfold ev_type. cbn [snd]. unfold heap in *. rewrite N. cbn [ft_fields type_probe ev_fields selected].
  unfold ebind. rewrite type_any by (try reflexivity; exact G). unfold entry. destruct (ignored found) eqn:IG.
  - reflexivity.
  - unfold ev_set, ebind, ev_entries, ev_set_entries, hents. cbn [snd fst eret].
    rewrite N. change (fname (type_field n)) with n. cbn [dict_set]. rewrite ObjProofs.replace_last. reflexivity.
Qed.
Variables (s : st) (pid : nat).
Hypothesis R : reach W s.
Hypothesis MC : mapping_context s.
Hypothesis UT : untagged s.
Hypothesis DH : dict_here W s pid items.
Hypothesis CM : complains s.
Lemma probe_any : exists s0 s1,
  path_value W pid s = (Ok (VDict items), s0) /\
  types_probe W (field_map W (S fuel)) (type_probe n) (type_field n) (VDict items) s0 =
    (match told (length (paths s)) with e :: _ => Exn (EField e) | [] => Ok found end, s1) /\
  stk s1 = stk s /\ forms s1 = forms s ++ [(type_probe n, entry)] /\
  (forall j, (j < length (errs s))%nat -> nth_error (errs s1) j = nth_error (errs s) j) /\ stable s s1.
Proof.
  destruct DH as (C & p & p' & Hp & V). pose proof (reach_wf _ _ R) as WF.
  set (s0 := St (stk s) (forms s) (replace_nth pid p' (paths s)) (errs s)).
  assert (E0 : path_value W pid s = (Ok (VDict items), s0)) by (unfold path_value, on_path; rewrite Hp, V; reflexivity).
  assert (S0 : stable s s0) by (eapply good_stable; [apply good_path_value|exact WF|exact E0]).
  set (sn := St (stk s) (forms s ++ [(type_probe n, [])]) (replace_nth pid p' (paths s)) (errs s)).
  destruct MC as (C1 & C2 & C3).
  destruct (map_refines W (S fuel) (SDefault (VDict items) [] [] None) (VDict items) _ (length (forms s)) (type_probe n) [] [] false UIgnore Collect sn eq_refl
              (native_regime _ _ _ None PN PD) (ObjProofs.nth_last _ _) (direct_probe n) du_ignore C1 C2 C3) as (A1 & A2 & A3 & A4).
  change (forms sn) with (forms s ++ [(type_probe n, [])]) in A1, A2.
  assert (OT : ou_tags (outer_of sn) = []) by exact UT.
  assert (OM : ou_igm (outer_of sn) = false) by exact CM.
  pose proof (probe_eval_any (outer_of sn) (forms s) OT OM) as PE. rewrite PE in A1, A2. cbn [fst snd] in A1, A2. rewrite <- dict_is_source in A1, A2, A3, A4.
  assert (OP : ou_pid (outer_of sn) = length (paths s)) by (cbn; apply replace_nth_length).
  rewrite OP in A1.
  exists s0. destruct (Form_map W (S fuel) (length (forms s)) (AVal (VDict items)) [] false UIgnore Collect sn) as [x s1] eqn:X. cbn [fst snd] in *. subst x.
  exists s1. split; [exact E0|].
  assert (TP : types_probe W (field_map W (S fuel)) (type_probe n) (type_field n) (VDict items) s0 =
     (match told (length (paths s)) with e :: _ => Exn (EField e) | [] => Ok found end, s1)).
  { unfold types_probe, new_form, bind. cbn [s0 stk forms paths errs]. fold sn. unfold Form_map in X. rewrite X.
    destruct (told (length (paths s))) as [|e l] eqn:TD; [|reflexivity].
    assert (IG : ignored found = false).
    { revert TD. unfold told, wrong, found. destruct tv as [[]|]; try discriminate; reflexivity. }
    unfold field_get, form_entries, get, bind. unfold entries. rewrite A2, ObjProofs.nth_last. change (fname (type_field n)) with n. unfold entry. rewrite IG.
    unfold dict_get. cbn [find fst]. assert (Q : py_eq (VStr n) (VStr n) = true) by now apply py_eq_str. rewrite Q. reflexivity. }
  split; [exact TP|]. split; [exact A3|]. split; [exact A2|]. split; [exact A4|].
  eapply stable_trans; [exact S0|]. refine (good_stable _ _ _ _ (good_types_probe W (field_map W (S fuel)) (good_field_map W (S fuel)) _ _ _) (stable_wf _ _ WF S0) TP).
Qed.
Variables (table : list (string * string)) (rs : bool) (u : unm).
Lemma null_lem : tv = Some VNone ->
  exists s1, parse_kind W (field_map W (S fuel)) (poly_kind n table rs u) pid s = (Ok NONEv, s1) /\ context_kept s s1.
Proof.
  intros T. destruct probe_any as (s0 & s1 & E0 & TP & S1 & S2 & S3 & S4). exists s1. split; [|now split].
  unfold poly_kind, parse_kind, parse_poly, poly_type, bind, catch. rewrite E0, TP. unfold told, wrong, found. rewrite T. reflexivity.
Qed.
Lemma wrong_lem k eid m es f p tx : wrong = Some k ->
  lookup "errors" (stk s) = Some (CErrs eid) -> nth_error (errs s) eid = Some (m, es) ->
  lookup "field" (stk s) = Some (CField f) -> nth_error (paths s) pid = Some p -> p_str (w_env W) p = Ok tx ->
  let e := MkErr (Invalid (VioExn (EField (MkErr k n (Some n) None)))) tx (f_name f) (Some pid) in
  exists s1, parse_kind W (field_map W (S fuel)) (poly_kind n table rs u) pid s =
      (match m with Collect => Ok ERRORv | Raise => Exn (EForm (es ++ [e])) end, s1) /\
    stk s1 = stk s /\ nth_error (errs s1) eid = Some (m, es ++ [e]) /\
    (forall j, (j < length (errs s))%nat -> j <> eid -> nth_error (errs s1) j = nth_error (errs s) j).
Proof.
  intros A B C D F G e. destruct probe_any as (s0 & s1 & E0 & TP & S1 & S2 & S3 & S4).
  assert (LE : (eid < length (errs s))%nat) by (apply nth_error_Some; congruence).
  assert (X : exists q, nth_error (paths s1) pid = Some q /\ p_str (w_env W) q = Ok tx).
  { destruct (stable_paths _ _ S4) as (more & M & _). assert (Z : nth_error (shapes s1) pid = Some (pshape p)).
    { rewrite M, nth_error_app1; [unfold shapes; now rewrite nth_error_map, F|]. unfold shapes. rewrite map_length. apply nth_error_Some. congruence. }
    unfold shapes in Z. rewrite nth_error_map in Z. destruct (nth_error (paths s1) pid) as [q|]; [|discriminate]. cbn in Z. injection Z as Z.
    exists q. split; [reflexivity|]. now rewrite (pshape_text (w_env W) q p Z). }
  destruct X as (q & Q1 & Q2).
  assert (E1 : nth_error (errs s1) eid = Some (m, es)) by (rewrite S3; [exact C|exact LE]).
  unfold told in TP. rewrite A in TP.
  eexists. split; [|split; [|split]].
  - unfold poly_kind, parse_kind, parse_poly, poly_type, bind, catch. rewrite E0, TP. cbn [is_value_error spoken untied].
    rewrite (report_run W (Invalid (VioExn (EField (MkErr k n (Some n) None)))) s1 eid m es f pid q tx);
      [|now rewrite S1|exact E1|now rewrite S1|rewrite S1; now destruct DH|exact Q1|exact Q2]. fold e.
    destruct m; reflexivity.
  - exact S1.
  - cbn [errs]. apply nth_replace_eq. apply nth_error_Some. congruence.
  - intros j J NE. cbn [errs]. rewrite nth_replace_neq by congruence. now apply S3.
Qed.
End Other.
Lemma untyped_is tv k : untyped tv k ->
  match tv with None => Some Missing | Some (VStr _) | Some VNone => None | Some v => Some (Invalid (VioExn (ESource (NotString v)))) end = Some k.
Proof. intros []; [reflexivity|]. destruct v; try reflexivity; [congruence|]. exfalso. eapply H0. reflexivity. Qed.
Lemma C55_failed_lem W fuel probe tf table rs u s pid v s0 e s1 :
  path_value W pid s = (Ok v, s0) -> types_probe W (field_map W fuel) probe tf v s0 = (Exn e, s1) ->
  (~ value_error e -> parse_kind W (field_map W fuel) (KPoly probe tf table rs u) pid s = (Exn e, s1)) /\
  (value_error e -> forall eid m es f here p tx,
     lookup "errors" (stk s1) = Some (CErrs eid) -> nth_error (errs s1) eid = Some (m, es) ->
     lookup "field" (stk s1) = Some (CField f) -> lookup "src_path" (stk s1) = Some (CPath here) ->
     nth_error (paths s1) here = Some p -> p_str (w_env W) p = Ok tx ->
     let err := MkErr (Invalid (VioExn (spoken e))) tx (f_name f) (Some here) in
     parse_kind W (field_map W fuel) (KPoly probe tf table rs u) pid s =
       (match m with Collect => Ok ERRORv | Raise => Exn (EForm (es ++ [err])) end,
        St (stk s1) (forms s1) (paths s1) (replace_nth eid (m, es ++ [err]) (errs s1)))).
Proof.
  intros E0 TP. split.
  - intros NV. assert (Q : is_value_error e = false) by (destruct e; try reflexivity; exfalso; apply NV; constructor).
    unfold parse_kind, parse_poly, poly_type, bind, catch. rewrite E0, TP, Q. reflexivity.
  - intros VE eid m es f here p tx A B C D F G err. assert (Q : is_value_error e = true) by (destruct VE; reflexivity).
    unfold parse_kind, parse_poly, poly_type, bind, catch. rewrite E0, TP, Q.
    rewrite (report_run W (Invalid (VioExn (spoken e))) s1 eid m es f here p tx A B C D F G). destruct m; reflexivity.
Qed.
Lemma C55_scalar_lem W fuel probe tf table rs u s pid v p p' eid m es f tx :
  no_data v -> nth_error (paths s) pid = Some p -> p_value (w_env W) (entries s) p = (p', Ok v) -> p_str (w_env W) p' = Ok tx ->
  lookup "src" (stk s) <> None -> lookup "src_path" (stk s) = Some (CPath pid) ->
  lookup "errors" (stk s) = Some (CErrs eid) -> nth_error (errs s) eid = Some (m, es) -> lookup "field" (stk s) = Some (CField f) ->
  let e := MkErr (Invalid (VioExn (EValue "Invalid src, expected None, dict or Source"))) tx (f_name f) (Some pid) in
  exists s1, parse_kind W (field_map W fuel) (KPoly probe tf table rs u) pid s =
      (match m with Collect => Ok ERRORv | Raise => Exn (EForm (es ++ [e])) end, s1) /\
    stk s1 = stk s /\ forms s1 = forms s ++ [(probe, [])] /\ errs s1 = replace_nth eid (m, es ++ [e]) (errs s).
Proof.
  intros ND NP PV PS SR SP EL EE FL e.
  set (s0 := St (stk s) (forms s) (replace_nth pid p' (paths s)) (errs s)).
  assert (E0 : path_value W pid s = (Ok v, s0)) by (unfold path_value, on_path; now rewrite NP, PV).
  set (s1 := St (stk s) (forms s ++ [(probe, [])]) (replace_nth pid p' (paths s)) (errs s)).
  assert (TP : types_probe W (field_map W fuel) probe tf v s0 = (Exn (EValue "Invalid src, expected None, dict or Source"), s1)).
  { unfold types_probe, bind, new_form, form_map. cbn [s0 stk forms paths errs]. unfold bind.
    assert (ET : exists tags, effective_tags [] s1 = (Ok tags, s1)).
    { unfold effective_tags, ctx_get_opt, bind, get. destruct (lookup "tags" (stk s1)) as [[]|]; eexists; reflexivity. }
    destruct ET as (tags & ET). fold s1. rewrite ET. unfold form_type, get at 1. cbn [ret].
    unfold ctx_get, ctx_get_opt, bind, get at 1. change (stk s1) with (stk s). destruct (lookup "src" (stk s)) as [c|]; [|congruence]. cbn [ret].
    assert (IA : is_anone (AVal v) = false) by (destruct v; try contradiction; reflexivity). rewrite IA. cbn [andb].
    unfold root_map, bind, form_type, get at 1.
    match goal with |- context [root_source ?t (AVal v)] => assert (RS : root_source t (AVal v) = Exn (EValue "Invalid src, expected None, dict or Source")) by (destruct v; try contradiction; reflexivity) end.
    rewrite RS. reflexivity. }
  destruct (C55_failed_lem W fuel probe tf table rs u s pid v s0 _ s1 E0 TP) as [_ VE].
  specialize (VE (ve_plain _) eid m es f pid p' tx EL EE FL SP). cbn [paths s1] in VE.
  rewrite (VE (replace_hit _ _ _ _ NP) PS). eexists. split; [reflexivity|]. auto.
Qed.

(** ** Any probe *)
Lemma class_get table ident : dict_get (map (fun ic => (fst ic, VStr (snd ic))) table) ident =
  option_map (fun ic => VStr (snd ic)) (find (fun ic => py_eq (fst ic) ident) table).
Proof.
  unfold dict_get. induction table as [|[k c] table IH]; [reflexivity|]. cbn [map find fst snd]. now destruct (py_eq k ident).
Qed.
Lemma listed_get table ident c : lists_class table ident c -> dict_get (map (fun ic => (fst ic, VStr (snd ic))) table) ident = Some (VStr c).
Proof.
  intros (pre & k & post & -> & Q & N). rewrite class_get. induction pre as [|[k' c'] pre IH]; cbn [app find fst].
  - now rewrite Q.
  - rewrite (N k' c' (or_introl eq_refl)). apply IH. intros a b I. exact (N a b (or_intror I)).
Qed.
Lemma unlisted_get table ident : unlisted table ident -> dict_get (map (fun ic => (fst ic, VStr (snd ic))) table) ident = None.
Proof.
  intros N. rewrite class_get. destruct (find _ table) as [[k c]|] eqn:F; [|reflexivity]. apply find_some in F. destruct F as [I Q]. cbn [fst] in Q. rewrite (N k c I) in Q. discriminate.
Qed.
Section Probed.
Variables (W : world) (fuel : nat) (probe : formty) (tf : field) (v : val) (pid : nat) (s s0 s1 : st).
Let id := length (forms s0).
Hypothesis E0 : path_value W pid s = (Ok v, s0).
Lemma probe_map r : Form_map W fuel id (AVal v) [] false UIgnore Collect (snd (new_form probe s0)) = r ->
  types_probe W (field_map W fuel) probe tf v s0 =
  match r with
  | (Exn e, s1) => (Exn e, s1)
  | (Ok [], s1) => field_get W (field_map W fuel) tf id s1
  | (Ok (e :: _), s1) => (Exn (EField e), s1)
  end.
Proof.
  intros R. unfold types_probe. unfold bind at 1. rewrite (surjective_pairing (new_form probe s0)). change (fst (new_form probe s0)) with (Ok id). cbv iota.
  unfold bind. unfold Form_map in R. rewrite R. destruct r as [[[|e es]|e] s2]; reflexivity.
Qed.
Section Clean.
Variable ident : val.
Hypothesis M : Form_map W fuel id (AVal v) [] false UIgnore Collect (snd (new_form probe s0)) = (Ok [], s1).
Hypothesis D : dict_get (entries s1 id) (VStr (fname tf)) = Some ident.
Lemma probed : types_probe W (field_map W fuel) probe tf v s0 = (Ok ident, s1).
Proof. rewrite (probe_map _ M). unfold field_get, bind, form_entries, get. now rewrite D. Qed.
Lemma C55_probed_lem table rs u :
  (ident = VNone -> parse_kind W (field_map W fuel) (KPoly probe tf table rs u) pid s = (Ok NONEv, s1)) /\
  (forall c t, ident <> VNone -> hashable ident = true -> lists_class table ident c -> w_class W c = Some t ->
     parse_kind W (field_map W fuel) (KPoly probe tf table rs u) pid s = parse_kind W (field_map W fuel) (KSubForm t rs u) pid s1) /\
  (ident <> VNone -> hashable ident = true -> unlisted table ident -> forall eid m es f here p tx,
     lookup "errors" (stk s1) = Some (CErrs eid) -> nth_error (errs s1) eid = Some (m, es) ->
     lookup "field" (stk s1) = Some (CField f) -> lookup "src_path" (stk s1) = Some (CPath here) ->
     nth_error (paths s1) here = Some p -> p_str (w_env W) p = Ok tx ->
     let err := MkErr (Invalid (VioIdentity ident)) tx (f_name f) (Some here) in
     parse_kind W (field_map W fuel) (KPoly probe tf table rs u) pid s =
       (match m with Collect => Ok ERRORv | Raise => Exn (EForm (es ++ [err])) end,
        St (stk s1) (forms s1) (paths s1) (replace_nth eid (m, es ++ [err]) (errs s1)))).
Proof.
  assert (NN : ident <> VNone -> is_None ident = false) by (intros N; now destruct ident).
  cbn [parse_kind]. unfold parse_poly, poly_type. split; [|split].
  - intros N. unfold bind, catch. rewrite E0, probed, N. reflexivity.
  - intros c t N H L WC. unfold bind, catch. rewrite E0, probed, (NN N), H. cbn [negb]. now rewrite (listed_get _ _ _ L), WC.
  - intros N H U eid m es f here p tx A B C F G I. unfold bind, catch. rewrite E0, probed, (NN N), H. cbn [negb]. rewrite (unlisted_get _ _ U).
    rewrite (report_run W (Invalid (VioIdentity ident)) s1 eid m es f here p tx A B C F G I). destruct m; reflexivity.
Qed.
End Clean.
Lemma C55_rejected_lem table rs u e0 es0 :
  Form_map W fuel id (AVal v) [] false UIgnore Collect (snd (new_form probe s0)) = (Ok (e0 :: es0), s1) ->
  forall eid m es f here p tx,
     lookup "errors" (stk s1) = Some (CErrs eid) -> nth_error (errs s1) eid = Some (m, es) ->
     lookup "field" (stk s1) = Some (CField f) -> lookup "src_path" (stk s1) = Some (CPath here) ->
     nth_error (paths s1) here = Some p -> p_str (w_env W) p = Ok tx ->
     let err := MkErr (Invalid (VioExn (spoken (EField e0)))) tx (f_name f) (Some here) in
     parse_kind W (field_map W fuel) (KPoly probe tf table rs u) pid s =
       (match m with Collect => Ok ERRORv | Raise => Exn (EForm (es ++ [err])) end,
        St (stk s1) (forms s1) (paths s1) (replace_nth eid (m, es ++ [err]) (errs s1))).
Proof.
  intros M. apply (proj2 (C55_failed_lem W fuel probe tf table rs u s pid v s0 (EField e0) s1 E0 (probe_map _ M))). constructor.
Qed.
End Probed.
