(** * FromProofs: [from_context] (C97). *)
From Coq Require Import Lia.
From Verif Require Import PyBase PyStr Source Field Context Fields FromContext More SpecCtx SpecField SpecPipe SpecParse SpecMore SpecFrom.
From Verif Require Import Balance CtxProofs Run ParseProofs FieldProofs FieldVios FieldLemmas MoreProofs Make74 CaptureProofs.

(** ** The context afterwards *)
Lemma good_body W n f v : good (field_body W (field_map W n) f v).
Proof. exact (good_field_body W (field_map W n) (good_field_map W n) f v). Qed.
Lemma good_from W n f v : good (from_context_map W n f v).
Proof.
  assert (B : good (from_context__map W n f v)).
  { unfold from_context__map. destruct (is_NONE v); [|exact (good_body W n f v)].
    unfold from_context_resolved. destruct (py3 (w_env W)); [exact (good_raise no_nested)|].
    refine (with_ctx_good W [("src", CSrc (native ctx_object []))] _ _ (with_ctx_good W [("src", CKey (src_key f))] _ _ _)); [reflexivity|reflexivity|].
    intros s H. pose proof (good_body (ctx_world W s) n f v s H) as G. unfold goodat in *. cbv beta zeta. exact G. }
  refine (good_bind _ _ (with_ctx_good W [("field", CField f); ("parent", CField f)] _ _ B) (fun w => good_bind _ _ _ (fun _ => good_ret w))); [reflexivity|].
  destruct (o_attach_parent (f_opts f) && negb (ignored w))%bool; [|apply good_ret]. apply good_set_parent.
Qed.

Lemma C97_restores_lem W n f v s : reach W s -> same_context s (snd (from_context_map W n f v s)).
Proof. intros R. apply stable_same. apply good_from. eapply reach_wf; eauto. Qed.

Lemma C97_python3_lem W n f s : py3 (w_env W) = true ->
  from_context_map W n f NONEv s = (Exn no_nested, s).
Proof.
  intros P. unfold from_context_map, from_context__map, from_context_resolved. cbn [is_NONE NONEv]. rewrite P.
  destruct s. reflexivity.
Qed.

(** ** A field without hooks, in any state that knows the field, the errors and a path *)
Record ready (W : world) (t : st) (f : field) (eid : nat) (m : mode) (es : list err)
       (pid : nat) (q : path) (tx : string) (igd igm : bool) : Prop := {
  rd_eid : lookup "errors" (stk t) = Some (CErrs eid);
  rd_errs : nth_error (errs t) eid = Some (m, es);
  rd_field : lookup "field" (stk t) = Some (CField f);
  rd_pid : lookup "src_path" (stk t) = Some (CPath pid);
  rd_path : nth_error (paths t) pid = Some q;
  rd_str : p_str (w_env W) q = Ok tx;
  rd_igd : exists c, lookup "ignore_default" (stk t) = Some c /\ truthy_c c = igd;
  rd_igm : exists c, lookup "ignore_missing" (stk t) = Some c /\ truthy_c c = igm
}.
Definition moved (t : st) (pid : nat) (q : path) : st := St (stk t) (forms t) (replace_nth pid q (paths t)) (errs t).
Definition told (t : st) (eid : nat) (m : mode) (es new : list err) : st :=
  St (stk t) (forms t) (paths t) (replace_nth eid (m, es ++ new) (errs t)).
Definition outcome (m : mode) (es : list err) (x : val) (new : list err) : res val :=
  match m, new with Raise, _ :: _ => Exn (EForm (es ++ new)) | _, _ => Ok x end.

Section Ready.
Variables (W : world) (rec : field -> val -> M val) (t : st) (f : field) (eid : nat) (m : mode) (es : list err)
       (pid : nat) (q : path) (tx : string) (igd igm : bool).
Hypothesis R : ready W t f eid m es pid q tx igd igm.
Let E := w_env W.

Lemma ready_moved q' : p_str E q' = p_str E q -> ready W (moved t pid q') f eid m es pid q' tx igd igm.
Proof.
  intros T. destruct R as [A B C D F G H I]. split; try assumption.
  - cbn. apply nth_replace_eq. apply nth_error_Some. congruence.
  - fold E. rewrite T. exact G.
Qed.
Lemma ready_on {A} (op : env -> entries_of -> path -> path * res A) q' r :
  op E (entries t) q = (q', r) -> on_path W pid op t = (r, moved t pid q').
Proof. intros H. unfold on_path. rewrite (rd_path _ _ _ _ _ _ _ _ _ _ _ R). fold E. now rewrite H. Qed.
Lemma told_nil : told t eid m es [] = t.
Proof.
  unfold told. rewrite app_nil_r, (replace_same _ _ _ (rd_errs _ _ _ _ _ _ _ _ _ _ _ R)). now destruct t.
Qed.
Lemma ready_report kd :
  report W kd t = (match m with Raise => Exn (EForm (es ++ [MkErr kd tx (f_name f) (Some pid)])) | Collect => Ok tt end,
                   told t eid m es [MkErr kd tx (f_name f) (Some pid)]).
Proof. destruct R. eapply report_run; eassumption. Qed.
Lemma ready_missing : let miss := if igm then [] else [missing_at f pid tx] in
  report_missing_unless_ignored W t = (outcome m es NOTSETv miss, told t eid m es miss).
Proof.
  cbv zeta. pose proof told_nil as TN. pose proof ready_report as RR. destruct (rd_igm _ _ _ _ _ _ _ _ _ _ _ R) as (c & Hc & Tc). unfold report_missing_unless_ignored, bind.
  rewrite (ctx_get_at _ _ _ Hc), Tc. destruct igm.
  - rewrite TN. destruct m; reflexivity.
  - rewrite RR. destruct m; reflexivity.
Qed.
Lemma ready_default : (exists v, o_default (f_opts f) = DVal v) \/ o_default (f_opts f) = DUnset None ->
  let miss := if igm then [] else [missing_at f pid tx] in
  (igd = true \/ required f -> field_default W rec f t = (outcome m es NOTSETv miss, told t eid m es miss)) /\
  (forall v, igd = false -> o_default (f_opts f) = DVal v -> v <> VConst NOTSET -> field_default W rec f t = (Ok v, t)).
Proof.
  intros D. cbv zeta. pose proof ready_missing as RM. cbv zeta in RM. destruct (rd_igd _ _ _ _ _ _ _ _ _ _ _ R) as (c & Hc & Tc). unfold field_default, bind.
  rewrite (ctx_get_at _ _ _ Hc), Tc. split.
  - intros [IG | [Q | Q]].
    + rewrite IG. exact RM.
    + destruct igd; [exact RM|]. rewrite Q. exact RM.
    + destruct igd; [exact RM|]. rewrite Q. exact RM.
  - intros v IG DV NV. rewrite IG, DV. destruct v as [| | | | | | | | | | | | | |[]| | | | |]; try reflexivity; congruence.
Qed.
Hypothesis HF : hook_free f.
Lemma ready_after v w : lookable f v -> translated f v w -> ignored w = false ->
  field_after W rec f v t =
  (if py_in w (o_ignores (f_opts f)) then field_default W rec f t
   else match field_violation E (entries t) f w with
        | Exn e => (Exn e, t)
        | Ok None => (Ok w, t)
        | Ok (Some x) => (outcome m es ERRORv [invalid_at f pid x tx], told t eid m es [invalid_at f pid x tx])
        end).
Proof.
  intros L Tr G. unfold field_after. unfold bind at 1. rewrite (munge_run f v t L). rewrite (translated_is f v w Tr). unfold bind at 1.
  rewrite (hf_munge _ HF). cbn [ret].
  assert (N : is_NONE w = false) by (destruct w; try reflexivity; discriminate). rewrite N, G.
  unfold field_filter. rewrite negb_involutive. destruct (py_in w (o_ignores (f_opts f))); [reflexivity|].
  rewrite (hf_filter _ HF). unfold bind at 1. cbn [ret negb]. unfold bind at 1. unfold field_validate, bind at 1.
  fold E. destruct (field_violation E (entries t) f w) as [[x|]|e]; [| |reflexivity].
  - unfold bind. rewrite (ready_report (Invalid x)). unfold outcome. destruct m; reflexivity.
  - cbn [ret negb]. rewrite (hf_validate _ HF). unfold bind. reflexivity.
Qed.
End Ready.

(** ** The two blocks *)
Definition ctx_source : psource := SDefault ctx_object [] [] None.
Definition var_path (ps : list part) : path := PBase (BP (Source.PPath ctx_source ctx_object ps)).
Definition entered (f : field) (k : key) (s : st) : st :=
  St ([("src", CKey k)] :: [("src_path", CPath (length (paths s))); ("src", CSrc (native ctx_object []))] ::
      [("field", CField f); ("parent", CField f)] :: stk s)
     (forms s) (paths s ++ [var_path [Part k None]]) (errs s).

Lemma nth_last {A} (l : list A) x : nth_error (l ++ [x]) (length l) = Some x.
Proof. rewrite nth_error_app2 by lia. now rewrite PeanoNat.Nat.sub_diag. Qed.
Lemma replace_last {A} (l : list A) x y : replace_nth (length l) y (l ++ [x]) = l ++ [y].
Proof.
  apply nth_ext_eq. intros i. destruct (PeanoNat.Nat.eq_dec i (length l)) as [->|N].
  - rewrite nth_last. apply nth_replace_eq. rewrite app_length. cbn. lia.
  - rewrite nth_replace_neq by congruence. destruct (PeanoNat.Nat.lt_ge_cases i (length l)) as [I|I].
    + now rewrite !nth_error_app1 by exact I.
    + rewrite !nth_error_app2 by exact I. destruct (i - length l)%nat as [|j] eqn:J; [lia|]. now destruct j.
Qed.

Lemma from_run W n f k s r errs' ps :
  py3 (w_env W) = false -> o_src (f_opts f) = Some k -> o_attach_parent (f_opts f) = false ->
  let t := entered f k s in
  field_body (ctx_world W t) (field_map (ctx_world W t) n) f NONEv t =
    (r, St (stk t) (forms s) (paths s ++ [var_path ps]) errs') ->
  length ps = 1%nat ->
  exists s', from_context_map W n f NONEv s = (r, s') /\ stk s' = stk s /\ forms s' = forms s /\ errs s' = errs'.
Proof.
  intros P K AP t B L. destruct ps as [|pt [|? ?]]; try discriminate L.
  unfold from_context_map, from_context__map, from_context_resolved, src_key. change (is_NONE NONEv) with true. cbv iota. rewrite P, K, AP.
  cbn [andb]. unfold bind at 1. unfold with_ctx at 1, closing at 1.
  change (push W [("field", CField f); ("parent", CField f)] s) with
    (Ok tt, St ([("field", CField f); ("parent", CField f)] :: stk s) (forms s) (paths s) (errs s)). cbv iota beta.
  unfold with_ctx at 1, closing at 1.
  set (s1 := St ([("field", CField f); ("parent", CField f)] :: stk s) (forms s) (paths s) (errs s)).
  assert (O1 : push W [("src", CSrc (native ctx_object []))] s1 =
    (Ok tt, St ([("src_path", CPath (length (paths s))); ("src", CSrc (native ctx_object []))] :: stk s1) (forms s) (paths s ++ [var_path []]) (errs s)))
    by reflexivity.
  rewrite O1. cbv iota beta. clear O1. unfold with_ctx at 1, closing at 1.
  set (s2 := St ([("src_path", CPath (length (paths s))); ("src", CSrc (native ctx_object []))] :: stk s1) (forms s) (paths s ++ [var_path []]) (errs s)).
  assert (O2 : push W [("src", CKey k)] s2 = (Ok tt, t)).
  { unfold push. cbn [alookup]. change (String.eqb "src" "src") with true. cbv iota. unfold bind at 1.
    rewrite (cur_path_at s2 (length (paths s))) by reflexivity. unfold bind, on_path. cbn [paths s2].
    rewrite nth_last, replace_last. reflexivity. }
  rewrite O2. cbv iota beta zeta. rewrite B. cbv iota beta.
  assert (C1 : restore W (St (stk t) (forms s) (paths s ++ [var_path [pt]]) errs') =
    (Ok tt, St (stk s2) (forms s) (paths s ++ [var_path []]) errs')).
  { unfold restore. cbn [stk t entered]. unfold bind at 1. cbn [set_stk].
    change (has_key "src" [("src", CKey k)] && negb (has_key "src_path" [("src", CKey k)]))%bool with true. cbv iota. unfold bind at 1.
    rewrite (cur_path_at _ (length (paths s))) by reflexivity. unfold on_path. cbn [paths forms stk errs].
    rewrite nth_last. destruct pt as [pk pv]. cbn. rewrite replace_last. reflexivity. }
  rewrite C1. cbv iota beta. clear C1.
  set (s4 := St (stk s2) (forms s) (paths s ++ [var_path []]) errs').
  assert (C2 : restore W s4 = (Ok tt, St (stk s1) (forms s) (paths s ++ [var_path []]) errs')) by reflexivity.
  rewrite C2. cbv iota beta.
  assert (C3 : restore W (St (stk s1) (forms s) (paths s ++ [var_path []]) errs') = (Ok tt, St (stk s) (forms s) (paths s ++ [var_path []]) errs')) by reflexivity.
  rewrite C3. cbv iota beta. eexists. destruct r; (split; [reflexivity|]); now repeat split.
Qed.

(** ** What is read *)
Lemma strip_call_some : forall k y, strip_call k = Some y -> k = (y ++ "()")%string.
Proof.
  induction k as [|c k IH]; cbn [strip_call]; [discriminate|]. intros y.
  destruct (String.eqb (String c k) "()") eqn:Q.
  - intros [= <-]. apply String.eqb_eq in Q. exact Q.
  - destruct (strip_call k) as [z|] eqn:S0; [|discriminate]. cbn. intros [= <-]. cbn. f_equal. now apply IH.
Qed.
Lemma call_strips : forall x, strip_call (x ++ "()") <> None.
Proof.
  induction x as [|c x IH]; [discriminate|]. cbn [append strip_call]. destruct (String.eqb _ "()"); [discriminate|].
  destruct (strip_call (x ++ "()")); [discriminate|congruence].
Qed.
Lemma simple_call k : simple_name k -> strip_call k = None.
Proof. intros V. destruct (strip_call k) as [y|] eqn:S0; [|reflexivity]. exfalso. exact (sn_call k V y (strip_call_some _ _ S0)). Qed.
Lemma variable_simple k : variable_name k -> simple_name k.
Proof. intros V. split; [exact (vn_dot k V)|exact (vn_call k V)]. Qed.
Lemma variable_attr k s : variable_name k -> ctx_attr k s = option_map Entry (lookup k (stk s)).
Proof.
  intros V. unfold ctx_attr. assert (C : ~ In k context_attributes) by (rewrite context_names; exact (vn_free k V)).
  apply existsb_in in C. now rewrite C.
Qed.
Lemma variable_lookup f k k' s : variable_name k -> lookup k (stk (entered f k' s)) = lookup k (stk s).
Proof.
  intros V. pose proof (vn_own k V) as O1. cbn [In] in O1.
  assert (N : forall x, In x ["field"; "parent"; "src"; "src_path"] -> String.eqb k x = false).
  { intros x I. apply String.eqb_neq. intros ->. apply (vn_own x V). exact I. }
  cbn [entered stk lookup alookup]. rewrite ?(String.eqb_sym _ k).
  rewrite (N "src"), (N "src_path"), (N "field"), (N "parent") by (cbn; tauto). reflexivity.
Qed.
Definition found (o : option attribute) : val := match o with Some a => attribute_value a | None => VConst NONE end.
Lemma simple_resolves W ents f k s ks : simple_name k -> let t := entered f (KStr k) s in
  psource_resolve (ctx_env (w_env W) t) ents ctx_source ks ctx_object (KStr k) = Ok (found (ctx_attr k t)).
Proof.
  intros V t. cbn [psource_resolve ctx_source]. set (E := ctx_env _ _).
  assert (ST : default_resolve1 E ents [] [] ks ctx_object (KStr k) = Ok (found (ctx_attr k t))).
  { unfold default_resolve1. cbn [is_ignored existsb].
    change (as_item E ents ctx_object (KStr k)) with (@Ok val (VConst NONE)). cbn [is_NONE negb as_alias alookup].
    unfold as_attr, py_getattr, ctx_object. cbn [e_attr E ctx_env]. change (is_ctx (VObj "Context" 0)) with true. cbv iota.
    destruct (ctx_attr k t); reflexivity. }
  destruct (String.length k) as [|n]; cbn [default_resolve]; rewrite (simple_call k V), ST;
    (destruct (is_NONE (found (ctx_attr k t))) eqn:N; [|reflexivity]);
    rewrite (split_one k (sn_dot k V)); cbn [walk_atoms]; rewrite ST, N; reflexivity.
Qed.
Lemma simple_value W ents f k s : simple_name k -> let t := entered f (KStr k) s in let E := ctx_env (w_env W) t in
  let v := found (ctx_attr k t) in
  pp_value E ents (Source.PPath ctx_source ctx_object [Part (KStr k) None]) = (Source.PPath ctx_source ctx_object [Part (KStr k) (Some v)], Ok v).
Proof.
  intros V t E v. unfold pp_value. cbn [pp_parts rev app last_cached pk pc length skipn Nat.sub walk_parts pp_src pp_root firstn pp_keys map].
  unfold E. rewrite (simple_resolves W ents f k s _ V). fold t v. destruct (is_NONE v); reflexivity.
Qed.
Lemma cached_value E ents k v :
  pp_value E ents (Source.PPath ctx_source ctx_object [Part (KStr k) (Some v)]) = (Source.PPath ctx_source ctx_object [Part (KStr k) (Some v)], Ok v).
Proof. reflexivity. Qed.

Section From.
Variables (W : world) (n : nat) (f : field) (s : st) (k : string) (eid : nat) (m : mode) (es : list err) (igd igm : bool).
Hypothesis U : underway W s eid m es igd igm.
Hypothesis P2 : py3 (w_env W) = false.
Hypothesis SK : o_src (f_opts f) = Some (KStr k).
Hypothesis V : simple_name k.
Hypothesis DR : direct_read f.
Let t := entered f (KStr k) s.
Let W' := ctx_world W t.
Let pid := length (paths s).
Let v := found (ctx_attr k t).
(** The state while the field is mapped, the variable having been read. *)
Let t1 := St (stk t) (forms s) (paths s ++ [var_path [Part (KStr k) (Some v)]]) (errs s).

Lemma own_lookup x : In x ["errors"; "ignore_default"; "ignore_missing"] -> lookup x (stk t) = lookup x (stk s).
Proof. intros [<-|[<-|[<-|[]]]]; reflexivity. Qed.
Lemma var_str E o : p_str E (var_path [Part (KStr k) o]) = Ok k.
Proof. cbn. now rewrite append_nil. Qed.
Lemma t1_ready : ready W' t1 f eid m es pid (var_path [Part (KStr k) (Some v)]) k igd igm.
Proof.
  destruct U as [A B C D F]. split; cbn [t1 stk errs paths].
  - rewrite own_lookup by (cbn; tauto). exact B.
  - exact C.
  - reflexivity.
  - reflexivity.
  - apply nth_last.
  - apply var_str.
  - rewrite own_lookup by (cbn; tauto). exact D.
  - rewrite own_lookup by (cbn; tauto). exact F.
Qed.
Lemma t_cur : cur_path t = (Ok pid, t).
Proof. apply cur_path_at. reflexivity. Qed.
Lemma t_exists_run : path_exists W' pid t = (Ok (negb (is_NONE v)), t1).
Proof.
  unfold path_exists, on_path. cbn [paths t entered]. unfold pid. rewrite nth_last. unfold p_exists, var_path, bp_exists. cbn [on_bp]. unfold pp_exists.
  change (w_env W') with (ctx_env (w_env W) t). rewrite (simple_value W _ f k s V). cbv iota beta zeta. fold t v. cbn [stk forms errs t entered].
  rewrite replace_last. reflexivity.
Qed.
Lemma t1_null : path_is_null W' pid t1 = (Ok (is_None v), t1).
Proof.
  unfold path_is_null, on_path. cbn [paths t1]. unfold pid. rewrite nth_last. unfold p_is_null, var_path, bp_is_null. cbn [on_bp]. unfold pp_is_null.
  rewrite cached_value. cbv iota beta. unfold t1. cbn [stk forms errs]. rewrite replace_last. reflexivity.
Qed.
Lemma t1_primitive ty : path_primitive W' ty pid t1 = (mixin_parse (w_env W) ty v, t1).
Proof.
  unfold path_primitive, on_path. cbn [paths t1]. unfold pid. rewrite nth_last. unfold p_primitive, var_path, bp_primitive. cbn [on_bp]. unfold pp_primitive.
  rewrite cached_value. cbv iota beta. unfold t1. cbn [stk forms errs]. rewrite replace_last. destruct ty; reflexivity.
Qed.
Lemma from_done x new ps : length ps = 1%nat ->
  field_body W' (field_map W' n) f NONEv t = (outcome m es x new, St (stk t) (forms s) (paths s ++ [var_path ps]) (replace_nth eid (m, es ++ new) (errs s))) ->
  from_yields W n f s eid m es x new.
Proof.
  intros L B. destruct (from_run W n f (KStr k) s _ _ ps P2 SK (dr_parent _ DR) B L) as (s' & A1 & A2 & A3 & A4).
  exists s'. auto.
Qed.
Lemma from_done_told x new : field_body W' (field_map W' n) f NONEv t = (outcome m es x new, told t1 eid m es new) ->
  from_yields W n f s eid m es x new.
Proof. apply (from_done x new [Part (KStr k) (Some v)]). reflexivity. Qed.
Lemma from_done_same x : field_body W' (field_map W' n) f NONEv t = (Ok x, t1) -> from_yields W n f s eid m es x [].
Proof.
  intros B. apply from_done_told. rewrite (told_nil _ _ _ _ _ _ _ _ _ _ _ t1_ready). unfold outcome. destruct m; exact B.
Qed.

Lemma from_absent_body : ctx_attr k t = None -> field_body W' (field_map W' n) f NONEv t = field_default W' (field_map W' n) f t1.
Proof.
  intros A. unfold field_body. change (is_NONE NONEv) with true. cbv iota. rewrite (dr_compute _ DR). unfold bind at 1.
  assert (C : field_compute W' (field_map W' n) f t = (Ok NONEv, t1)).
  { unfold field_compute, bind. rewrite t_cur, t_exists_run. unfold v. rewrite A. reflexivity. }
  rewrite C. cbn [is_NONE NONEv]. destruct (dr_default _ DR) as [(d & ->)| ->]; reflexivity.
Qed.
Lemma from_absent : ctx_attr k t = None ->
  (igd = true \/ required f -> from_yields W n f s eid m es NOTSETv (if igm then [] else [missing_at f (length (paths s)) k])) /\
  (forall d, igd = false -> o_default (f_opts f) = DVal d -> d <> VConst NOTSET -> from_yields W n f s eid m es d []).
Proof.
  intros A. pose proof (from_absent_body A) as B.
  destruct (ready_default W' (field_map W' n) t1 f eid m es pid _ k igd igm t1_ready (dr_default _ DR)) as (D1 & D2). split.
  - intros Q. apply from_done_told. rewrite B. exact (D1 Q).
  - intros d G Q N. apply from_done_same. rewrite B. exact (D2 d G Q N).
Qed.

Hypothesis HF : hook_free f.
Variables (ty : ptype) (a : attribute) (w x : val).
Hypothesis PK : primitive_kind (f_kind f) = Some ty.
Hypothesis LK : ctx_attr k t = Some a.
Hypothesis NI : ignored (attribute_value a) = false.
Lemma kind_primitive : parse_kind W' (field_map W' n) (f_kind f) pid = path_primitive W' ty pid.
Proof. unfold primitive_kind in PK. unfold parse_kind. destruct (f_kind f); try discriminate PK; injection PK as <-; reflexivity. Qed.
Lemma from_unreadable e : attribute_value a <> VNone ->
  (forall d, psource_parse (w_env W) (SDefault d [] [] None) ty (attribute_value a) = Exn e) -> caught_by_compute e = true ->
  from_yields W n f s eid m es ERRORv [invalid_at f (length (paths s)) (VioExn (spoken e)) k].
Proof.
  intros NN NR CE. apply from_done_told. unfold field_body. change (is_NONE NONEv) with true. cbv iota. rewrite (dr_compute _ DR). unfold bind at 1.
  assert (VV : v = attribute_value a) by (unfold v; now rewrite LK).
  assert (NV : is_NONE v = false) by (rewrite VV; destruct (attribute_value a); try reflexivity; discriminate).
  assert (NO : is_None v = false) by (rewrite VV; destruct (attribute_value a); try reflexivity; congruence).
  assert (C : field_compute W' (field_map W' n) f t = (outcome m es ERRORv [invalid_at f pid (VioExn (spoken e)) k], told t1 eid m es [invalid_at f pid (VioExn (spoken e)) k])).
  { unfold field_compute, bind. rewrite t_cur, t_exists_run, NV. cbn [negb]. rewrite t1_null, NO.
    rewrite (hf_parse _ HF), kind_primitive. unfold catch. rewrite t1_primitive, VV.
    specialize (NR VNone). cbn [psource_parse] in NR. rewrite NR, CE. unfold invalid_error, bind.
    rewrite (ready_report W' t1 f eid m es pid _ k igd igm t1_ready (Invalid (VioExn (spoken e)))). unfold outcome. destruct m; reflexivity. }
  rewrite C. unfold outcome. destruct m; reflexivity.
Qed.
Hypothesis RA : read_as (w_env W) ty (attribute_value a) w.
Hypothesis NW : ignored w = false.
Hypothesis LO : lookable f w.
Hypothesis TR : translated f w x.
Hypothesis NX : ignored x = false.

Lemma from_found_body : field_body W' (field_map W' n) f NONEv t = field_after W' (field_map W' n) f w t1.
Proof.
  unfold field_body. change (is_NONE NONEv) with true. cbv iota. rewrite (dr_compute _ DR). unfold bind at 1.
  assert (VV : v = attribute_value a) by (unfold v; now rewrite LK).
  assert (NV : is_NONE v = false) by (rewrite VV; destruct (attribute_value a); try reflexivity; discriminate).
  assert (C : field_compute W' (field_map W' n) f t = (Ok w, t1)).
  { unfold field_compute, bind. rewrite t_cur, t_exists_run, NV. cbn [negb]. rewrite t1_null.
    inversion RA as [HV HW|v0 w0 NN NR HV HW].
    - rewrite VV, <- HV. reflexivity.
    - assert (NO : is_None v = false) by (rewrite VV; destruct (attribute_value a); try reflexivity; congruence). rewrite NO.
      rewrite (hf_parse _ HF), kind_primitive. unfold catch. rewrite t1_primitive, VV.
      specialize (NR VNone). cbn [psource_parse] in NR. rewrite NR.
      reflexivity. }
  rewrite C. assert (NONE_w : is_NONE w = false) by (destruct w; try reflexivity; discriminate). rewrite NONE_w, NW. reflexivity.
Qed.
Lemma from_value :
  (py_in x (o_ignores (f_opts f)) = false -> field_violation (w_env W) (entries s) f x = Ok None -> from_yields W n f s eid m es x []) /\
  (forall y, py_in x (o_ignores (f_opts f)) = false -> field_violation (w_env W) (entries s) f x = Ok (Some y) ->
     from_yields W n f s eid m es ERRORv [invalid_at f (length (paths s)) y k]) /\
  (py_in x (o_ignores (f_opts f)) = true ->
     (igd = true \/ required f -> from_yields W n f s eid m es NOTSETv (if igm then [] else [missing_at f (length (paths s)) k])) /\
     (forall d, igd = false -> o_default (f_opts f) = DVal d -> d <> VConst NOTSET -> from_yields W n f s eid m es d [])).
Proof.
  pose proof from_found_body as B.
  rewrite (ready_after W' (field_map W' n) t1 f eid m es pid _ k igd igm t1_ready HF w x LO TR NX) in B.
  change (field_violation (w_env W') (entries t1) f x) with (field_violation (w_env W) (entries s) f x) in B.
  repeat split.
  - intros I Y. apply from_done_same. now rewrite B, I, Y.
  - intros y I Y. apply from_done_told. now rewrite B, I, Y.
  - intros I. rewrite H in B. apply from_done_told. rewrite B.
    exact (proj1 (ready_default W' (field_map W' n) t1 f eid m es pid _ k igd igm t1_ready (dr_default _ DR)) I).
  - intros d G Q N. rewrite H in B. apply from_done_same. rewrite B.
    exact (proj2 (ready_default W' (field_map W' n) t1 f eid m es pid _ k igd igm t1_ready (dr_default _ DR)) d G Q N).
Qed.
End From.

(** ** Variables, and the names that are taken *)
Lemma variable_entered f k s : variable_name k -> ctx_attr k (entered f (KStr k) s) = option_map Entry (lookup k (stk s)).
Proof. intros V. rewrite (variable_attr _ _ V), (variable_lookup _ _ _ _ V). reflexivity. Qed.
Lemma method_entered f k s : context_method k -> ctx_attr k (entered f (KStr k) s) = Some (Method k).
Proof. intros M. now apply C83_context_lem. Qed.
Lemma method_simple k : context_method k -> simple_name k.
Proof.
  intros M. split.
  - unfold context_method in M. cbn [In] in M. intros I. repeat (destruct M as [<-|M]; [cbn in I; intuition discriminate|]). exact M.
  - intros x E. apply (call_strips x). rewrite <- E. unfold context_method in M. cbn [In] in M.
    repeat (destruct M as [<-|M]; [reflexivity|]). destruct M.
Qed.

Section Names.
Variables (W : world) (n : nat) (f : field) (s : st) (k : string) (eid : nat) (m : mode) (es : list err) (igd igm : bool).
Hypothesis U : underway W s eid m es igd igm.
Hypothesis P2 : py3 (w_env W) = false.
Hypothesis SK : o_src (f_opts f) = Some (KStr k).

Lemma C97_absent_lem : variable_name k -> direct_read f -> lookup k (stk s) = None ->
  (igd = true \/ required f -> from_yields W n f s eid m es NOTSETv (if igm then [] else [missing_at f (length (paths s)) k])) /\
  (forall d, igd = false -> o_default (f_opts f) = DVal d -> d <> VConst NOTSET -> from_yields W n f s eid m es d []).
Proof.
  intros V DR A. apply from_absent; try assumption; [exact (variable_simple k V)|]. rewrite (variable_entered _ _ _ V), A. reflexivity.
Qed.
Lemma C97_unreadable_lem : variable_name k -> hook_free f -> forall t c, primitive_kind (f_kind f) = Some t -> lookup k (stk s) = Some c ->
  ignored (object_of c) = false -> forall e, object_of c <> VNone ->
  (forall d, psource_parse (w_env W) (SDefault d [] [] None) t (object_of c) = Exn e) -> caught_by_compute e = true ->
  from_yields W n f s eid m es ERRORv [invalid_at f (length (paths s)) (VioExn (spoken e)) k].
Proof.
  intros V HF t c PK LK NI e NN NR CE.
  apply (from_unreadable W n f s k eid m es igd igm U P2 SK (variable_simple k V) (hf_read f HF) HF t (Entry c) PK); try assumption.
  rewrite (variable_entered _ _ _ V), LK. reflexivity.
Qed.
Definition settled (x : val) : Prop :=
  (py_in x (o_ignores (f_opts f)) = false -> field_violation (w_env W) (entries s) f x = Ok None -> from_yields W n f s eid m es x []) /\
  (forall y, py_in x (o_ignores (f_opts f)) = false -> field_violation (w_env W) (entries s) f x = Ok (Some y) ->
     from_yields W n f s eid m es ERRORv [invalid_at f (length (paths s)) y k]) /\
  (py_in x (o_ignores (f_opts f)) = true ->
     (igd = true \/ required f -> from_yields W n f s eid m es NOTSETv (if igm then [] else [missing_at f (length (paths s)) k])) /\
     (forall d, igd = false -> o_default (f_opts f) = DVal d -> d <> VConst NOTSET -> from_yields W n f s eid m es d [])).
Lemma C97_value_lem : variable_name k -> hook_free f -> forall t c w x, primitive_kind (f_kind f) = Some t -> lookup k (stk s) = Some c ->
  ignored (object_of c) = false -> read_as (w_env W) t (object_of c) w -> ignored w = false -> lookable f w -> translated f w x -> ignored x = false ->
  settled x.
Proof.
  intros V HF t c w x PK LK NI RA NW LO TR NX.
  apply (from_value W n f s k eid m es igd igm U P2 SK (variable_simple k V) (hf_read f HF) HF t (Entry c) w x PK); try assumption.
  rewrite (variable_entered _ _ _ V), LK. reflexivity.
Qed.
Lemma C97_taken_lem : context_method k -> hook_free f -> forall t e, primitive_kind (f_kind f) = Some t -> refused t (VObj k 0) e ->
  from_yields W n f s eid m es ERRORv [invalid_at f (length (paths s)) (VioExn (spoken e)) k].
Proof.
  intros V HF t e PK RF.
  apply (from_unreadable W n f s k eid m es igd igm U P2 SK (method_simple k V) (hf_read f HF) HF t (Method k) PK).
  - now apply method_entered.
  - reflexivity.
  - discriminate.
  - intros d. inversion RF; reflexivity.
  - inversion RF; reflexivity.
Qed.
Lemma C97_taken_any_lem : context_method k -> hook_free f -> f_kind f = KAny -> forall x, lookable f (VObj k 0) -> translated f (VObj k 0) x -> ignored x = false ->
  settled x.
Proof.
  intros V HF K x LO TR NX.
  apply (from_value W n f s k eid m es igd igm U P2 SK (method_simple k V) (hf_read f HF) HF TyAuto (Method k) (VObj k 0) x); try assumption; try reflexivity.
  - now rewrite K.
  - now apply method_entered.
  - apply ra_value; [discriminate|]. intros d. reflexivity.
Qed.
Lemma C97_src_lem : k = "src" -> hook_free f -> forall c x, f_kind f = KString c -> lookable f (VStr "src") -> translated f (VStr "src") x -> ignored x = false ->
  settled x.
Proof.
  intros E0 HF c x K LO TR NX.
  apply (from_value W n f s k eid m es igd igm U P2 SK) with (ty := TyStr) (a := Entry (CKey (KStr "src"))) (w := VStr "src"); try assumption; try reflexivity.
  - rewrite E0. split; [cbn; intuition discriminate|]. intros y E. apply (call_strips y). rewrite <- E. reflexivity.
  - exact (hf_read f HF).
  - now rewrite K.
  - rewrite E0. reflexivity.
  - apply ra_value; [discriminate|]. intros d. reflexivity.
Qed.
End Names.

Lemma stands c v : stands_for c v -> v = object_of c.
Proof. intros []; reflexivity. Qed.
Lemma C97_given_lem W n f v s : v <> NONEv -> from_context_map W n f v s = field_map W (S n) f v s.
Proof.
  intros H. assert (N : is_NONE v = false) by (destruct v; try reflexivity; match goal with c : const |- _ => destruct c; try reflexivity; now elim H end).
  unfold from_context_map. cbn [field_map]. unfold field_map_body, from_context__map, field__map. rewrite N. reflexivity.
Qed.
