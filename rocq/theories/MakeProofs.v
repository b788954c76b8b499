(** * MakeProofs: constructed fields and how they map (C72-C79). *)
From Verif Require Import PyBase PyStr Source Field Context Fields Build SpecCtx SpecField SpecBuild Shape Reads Balance CtxProofs Run FieldProofs FieldLemmas.
From Coq Require Import Lia.
Open Scope Z_scope.

(** ** Running a quiet field *)
Section Quiet.
Variables (W : world) (n : nat) (f : field) (arg : val).
Variables (s : st) (eid : nat) (m : mode) (es : list err) (pid : nat) (p : path) (igd igm : bool).
Hypothesis MP : mapping W s eid m es pid p igd igm.
Hypothesis Q : quiet f.
Notation E := (w_env W).
Notation s1 := (entered f arg s pid p).
Notation sp := (spot f arg p).
Notation read := (after_read f arg s pid p).
Notation told := (reported f arg s eid m es pid p).

Lemma yields_run x new q : field_body W (field_map W n) f arg s1 = (out m es x new, told q new) ->
  yields W (S n) f arg s eid m es x new.
Proof.
  intros B. destruct (field_run W n f arg s eid m es pid p igd igm MP (qu_resolve _ Q) (qu_parent _ Q)) as (_ & s' & A1 & A2 & A3 & A4).
  rewrite B in *. cbn [fst snd reported forms errs] in *. exists s'. auto.
Qed.
Lemma raises_run e q : field_body W (field_map W n) f arg s1 = (Exn e, read q) ->
  exists s', field_map W (S n) f arg s = (Exn e, s') /\ stk s' = stk s /\ forms s' = forms s /\ errs s' = errs s.
Proof.
  intros B. destruct (field_run W n f arg s eid m es pid p igd igm MP (qu_resolve _ Q) (qu_parent _ Q)) as (_ & s' & A1 & A2 & A3 & A4).
  rewrite B in *. cbn [fst snd after_read forms errs] in *. exists s'. auto.
Qed.
(** from the value the munge hook is given *)
Definition checked (w : val) (q : path) (t : string) : res val * st :=
  if py_in w (o_ignores (f_opts f)) then field_default W (field_map W n) f (read q)
  else match field_violation E (entries s) f w with
       | Exn e => (Exn e, read q)
       | Ok None => (Ok w, read q)
       | Ok (Some x) => (out m es ERRORv [invalid_at f pid x t], told q [invalid_at f pid x t])
       end.
Lemma after_quiet v u w q t : p_str E q = Ok t -> lookable f v -> translation f v = u ->
  (match o_munge (f_opts f) with Some h => ignored u = false /\ call_hook W (field_map W n) h [u] (read q) = (Ok w, read q) | None => w = u end) ->
  field_after W (field_map W n) f v (read q) =
  if is_NONE w then field_default W (field_map W n) f (read q)
  else if ignored w then (Ok w, read q) else checked w q t.
Proof.
  intros T L Tr H. unfold field_after. unfold bind at 1. rewrite (munge_run f v _ L), Tr. unfold bind at 1.
  assert (X : (match o_munge (f_opts f) with Some h => if ignored u then ret u else call_hook W (field_map W n) h [u] | None => ret u end) (read q) = (Ok w, read q)).
  { destruct (o_munge (f_opts f)) as [h|]; [|now rewrite H]. destruct H as [G H]. now rewrite G. }
  rewrite X. destruct (is_NONE w); [reflexivity|]. destruct (ignored w) eqn:G; [reflexivity|].
  unfold checked, field_filter. rewrite negb_involutive. destruct (py_in w (o_ignores (f_opts f))); [reflexivity|].
  rewrite (qu_filter _ Q). unfold bind at 1. cbn [ret negb]. unfold bind at 1. unfold field_validate, bind at 1.
  change (entries (read q)) with (entries s). destruct (field_violation E (entries s) f w) as [[x|]|e]; [| |reflexivity].
  - unfold bind. rewrite (ar_report W f arg s eid m es pid p igd igm MP (Invalid x) q t T). unfold out, invalid_at. destruct m; reflexivity.
  - cbn [ret negb]. rewrite (qu_validate _ Q). unfold bind. reflexivity.
Qed.
(** reading a value, with neither compute nor parse hook *)
Lemma obtains_quiet v t : o_compute (f_opts f) = None -> o_parse (f_opts f) = None -> p_str E sp = Ok t -> obtains W s f p arg v -> ignored v = false ->
  exists q, p_str E q = Ok t /\ field_body W (field_map W n) f arg s1 = field_after W (field_map W n) f v (read q).
Proof.
  intros HC HP T O G. destruct (obtains_cases _ _ _ _ _ _ O) as [(N & ->)|[(A & -> & q1 & q2 & X1 & X2)|(A & ty & q1 & q2 & q3 & K & X1 & X2 & X3)]].
  - exists sp. split; [exact T|]. unfold field_body. rewrite N. reflexivity.
  - assert (SP : sp = place f p) by (unfold spot; rewrite A; reflexivity). rewrite <- SP in X1.
    exists q2. split; [rewrite (str_after W s p_is_null _ _ _ (t_is_null E) X2), (str_after W s p_exists _ _ _ (t_exists E) X1); exact T|].
    unfold field_body. rewrite A. cbn [is_NONE]. rewrite HC. unfold bind at 1.
    assert (C : field_compute W (field_map W n) f s1 = (Ok VNone, read q2)).
    { unfold field_compute, bind. rewrite (s1_is f arg s pid p), (ar_cur W f arg s eid m es pid p igd igm MP). unfold path_exists.
      rewrite (ar_on W f arg s eid m es pid p igd igm MP p_exists _ _ _ X1). cbn [negb]. unfold path_is_null. rewrite (ar_on W f arg s eid m es pid p igd igm MP p_is_null _ _ _ X2). reflexivity. }
    rewrite <- A, C. reflexivity.
  - assert (SP : sp = place f p) by (unfold spot; rewrite A; reflexivity). rewrite <- SP in X1.
    exists q3. split.
    { rewrite (str_prim W s _ _ _ _ X3), (str_after W s p_is_null _ _ _ (t_is_null E) X2), (str_after W s p_exists _ _ _ (t_exists E) X1). exact T. }
    unfold field_body. rewrite A. cbn [is_NONE]. rewrite HC. unfold bind at 1.
    assert (PK : forall ss, parse_kind W (field_map W n) (f_kind f) pid ss = path_primitive W ty pid ss).
    { intros ss. destruct (f_kind f); try discriminate; injection K as <-; reflexivity. }
    assert (C : field_compute W (field_map W n) f s1 = (Ok v, read q3)).
    { unfold field_compute, bind. rewrite (s1_is f arg s pid p), (ar_cur W f arg s eid m es pid p igd igm MP). unfold path_exists.
      rewrite (ar_on W f arg s eid m es pid p igd igm MP p_exists _ _ _ X1). cbn [negb]. unfold path_is_null. rewrite (ar_on W f arg s eid m es pid p igd igm MP p_is_null _ _ _ X2).
      unfold catch. rewrite HP, PK. rewrite (prim_run W f arg s eid m es pid p igd igm MP _ _ _ _ X3). reflexivity. }
    rewrite <- A, C. assert (N : is_NONE v = false) by (destruct v; try reflexivity; discriminate). rewrite N, G. reflexivity.
Qed.
Lemma computed_quiet h v : o_compute (f_opts f) = Some h -> arg = NONEv -> call_hook W (field_map W n) h [] s1 = (Ok v, s1) -> ignored v = false ->
  field_body W (field_map W n) f arg s1 = field_after W (field_map W n) f v (read sp).
Proof.
  intros HC A H G. unfold field_body. replace (is_NONE arg) with true by (now rewrite A). rewrite HC. unfold bind at 1. rewrite H.
  assert (N : is_NONE v = false) by (destruct v; try reflexivity; discriminate). rewrite N, G. reflexivity.
Qed.
Lemma checked_yields w q t o : py_in w (o_ignores (f_opts f)) = false -> field_violation E (entries s) f w = Ok o ->
  field_body W (field_map W n) f arg s1 = checked w q t ->
  yields W (S n) f arg s eid m es (match o with None => w | Some _ => ERRORv end) (match o with None => [] | Some x => [invalid_at f pid x t] end).
Proof.
  intros I V B. apply yields_run with (q := q). rewrite B. unfold checked. rewrite I, V. destruct o as [x|]; [reflexivity|].
  rewrite (reported_nil W f arg s eid m es pid p igd igm MP). unfold out. destruct m; reflexivity.
Qed.
Lemma default_yields q t : p_str E q = Ok t -> (exists v, o_default (f_opts f) = DVal v) \/ o_default (f_opts f) = DUnset None ->
  field_body W (field_map W n) f arg s1 = field_default W (field_map W n) f (read q) ->
  (igd = true \/ required f -> yields W (S n) f arg s eid m es NOTSETv (if igm then [] else [missing_at f pid t])) /\
  (forall d, igd = false -> o_default (f_opts f) = DVal d -> d <> VConst NOTSET -> yields W (S n) f arg s eid m es d []).
Proof.
  intros T D B. rewrite (ar_default W n f arg s eid m es pid p igd igm MP q t T D) in B. split.
  - intros R. apply yields_run with (q := q). rewrite B. destruct R as [Rg|[Rd|Rd]].
    + rewrite Rg. destruct (o_default (f_opts f)); reflexivity.
    + rewrite Rd. destruct igd; reflexivity.
    + rewrite Rd. destruct igd; reflexivity.
  - intros d R Dd NV. apply yields_run with (q := q). rewrite B, Dd, R, (reported_nil W f arg s eid m es pid p igd igm MP). unfold out.
    destruct d; try (destruct m; reflexivity). destruct c; try (destruct m; reflexivity). congruence.
Qed.
End Quiet.

(** ** Options *)
Definition nul (kw : kwargs) (x : bool) : bool :=
  match given "default" kw with
  | Some (AV VNone) => true
  | _ => match given "nullable" kw with Some a => arg_truthy a | None => x end
  end.
Definition dfl (kw : kwargs) (d : dflt prog) : dflt prog :=
  match given "default" kw with
  | Some (AV v) => DVal v
  | Some (AFn p) => DCall p
  | _ => match given "optional" kw with Some a => if arg_truthy a then DVal (VConst NONE) else d | None => d end
  end.
Definition ign (kw : kwargs) (l : list val) : list val := match given "ignore" kw with Some (AV v) => l ++ [v] | _ => l end.
Definition tra (kw : kwargs) (l : list (val * val)) : list (val * val) := match given "translate" kw with Some (AV v) => match table_arg v with Ok d => dict_update l d | Exn _ => l end | _ => l end.
(** [says] with the model's truth of an argument *)
Lemma counts_truthy a : counts a <-> arg_truthy a = true.
Proof.
  split; [now intros []|]. destruct a as [v|p|x|f|t|l|l]; cbn [arg_truthy]; intros H; try now constructor.
  - destruct l; [discriminate|constructor].
  - destruct l; [discriminate|constructor].
Qed.
Lemma says_given kw n a : alookup kw n = Some a -> a <> AV (VConst NOTSET) -> arg_truthy a = true -> says kw n.
Proof. intros L N T. exists a. split; [exact L|]. split; [exact N|]. now apply counts_truthy. Qed.
Lemma says_is kw n : says kw n -> exists a, alookup kw n = Some a /\ a <> AV (VConst NOTSET) /\ arg_truthy a = true.
Proof. intros (a & L & N & T). apply counts_truthy in T. eauto. Qed.

Definition att (kw : kwargs) (b : bool) : bool := match given "attach_parent" kw with Some a => arg_truthy a | None => b end.
Definition tgs (kw : kwargs) (l : list string) : list string := match given "tags" kw with Some (AV v) => merge_tags l [v] | _ => l end.
(** the options are well formed *)
Definition fit (kw : kwargs) : Prop :=
  forallb (fun kv => known_option (fst kv)) kw = true /\
  (match given "default" kw with None | Some (AV _) | Some (AFn _) => True | _ => False end) /\
  (match given "ignore" kw with None | Some (AV _) => True | _ => False end) /\
  (match given "translate" kw with None => True | Some (AV v) => exists d, table_arg v = Ok d | _ => False end) /\
  (match given "tags" kw with None => True | Some (AV v) => hashable v = true | _ => False end).
Definition opted (kw : kwargs) (o : fopts prog) : fopts prog :=
  MkOpts (o_name o) (o_src o) (nul kw (o_nullable o)) (dfl kw (o_default o)) (ign kw (o_ignores o)) (tra kw (o_translations o))
         (tgs kw (o_tags o)) (att kw (o_attach_parent o)) (o_compute o) (o_resolve o) (o_parse o) (o_munge o) (o_filter o) (o_validate o).
Lemma bindr_ok {A B} (r : res A) (k : A -> res B) b : bindr r k = Ok b <-> exists a, r = Ok a /\ k a = Ok b.
Proof.
  destruct r as [a|e]; cbn [bindr]; split; try discriminate.
  - eauto.
  - intros (x & [= <-] & H). exact H.
  - intros (x & H & _). discriminate.
Qed.
Lemma ok_iff {A} (a b : A) : Ok a = Ok b <-> True /\ b = a.
Proof. split; [intros [= ->]; auto|intros [_ ->]; reflexivity]. Qed.
Lemma step_default d opt nl o o' : opt_default d (opt_optional opt (opt_nullable nl o)) = Ok o' <->
  (match d with None | Some (AV _) | Some (AFn _) => True | _ => False end) /\
  o' = MkOpts (o_name o) (o_src o)
    (match d with Some (AV VNone) => true | _ => match nl with Some a => arg_truthy a | None => o_nullable o end end)
    (match d with
     | Some (AV v) => DVal v | Some (AFn p) => DCall p
     | _ => match opt with Some a => if arg_truthy a then DVal (VConst NONE) else o_default o | None => o_default o end
     end) (o_ignores o) (o_translations o) (o_tags o) (o_attach_parent o) (o_compute o) (o_resolve o) (o_parse o) (o_munge o) (o_filter o) (o_validate o).
Proof.
  destruct o. unfold opt_default, opt_optional, opt_nullable.
  destruct d as [[v| | | | | |]|]; try (split; [discriminate|intros [[] _]]).
  - destruct v; (destruct opt as [oa|]; [destruct (arg_truthy oa)|]; (destruct nl as [na|]; apply ok_iff)).
  - destruct opt as [oa|]; [destruct (arg_truthy oa)|]; (destruct nl as [na|]; apply ok_iff).
  - destruct opt as [oa|]; [destruct (arg_truthy oa)|]; (destruct nl as [na|]; apply ok_iff).
Qed.
Lemma step_ignore a o o' : opt_ignore a o = Ok o' <->
  (match a with None | Some (AV _) => True | _ => False end) /\ o' = set_ignores (match a with Some (AV v) => o_ignores o ++ [v] | _ => o_ignores o end) o.
Proof.
  destruct o. unfold opt_ignore. destruct a as [[v| | | | | |]|]; try (split; [discriminate|intros [[] _]]);
    apply ok_iff.
Qed.
Lemma step_translate a o o' : opt_translate a o = Ok o' <->
  (match a with None => True | Some (AV v) => exists d, table_arg v = Ok d | _ => False end) /\
  o' = set_translations (match a with Some (AV v) => match table_arg v with Ok d => dict_update (o_translations o) d | Exn _ => o_translations o end | _ => o_translations o end) o.
Proof.
  destruct o. unfold opt_translate, add_translations. destruct a as [[v| | | | | |]|]; try (split; [discriminate|intros [[] _]]); [|apply ok_iff].
  destruct (table_arg v) as [d|e]; cbn [bindr].
  - split; [intros H; injection H as <-; split; [eauto|reflexivity]|intros [_ ->]; reflexivity].
  - split; [discriminate|intros [[d D] _]; discriminate].
Qed.
Lemma step_tags a o o' : opt_tags a o = Ok o' <->
  (match a with None => True | Some (AV v) => hashable v = true | _ => False end) /\
  o' = set_tags (match a with Some (AV v) => merge_tags (o_tags o) [v] | _ => o_tags o end) o.
Proof.
  destruct o. unfold opt_tags, add_tags. destruct a as [[v| | | | | |]|]; try (split; [discriminate|intros [[] _]]).
  - cbn [forallb]. rewrite andb_true_r. destruct (hashable v); split; try discriminate.
    + intros H; injection H as <-; split; reflexivity.
    + intros [_ ->]; reflexivity.
    + intros [H _]; discriminate.
  - split; [intros H; injection H as <-; split; [exact I|reflexivity]|intros [_ ->]; reflexivity].
Qed.
Ltac slim H := cbv [set_src set_nullable set_default set_ignores set_translations set_tags set_attach set_name
  o_name o_src o_nullable o_default o_ignores o_translations o_tags o_attach_parent o_compute o_resolve o_parse o_munge o_filter o_validate] in H.
Lemma options_iff kw o o' : field_options kw o = Ok o' <-> fit kw /\ o' = opted kw o.
Proof.
  unfold field_options, fit. destruct (forallb _ kw); [|split; [discriminate|intros [[X _] _]; discriminate]].
  assert (AT : forall a o, opt_attach a o = set_attach (match a with Some a => arg_truthy a | None => o_attach_parent o end) o) by (intros [a|] []; reflexivity).
  destruct o as [nm sr nb df ig tr tg ap h1 h2 h3 h4 h5 h6].
  split.
  - intros H. apply bindr_ok in H. destruct H as (o1 & H1 & H). apply step_default in H1. destruct H1 as [F1 E1]. slim E1. subst o1.
    apply bindr_ok in H. destruct H as (o2 & H2 & H). apply step_ignore in H2. destruct H2 as [F2 E2]. slim E2. subst o2.
    apply bindr_ok in H. destruct H as (o3 & H3 & H). apply step_translate in H3. destruct H3 as [F3 E3]. slim E3. subst o3.
    rewrite AT in H. slim H. apply step_tags in H. destruct H as [F4 E4]. slim E4. subst o'. split; [repeat split; assumption|reflexivity].
  - intros [(_ & F1 & F2 & F3 & F4) ->]. apply bindr_ok. eexists. split; [apply step_default; split; [exact F1|reflexivity]|].
    apply bindr_ok. match goal with |- exists a, opt_ignore ?x ?y = _ /\ _ => pose proof (proj2 (step_ignore x y _) (conj F2 eq_refl)) as S2 end.
    slim S2. eexists. split; [exact S2|]. clear S2.
    apply bindr_ok. match goal with |- exists a, opt_translate ?x ?y = _ /\ _ => pose proof (proj2 (step_translate x y _) (conj F3 eq_refl)) as S3 end.
    slim S3. eexists. split; [exact S3|]. clear S3.
    rewrite AT. match goal with |- opt_tags ?x ?y = _ => pose proof (proj2 (step_tags x y _) (conj F4 eq_refl)) as S4 end. slim S4. exact S4.
Qed.
Lemma alookup_rest n m kw : n <> m -> alookup (kw_rest m kw) n = alookup kw n.
Proof.
  intros NE. induction kw as [|[k a] kw IH]; [reflexivity|]. cbn [kw_rest filter fst alookup]. destruct (String.eqb k m) eqn:Q; cbn [negb].
  - apply String.eqb_eq in Q. subst k. destruct (String.eqb m n) eqn:Q2; [apply String.eqb_eq in Q2; congruence|]. exact IH.
  - cbn [alookup]. destruct (String.eqb k n); [reflexivity|exact IH].
Qed.
Lemma alookup_rest_same n kw : alookup (kw_rest n kw) n = None.
Proof.
  induction kw as [|[k a] kw IH]; [reflexivity|]. cbn [kw_rest filter fst]. destruct (String.eqb k n) eqn:Q; cbn [negb]; [exact IH|]. cbn [alookup]. rewrite Q. exact IH.
Qed.
Lemma given_rest n m kw : n <> m -> given n (kw_rest m kw) = given n kw.
Proof. intros NE. unfold given. now rewrite alookup_rest. Qed.
(** What a constructor call makes of the options *)
Lemma init_ok args kw k b : field_init args kw k = Ok b ->
  b_kind b = k /\ exists src, b_opts b = opted kw (set_src src no_opts) /\ (b_src b = false -> src = None).
Proof.
  assert (X : forall o, opted (kw_rest "src" kw) o = opted kw o).
  { intros o. unfold opted, nul, dfl, ign, tra, tgs, att. now rewrite !given_rest by discriminate. }
  unfold field_init. intros H.
  assert (Y : (exists o, field_options (kw_rest "src" kw) no_opts = Ok o /\ b = BF false o k) \/
              exists v o, field_options (kw_rest "src" kw) (set_src (src_key v) no_opts) = Ok o /\ b = BF (negb (is_NONE v)) o k).
  { destruct args as [|a args].
    - destruct (alookup kw "src") as [a|]; [destruct a as [v| | | | | |]; try discriminate|].
      + apply bindr_ok in H. destruct H as (o & H & [= <-]). right. eauto.
      + apply bindr_ok in H. destruct H as (o & H & [= <-]). left. eauto.
    - destruct a as [v| | | | | |], args as [|a2 args]; destruct (alookup kw "src"); try discriminate.
      apply bindr_ok in H. destruct H as (o & H & [= <-]). right. eauto. }
  destruct Y as [(o & F & ->)|(v & o & F & ->)]; apply options_iff in F; destruct F as [_ ->]; rewrite X; (split; [reflexivity|]); eexists; (split; [reflexivity|]).
  - auto.
  - cbn [b_src]. destruct v; try discriminate. destruct c; try discriminate. reflexivity.
Qed.
Lemma said_given kw n a : alookup kw n = Some a -> a <> AV (VConst NOTSET) -> given n kw = Some a.
Proof. intros L NE. unfold given. rewrite L. destruct a; try reflexivity. destruct v; try reflexivity. destruct c; try reflexivity. contradiction. Qed.
Lemma unsaid_given kw n : unsaid kw n -> given n kw = None.
Proof. unfold unsaid, given. now intros ->. Qed.
Lemma given_said kw n a : given n kw = Some a -> alookup kw n = Some a /\ a <> AV (VConst NOTSET).
Proof.
  unfold given. intros G. destruct (alookup kw n) as [x|]; [|discriminate]. assert (D : x = AV (VConst NOTSET) \/ x <> AV (VConst NOTSET)).
  { destruct x as [v| | | | | |]; try (right; discriminate). destruct v; try (right; discriminate). destruct c; try (right; discriminate). }
  destruct D as [->|D]; [discriminate|]. assert (Some x = Some a) as [= <-]; [|auto]. destruct x as [v| | | | | |]; try exact G. destruct v; try exact G. destruct c; try exact G. contradiction.
Qed.
(** such a field has no hooks *)
Lemma init_hook_free args kw k b name : field_init args kw k = Ok b -> static_default kw -> ~ says kw "attach_parent" ->
  hook_free (attach_as name b) /\ hook_free (attach_inside b).
Proof.
  intros H SD NA. destruct (init_ok _ _ _ _ H) as (_ & src & HO & _).
  assert (AT : o_attach_parent (b_opts b) = false).
  { rewrite HO. cbn [o_attach_parent opted no_opts set_src]. unfold att. destruct (given "attach_parent" kw) as [a|] eqn:G; [|reflexivity].
    destruct (arg_truthy a) eqn:T; [|reflexivity]. exfalso. apply NA. destruct (given_said _ _ _ G). now apply says_given with a. }
  assert (DF : (exists v, o_default (b_opts b) = DVal v) \/ o_default (b_opts b) = DUnset None).
  { rewrite HO. cbn [o_default opted no_opts set_src]. unfold dfl.
    assert (ND : forall p, given "default" kw <> Some (AFn p)). { intros p G. apply (SD p). apply (given_said _ _ _ G). }
    destruct (given "default" kw) as [[v|q| | | | |]|]; [eauto|exfalso; now apply (ND q)|..]; (destruct (given "optional" kw) as [a|]; [destruct (arg_truthy a)|]; eauto). }
  assert (HK : o_compute (b_opts b) = None /\ o_resolve (b_opts b) = None /\ o_parse (b_opts b) = None /\ o_munge (b_opts b) = None /\ o_filter (b_opts b) = None /\ o_validate (b_opts b) = None)
    by (rewrite HO; repeat split).
  destruct b as [bs o k']. cbn [b_opts] in *. destruct HK as (K1 & K2 & K3 & K4 & K5 & K6).
  split; (split; [split; cbn; try (destruct bs); assumption|..]); cbn; try (destruct bs); assumption.
Qed.
Lemma as_opts name b : o_nullable (f_opts (attach_as name b)) = o_nullable (b_opts b) /\ o_default (f_opts (attach_as name b)) = o_default (b_opts b) /\
  o_ignores (f_opts (attach_as name b)) = o_ignores (b_opts b) /\ o_translations (f_opts (attach_as name b)) = o_translations (b_opts b) /\
  o_tags (f_opts (attach_as name b)) = o_tags (b_opts b) /\ f_kind (attach_as name b) = b_kind b /\ o_name (f_opts (attach_as name b)) = Some name.
Proof. destruct b as [[] o k]; repeat split. Qed.

(** ** C72 *)
Lemma alookup_app {A} (l1 l2 : list (string * A)) n : alookup (l1 ++ l2) n = match alookup l1 n with Some a => Some a | None => alookup l2 n end.
Proof. induction l1 as [|[k a] l1 IH]; [reflexivity|]. cbn [app alookup]. destruct (String.eqb k n); [reflexivity|exact IH]. Qed.
Lemma given_app kw1 kw2 n : apart kw1 kw2 ->
  given n (kw1 ++ kw2) = (match given n kw1 with Some a => Some a | None => given n kw2 end) /\ (given n kw1 = None \/ given n kw2 = None).
Proof.
  intros AP. unfold given. rewrite alookup_app. destruct (AP n) as [H|H]; rewrite H; [split; [|left]; reflexivity|]. split; [|now right].
  destruct (alookup kw1 n) as [[v| | | | | |]|]; try reflexivity. destruct v; try reflexivity. destruct c; reflexivity.
Qed.
Lemma C72_calls_lem kw1 kw2 o o1 o2 : field_options kw1 o = Ok o1 -> field_options kw2 o1 = Ok o2 -> apart kw1 kw2 ->
  (alookup kw1 "default" = Some (AV VNone) -> unsaid kw2 "nullable") ->
  (says kw2 "optional" -> unsaid kw1 "default") ->
  field_options (kw1 ++ kw2) o = Ok o2.
Proof.
  intros H1 H2 AP NC NO. apply options_iff in H1, H2. destruct H1 as [F1 ->], H2 as [F2 ->]. apply options_iff.
  pose proof (fun n => given_app kw1 kw2 n AP) as G. split.
  - destruct F1 as (A1 & B1 & C1 & D1 & T1), F2 as (A2 & B2 & C2 & D2 & T2). split; [rewrite forallb_app, A1, A2; reflexivity|].
    repeat split.
    + destruct (G "default") as [-> _]. destruct (given "default" kw1); assumption.
    + destruct (G "ignore") as [-> _]. destruct (given "ignore" kw1); assumption.
    + destruct (G "translate") as [-> _]. destruct (given "translate" kw1); assumption.
    + destruct (G "tags") as [-> _]. destruct (given "tags" kw1); assumption.
  - unfold opted. cbn [o_name o_src o_nullable o_default o_ignores o_translations o_tags o_attach_parent o_compute o_resolve o_parse o_munge o_filter o_validate]. f_equal.
    + unfold nul. destruct (G "default") as [-> DD], (G "nullable") as [-> NN].
      assert (X : given "default" kw1 = Some (AV VNone) -> given "nullable" kw2 = None).
      { intros D1. destruct (given_said _ _ _ D1) as [L _]. apply unsaid_given, NC, L. }
      destruct (given "default" kw1) as [a|], (given "default" kw2) as [c|]; try (destruct DD; discriminate);
        destruct (given "nullable" kw1) as [d|], (given "nullable" kw2) as [g|]; try (destruct NN; discriminate); try reflexivity;
        try (destruct a as [v| | | | | |]; try reflexivity; destruct v; try reflexivity; specialize (X eq_refl); discriminate).
    + unfold dfl. destruct (G "default") as [-> DD], (G "optional") as [-> NN].
      assert (X : forall c, given "optional" kw2 = Some c -> arg_truthy c = true -> given "default" kw1 = None).
      { intros c O2 T. destruct (given_said _ _ _ O2) as [L NE]. apply unsaid_given, NO. now apply says_given with c. }
      destruct (given "default" kw1) as [a|], (given "default" kw2) as [c|]; try (destruct DD; discriminate);
        destruct (given "optional" kw1) as [d|], (given "optional" kw2) as [g|]; try (destruct NN; discriminate); try reflexivity;
        destruct (arg_truthy g) eqn:T; try reflexivity; specialize (X _ eq_refl T); discriminate.
    + unfold ign. destruct (G "ignore") as [-> [D|D]]; rewrite ?D; try reflexivity. destruct (given "ignore" kw1) as [[v| | | | | |]|]; reflexivity.
    + unfold tra. destruct (G "translate") as [-> [D|D]]; rewrite ?D; try reflexivity. destruct (given "translate" kw1) as [[v| | | | | |]|]; try reflexivity.
    + unfold tgs. destruct (G "tags") as [-> [D|D]]; rewrite ?D; try reflexivity. destruct (given "tags" kw1) as [[v| | | | | |]|]; reflexivity.
    + unfold att. destruct (G "attach_parent") as [-> [D|D]]; rewrite ?D; try reflexivity. destruct (given "attach_parent" kw1) as [a|]; reflexivity.
Qed.
Section Opts.
Variables (W : world) (n : nat) (name : string) (args : list arg) (kw : kwargs) (k : kind) (b : bfield).
Variables (s : st) (eid : nat) (m : mode) (es : list err) (pid : nat) (p : path) (igd igm : bool) (t : string).
Hypothesis H : field_init args kw k = Ok b.
Hypothesis NA : ~ says kw "attach_parent".
Notation f := (attach_as name b).
Hypothesis MP : mapping W s eid m es pid p igd igm.
Hypothesis T : p_str (w_env W) (place f p) = Ok t.
Lemma opts_default : o_default (f_opts f) = dfl kw (DUnset None).
Proof. destruct (as_opts name b) as (_ & -> & _). destruct (init_ok _ _ _ _ H) as (_ & src & -> & _). reflexivity. Qed.
Lemma opts_nullable : o_nullable (f_opts f) = nul kw true.
Proof. destruct (as_opts name b) as (-> & _). destruct (init_ok _ _ _ _ H) as (_ & src & -> & _). reflexivity. Qed.
Lemma opts_ignores : o_ignores (f_opts f) = ign kw [].
Proof. destruct (as_opts name b) as (_ & _ & -> & _). destruct (init_ok _ _ _ _ H) as (_ & src & -> & _). reflexivity. Qed.
Lemma opts_translations : o_translations (f_opts f) = tra kw [].
Proof. destruct (as_opts name b) as (_ & _ & _ & -> & _). destruct (init_ok _ _ _ _ H) as (_ & src & -> & _). reflexivity. Qed.
Lemma C72_none_lem : alookup kw "default" = Some (AV VNone) ->
  (igd = false -> absent W s f p -> yields W (S n) f NONEv s eid m es VNone []) /\
  (SpecField.untouched f VNone -> (exists q1 q2, p_exists (w_env W) (entries s) (place f p) = (q1, Ok true) /\ p_is_null (w_env W) (entries s) q1 = (q2, Ok true)) ->
   yields W (S n) f NONEv s eid m es VNone []).
Proof.
  intros D. pose proof (said_given _ _ _ D ltac:(discriminate)) as G. assert (SD : static_default kw) by (intros q Q; congruence).
  destruct (init_hook_free _ _ _ _ name H SD NA) as [HF _]. split.
  - intros Ig AB. rewrite Ig in MP. eapply C18_default_lem; eauto; [apply HF| |discriminate]. rewrite opts_default. unfold dfl. now rewrite G.
  - intros U Nl. eapply C21_lem; eauto. rewrite opts_nullable. unfold nul. now rewrite G.
Qed.
Lemma C72_optional_lem : says kw "optional" -> unsaid kw "default" -> igd = false -> absent W s f p ->
  yields W (S n) f NONEv s eid m es NONEv [].
Proof.
  intros SY UD Ig AB. destruct (says_is _ _ SY) as (a & L & NE & TR). assert (SD : static_default kw) by (intros q Q; unfold unsaid in UD; congruence).
  destruct (init_hook_free _ _ _ _ name H SD NA) as [HF _]. rewrite Ig in MP. eapply C18_default_lem; eauto; [apply HF| |discriminate].
  rewrite opts_default. unfold dfl. rewrite (unsaid_given _ _ UD), (said_given _ _ _ L NE), TR. reflexivity.
Qed.
Lemma C72_default_lem v : alookup kw "default" = Some (AV v) -> v <> VConst NOTSET -> igd = false -> absent W s f p ->
  yields W (S n) f NONEv s eid m es v [].
Proof.
  intros D NE Ig AB. assert (G : given "default" kw = Some (AV v)) by (apply said_given; congruence). assert (SD : static_default kw) by (intros q Q; congruence).
  destruct (init_hook_free _ _ _ _ name H SD NA) as [HF _]. rewrite Ig in MP. eapply C18_default_lem; eauto; [apply HF|].
  rewrite opts_default. unfold dfl. rewrite G. reflexivity.
Qed.
Lemma C72_required_lem : unsaid kw "default" -> ~ says kw "optional" -> igm = false -> absent W s f p ->
  yields W (S n) f NONEv s eid m es NOTSETv [missing_at f pid t].
Proof.
  intros UD NO Ig AB. assert (SD : static_default kw) by (intros q Q; unfold unsaid in UD; congruence).
  destruct (init_hook_free _ _ _ _ name H SD NA) as [HF _]. rewrite Ig in MP. eapply C17_missing_lem; eauto; [apply HF|].
  left. rewrite opts_default. unfold dfl. rewrite (unsaid_given _ _ UD). destruct (given "optional" kw) as [a|] eqn:O; [|reflexivity].
  destruct (arg_truthy a) eqn:TR; [|reflexivity]. exfalso. apply NO. destruct (given_said _ _ _ O). now apply says_given with a.
Qed.
Lemma C72_ignore_lem v w : alookup kw "ignore" = Some (AV v) -> v <> VConst NOTSET -> static_default kw -> unsaid kw "translate" ->
  obtains W s f p NONEv w -> ignored w = false -> py_eq w v = true ->
  (igd = true \/ required f -> yields W (S n) f NONEv s eid m es NOTSETv (if igm then [] else [missing_at f pid t])) /\
  (forall d, igd = false -> o_default (f_opts f) = DVal d -> d <> VConst NOTSET -> yields W (S n) f NONEv s eid m es d []).
Proof.
  intros L NE SD UT O G PE. destruct (init_hook_free _ _ _ _ name H SD NA) as [HF _].
  assert (TR : o_translations (f_opts f) = []). { rewrite opts_translations. unfold tra. now rewrite (unsaid_given _ _ UT). }
  eapply C22_lem; eauto.
  - left. exact TR.
  - right. now rewrite TR.
  - rewrite opts_ignores. unfold ign. rewrite (said_given _ _ _ L) by congruence. cbn [app py_in existsb]. rewrite PE. reflexivity.
Qed.
End Opts.
