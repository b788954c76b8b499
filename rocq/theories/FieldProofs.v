(** * FieldProofs: mapping one field (C16-C28). *)
From Verif Require Import PyBase PyStr Source Field Context Fields SpecCtx SpecField Shape Reads Balance CtxProofs Run.
From Coq Require Import Lia QArith.
Open Scope Z_scope.

Lemma obtains_cases W s f p arg v : obtains W s f p arg v ->
  (is_NONE arg = false /\ v = arg) \/
  (arg = VConst NONE /\ v = VNone /\ exists q1 q2, p_exists (w_env W) (entries s) (place f p) = (q1, Ok true) /\
     p_is_null (w_env W) (entries s) q1 = (q2, Ok true)) \/
  (arg = VConst NONE /\ exists t q1 q2 q3, primitive_kind (f_kind f) = Some t /\
     p_exists (w_env W) (entries s) (place f p) = (q1, Ok true) /\
     p_is_null (w_env W) (entries s) q1 = (q2, Ok false) /\ p_primitive (w_env W) (entries s) t q2 = (q3, Ok v)).
Proof.
  intros [v0 N|q1 q2 X1 X2|t q1 q2 q3 v0 K X1 X2 X3].
  - left. auto.
  - right. left. eauto 6.
  - right. right. split; [reflexivity|]. eauto 9.
Qed.

(** ** Inside the field: states that differ from the entered one by what reading caches *)
(** Hashable values *)
Lemma hashable_no : forall v, hashable v = false <-> unhashable v.
Proof.
  fix IH 1. intros v. destruct v as [| | | | |l|l|d| | | | | | | | | | | |]; cbn [hashable]; try (split; [discriminate|intros H; inversion H]); try (split; [constructor|reflexivity]).
  split.
  - induction l as [|x l IHl]; cbn [forallb]; [discriminate|]. destruct (hashable x) eqn:X; cbn [andb]; intros H.
    + specialize (IHl H). inversion IHl as [| | | | | |? y I U]; subst. exact (uh_tuple (x :: l) y (or_intror I) U).
    + exact (uh_tuple (x :: l) x (or_introl eq_refl) (proj1 (IH x) X)).
  - intros H. inversion H as [| | | | | |? y I U]; subst. clear H. revert I. induction l as [|x l IHl]; intros []; cbn [forallb].
    + subst y. now rewrite (proj2 (IH x) U).
    + rewrite (IHl H). apply andb_false_r.
Qed.
Lemma hashable_yes v : ~ unhashable v -> hashable v = true.
Proof. intros H. destruct (hashable v) eqn:X; [reflexivity|]. exfalso. apply H. now apply hashable_no. Qed.
Lemma hashable_not v : hashable v = true -> ~ unhashable v.
Proof. intros H U. apply hashable_no in U. congruence. Qed.

Section Field.
Variables (W : world) (n : nat) (f : field) (arg : val).
Variables (s : st) (eid : nat) (m : mode) (es : list err) (pid : nat) (p : path) (igd igm : bool).
Hypothesis MP : mapping W s eid m es pid p igd igm.
Let E := w_env W.
Let s1 := entered f arg s pid p.
Let sp := spot f arg p.

Definition after_read (q : path) : st := St (stk s1) (forms s) (replace_nth pid q (paths s)) (errs s).
Lemma pid_lt : (pid < length (paths s))%nat.
Proof. apply nth_error_Some. rewrite (mp_path _ _ _ _ _ _ _ _ _ MP). discriminate. Qed.
Lemma s1_is : s1 = after_read sp.
Proof. reflexivity. Qed.
Lemma ar_lookup q k : k <> "src" -> k <> "field" -> k <> "parent" -> lookup k (stk (after_read q)) = lookup k (stk s).
Proof. apply entered_lookup. Qed.
Lemma ar_path q : nth_error (paths (after_read q)) pid = Some q.
Proof. cbn. apply nth_replace_eq, pid_lt. Qed.
Lemma ar_on {A} (op : env -> entries_of -> path -> path * res A) q q' r :
  op E (entries s) q = (q', r) -> on_path W pid op (after_read q) = (r, after_read q').
Proof.
  intros H. unfold on_path. rewrite ar_path. change (entries (after_read q)) with (entries s).
  change (w_env W) with E. rewrite H. unfold after_read. cbn. now rewrite replace_twice.
Qed.
Lemma ar_cur q : cur_path (after_read q) = (Ok pid, after_read q).
Proof. apply cur_path_at. rewrite ar_lookup by discriminate. exact (mp_pid _ _ _ _ _ _ _ _ _ MP). Qed.

(** The end of a run: [x] with new errors [new]. *)
Definition out (x : val) (new : list err) : res val :=
  match m, new with Raise, _ :: _ => Exn (EForm (es ++ new)) | _, _ => Ok x end.
Definition reported (q : path) (new : list err) : st :=
  St (stk s1) (forms s) (replace_nth pid q (paths s)) (replace_nth eid (m, es ++ new) (errs s)).
Lemma reported_nil q : reported q [] = after_read q.
Proof.
  unfold reported, after_read. rewrite app_nil_r. f_equal. apply replace_same. exact (mp_errs _ _ _ _ _ _ _ _ _ MP).
Qed.
Lemma ar_report kd q t : p_str E q = Ok t ->
  report W kd (after_read q) =
  (match m with Raise => Exn (EForm (es ++ [MkErr kd t (f_name f) (Some pid)])) | Collect => Ok tt end,
   reported q [MkErr kd t (f_name f) (Some pid)]).
Proof.
  intros T. unfold reported. apply (report_run W kd (after_read q) eid m es f pid q t); auto.
  - rewrite ar_lookup by discriminate. exact (mp_eid _ _ _ _ _ _ _ _ _ MP).
  - exact (mp_errs _ _ _ _ _ _ _ _ _ MP).
  - apply entered_field.
  - rewrite ar_lookup by discriminate. exact (mp_pid _ _ _ _ _ _ _ _ _ MP).
  - apply ar_path.
Qed.
Lemma ar_ctx q k c : k <> "src" -> k <> "field" -> k <> "parent" -> lookup k (stk s) = Some c ->
  ctx_get k (after_read q) = (Ok c, after_read q).
Proof. intros A B C H. apply ctx_get_at. rewrite ar_lookup by assumption. exact H. Qed.

Lemma ar_missing q t : p_str E q = Ok t ->
  report_missing_unless_ignored W (after_read q) =
  (out NOTSETv (if igm then [] else [MkErr Missing t (f_name f) (Some pid)]),
   reported q (if igm then [] else [MkErr Missing t (f_name f) (Some pid)])).
Proof.
  intros T. destruct (mp_igm _ _ _ _ _ _ _ _ _ MP) as (c & Hc & Tc). unfold report_missing_unless_ignored, bind.
  rewrite (ar_ctx q "ignore_missing" c) by (try discriminate; exact Hc). rewrite Tc. unfold out.
  pose proof (reported_nil q) as RN. pose proof (ar_report Missing q t T) as RP. clear Hc Tc. generalize igm. intros [|]; cbn [ret].
  - rewrite RN. now destruct m.
  - rewrite RP. clear. destruct m; reflexivity.
Qed.

(** what [_default] does when the default is not a hook or callable *)
Lemma ar_default q t : p_str E q = Ok t ->
  (exists v, o_default (f_opts f) = DVal v) \/ o_default (f_opts f) = DUnset None ->
  let miss := if igm then [] else [MkErr Missing t (f_name f) (Some pid)] in
  field_default W (field_map W n) f (after_read q) =
  match igd, o_default (f_opts f) with
  | false, DVal (VConst NOTSET) => (out NOTSETv miss, reported q miss)
  | false, DVal v => (Ok v, after_read q)
  | _, _ => (out NOTSETv miss, reported q miss)
  end.
Proof.
  intros T HD miss. destruct (mp_igd _ _ _ _ _ _ _ _ _ MP) as (c & Hc & Tc). unfold field_default, bind.
  rewrite (ar_ctx q "ignore_default" c) by (try discriminate; exact Hc). rewrite Tc.
  pose proof (ar_missing q t T) as AM. clear Hc Tc. generalize igd. intros [|].
  - rewrite AM. reflexivity.
  - destruct HD as [[v ->]| ->]; [|exact AM].
    destruct v; try reflexivity. destruct c0; try reflexivity. exact AM.
Qed.

Hypothesis DR : direct_read f.

(** From a run of the body to [yields]. *)
Lemma yields_of x new q : field_body W (field_map W n) f arg s1 = (out x new, reported q new) ->
  yields W (S n) f arg s eid m es x new.
Proof.
  intros B. destruct (field_run W n f arg s eid m es pid p igd igm MP (dr_resolve _ DR) (dr_parent _ DR)) as (_ & s' & A1 & A2 & A3 & A4).
  fold s1 in A1, A3, A4. rewrite B in *. cbn [fst snd reported forms errs] in *. exists s'. auto.
Qed.

(** ** Nothing there *)
Lemma body_absent q : arg = NONEv -> p_exists E (entries s) sp = (q, Ok false) ->
  field_body W (field_map W n) f arg s1 = field_default W (field_map W n) f (after_read q).
Proof.
  intros A X. assert (NA : is_NONE arg = true) by (rewrite A; reflexivity).
  unfold field_body. rewrite NA. rewrite (dr_compute _ DR). unfold bind at 1.
  assert (C : field_compute W (field_map W n) f s1 = (Ok NONEv, after_read q)).
  { unfold field_compute, bind. rewrite s1_is, ar_cur. unfold path_exists. rewrite (ar_on p_exists sp q (Ok false) X). reflexivity. }
  rewrite C. cbn [is_NONE NONEv]. destruct (dr_default _ DR) as [[v Dv]|Dv]; rewrite Dv; reflexivity.
Qed.
Lemma str_after {A} (op : env -> entries_of -> path -> path * A) q q' r :
  (forall e, tkeeps E (op E e)) -> op E (entries s) q = (q', r) -> p_str E q' = p_str E q.
Proof. intros K H. pose proof (K (entries s) q) as T. now rewrite H in T. Qed.

(** ** The lemmas behind the theorems *)
Definition miss_err (t : string) : list err := [missing_at f pid t].
Definition bad_err (x : viol) (t : string) : list err := [invalid_at f pid x t].

Lemma absent_missing t : arg = NONEv -> absent W s f p -> p_str E sp = Ok t -> igd = true \/ required f ->
  yields W (S n) f arg s eid m es NOTSETv (if igm then [] else miss_err t).
Proof.
  intros A (q & X) T R. assert (SP : sp = place f p) by (unfold sp, spot; rewrite A; reflexivity).
  assert (T' : p_str E q = Ok t) by (rewrite (str_after p_exists _ _ _ (t_exists E) X), <- SP; exact T).
  apply yields_of with (q := q). rewrite (body_absent q A) by (rewrite SP; exact X).
  rewrite (ar_default q t T' (dr_default _ DR)). destruct R as [Rg|[Rd|Rd]].
  - rewrite Rg. destruct (o_default (f_opts f)); reflexivity.
  - rewrite Rd. destruct igd; reflexivity.
  - rewrite Rd. destruct igd; reflexivity.
Qed.
Lemma absent_default t v : arg = NONEv -> absent W s f p -> p_str E sp = Ok t -> igd = false ->
  o_default (f_opts f) = DVal v -> v <> VConst NOTSET -> yields W (S n) f arg s eid m es v [].
Proof.
  intros A (q & X) T R D NV. assert (SP : sp = place f p) by (unfold sp, spot; rewrite A; reflexivity).
  assert (T' : p_str E q = Ok t) by (rewrite (str_after p_exists _ _ _ (t_exists E) X), <- SP; exact T).
  apply yields_of with (q := q). rewrite (body_absent q A) by (rewrite SP; exact X).
  rewrite (ar_default q t T' (dr_default _ DR)). rewrite D, R, reported_nil. unfold out.
  destruct v; try (destruct m; reflexivity). destruct c; try (destruct m; reflexivity). congruence.
Qed.
(** ** A value *)
Hypothesis HF : hook_free f.
Definition violated (v : val) : violation := field_violation E (entries s) f v.
Definition translation (v : val) : val := match dict_get (o_translations (f_opts f)) v with Some w => w | None => v end.
Lemma munge_raises v (s0 : st) : o_translations (f_opts f) <> [] -> unhashable v -> field_munge f v s0 = (Exn dict_unhashable, s0).
Proof.
  intros NE U. unfold field_munge. destruct (o_translations (f_opts f)) as [|kv l]; [congruence|]. now rewrite (proj2 (hashable_no v) U).
Qed.
Lemma munge_run v (s0 : st) : lookable f v -> field_munge f v s0 = (Ok (translation v), s0).
Proof.
  intros L. unfold field_munge, translation. destruct (o_translations (f_opts f)) as [|kv l] eqn:Tr; [reflexivity|].
  destruct L as [L|L]; [congruence|]. rewrite (hashable_yes v L). reflexivity.
Qed.
(** A translated value [w] that is a real value: ignored, rejected, or accepted. *)
Lemma after_run v w q t : p_str E q = Ok t -> lookable f v -> translation v = w -> ignored w = false ->
  field_after W (field_map W n) f v (after_read q) =
  (if py_in w (o_ignores (f_opts f)) then field_default W (field_map W n) f (after_read q)
   else match violated w with
        | Exn e => (Exn e, after_read q)
        | Ok None => (Ok w, after_read q)
        | Ok (Some x) => (out ERRORv [MkErr (Invalid x) t (f_name f) (Some pid)], reported q [MkErr (Invalid x) t (f_name f) (Some pid)])
        end).
Proof.
  intros T L Tr G. unfold field_after. unfold bind at 1. rewrite (munge_run v _ L). rewrite Tr. unfold bind at 1.
  rewrite (hf_munge _ HF). cbn [ret].
  assert (N : is_NONE w = false) by (destruct w; try reflexivity; discriminate). rewrite N, G.
  unfold field_filter. rewrite negb_involutive. destruct (py_in w (o_ignores (f_opts f))); [reflexivity|].
  rewrite (hf_filter _ HF). unfold bind at 1. cbn [ret negb]. unfold bind at 1. unfold field_validate, bind at 1.
  change (entries (after_read q)) with (entries s). fold E. fold (violated w). destruct (violated w) as [[x|]|e]; [| |reflexivity].
  - unfold bind. rewrite (ar_report (Invalid x) q t T). unfold out. destruct m; reflexivity.
  - cbn [ret negb]. rewrite (hf_validate _ HF). unfold bind. reflexivity.
Qed.
Lemma body_null q1 q2 : arg = NONEv -> p_exists E (entries s) sp = (q1, Ok true) -> p_is_null E (entries s) q1 = (q2, Ok true) ->
  field_body W (field_map W n) f arg s1 = field_after W (field_map W n) f VNone (after_read q2).
Proof.
  intros A X1 X2. assert (NA : is_NONE arg = true) by (rewrite A; reflexivity).
  unfold field_body. rewrite NA. rewrite (dr_compute _ DR). unfold bind at 1.
  assert (C : field_compute W (field_map W n) f s1 = (Ok VNone, after_read q2)).
  { unfold field_compute, bind. rewrite s1_is, ar_cur. unfold path_exists. rewrite (ar_on p_exists _ _ _ X1). cbn [negb].
    unfold path_is_null. rewrite (ar_on p_is_null _ _ _ X2). reflexivity. }
  rewrite C. reflexivity.
Qed.
Lemma body_parsed q1 q2 q3 r : arg = NONEv -> p_exists E (entries s) sp = (q1, Ok true) -> p_is_null E (entries s) q1 = (q2, Ok false) ->
  parse_kind W (field_map W n) (f_kind f) pid (after_read q2) = (r, after_read q3) ->
  match r with Ok v => ignored v = false | Exn e => caught_by_compute e = false end ->
  field_body W (field_map W n) f arg s1 =
  match r with Ok v => field_after W (field_map W n) f v (after_read q3) | Exn e => (Exn e, after_read q3) end.
Proof.
  intros A X1 X2 X3 G. assert (NA : is_NONE arg = true) by (rewrite A; reflexivity).
  unfold field_body. rewrite NA. rewrite (dr_compute _ DR). unfold bind at 1.
  assert (C : field_compute W (field_map W n) f s1 = (r, after_read q3)).
  { unfold field_compute, bind. rewrite s1_is, ar_cur. unfold path_exists. rewrite (ar_on p_exists _ _ _ X1). cbn [negb].
    unfold path_is_null. rewrite (ar_on p_is_null _ _ _ X2). unfold catch. rewrite (hf_parse _ HF), X3. destruct r as [v|e]; [reflexivity|]. now rewrite G. }
  rewrite C. destruct r as [v|e]; [|reflexivity]. assert (N : is_NONE v = false) by (destruct v; try reflexivity; discriminate).
  rewrite N, G. reflexivity.
Qed.
Lemma prim_run ty q q' r : p_primitive E (entries s) ty q = (q', r) -> path_primitive W ty pid (after_read q) = (r, after_read q').
Proof. intros X. unfold path_primitive. apply (ar_on (fun E e => p_primitive E e ty) q q' r X). Qed.
Lemma str_prim ty q q' r : p_primitive E (entries s) ty q = (q', r) -> p_str E q' = p_str E q.
Proof. intros X. pose proof (t_primitive E (entries s) ty q) as T. rewrite X in T. exact T. Qed.
Lemma obtains_body v t : p_str E sp = Ok t -> obtains W s f p arg v -> ignored v = false ->
  exists q, p_str E q = Ok t /\ field_body W (field_map W n) f arg s1 = field_after W (field_map W n) f v (after_read q).
Proof.
  intros T O G. destruct (obtains_cases _ _ _ _ _ _ O) as [(N & ->)|[(A & -> & q1 & q2 & X1 & X2)|(A & ty & q1 & q2 & q3 & K & X1 & X2 & X3)]].
  - exists sp. split; [exact T|]. unfold field_body. rewrite N. now rewrite <- s1_is.
  - assert (SP : sp = place f p) by (unfold sp, spot; rewrite A; reflexivity). rewrite <- SP in X1.
    exists q2. split; [rewrite (str_after p_is_null _ _ _ (t_is_null E) X2), (str_after p_exists _ _ _ (t_exists E) X1); exact T|].
    now apply body_null with (q1 := q1).
  - assert (SP : sp = place f p) by (unfold sp, spot; rewrite A; reflexivity). rewrite <- SP in X1.
    exists q3. split.
    { rewrite (str_prim _ _ _ _ X3), (str_after p_is_null _ _ _ (t_is_null E) X2), (str_after p_exists _ _ _ (t_exists E) X1). exact T. }
    apply (body_parsed q1 q2 q3 (Ok v) A X1 X2); [|exact G].
    assert (PK : forall ss, parse_kind W (field_map W n) (f_kind f) pid ss = path_primitive W ty pid ss).
    { intros ss. destruct (f_kind f); try discriminate; injection K as <-; reflexivity. }
    rewrite PK. now apply prim_run.
Qed.

Lemma translated_is v w : translated f v w -> translation v = w.
Proof. intros [x H|H]; unfold translation; now rewrite H. Qed.

Lemma value_ignored v w t : p_str E sp = Ok t -> obtains W s f p arg v -> ignored v = false -> lookable f v ->
  translated f v w -> ignored w = false -> py_in w (o_ignores (f_opts f)) = true ->
  (igd = true \/ required f -> yields W (S n) f arg s eid m es NOTSETv (if igm then [] else miss_err t)) /\
  (forall d, igd = false -> o_default (f_opts f) = DVal d -> d <> VConst NOTSET -> yields W (S n) f arg s eid m es d []).
Proof.
  intros T O Gv L Tr Gw I. destruct (obtains_body v t T O Gv) as (q & Tq & B).
  rewrite (after_run v w q t Tq L (translated_is _ _ Tr) Gw), I in B. rewrite (ar_default q t Tq (dr_default _ DR)) in B. split.
  - intros R. apply yields_of with (q := q). rewrite B. destruct R as [Rg|[Rd|Rd]].
    + rewrite Rg. destruct (o_default (f_opts f)); reflexivity.
    + rewrite Rd. destruct igd; reflexivity.
    + rewrite Rd. destruct igd; reflexivity.
  - intros d R D NV. apply yields_of with (q := q). rewrite B, D, R, reported_nil. unfold out.
    destruct d; try (destruct m; reflexivity). destruct c; try (destruct m; reflexivity). congruence.
Qed.
Lemma value_checked v w t o : p_str E sp = Ok t -> obtains W s f p arg v -> ignored v = false -> lookable f v ->
  translated f v w -> ignored w = false -> py_in w (o_ignores (f_opts f)) = false -> violated w = Ok o ->
  yields W (S n) f arg s eid m es (match o with None => w | Some _ => ERRORv end)
         (match o with None => [] | Some x => bad_err x t end).
Proof.
  intros T O Gv L Tr Gw I V. destruct (obtains_body v t T O Gv) as (q & Tq & B).
  rewrite (after_run v w q t Tq L (translated_is _ _ Tr) Gw), I, V in B. apply yields_of with (q := q). rewrite B.
  destruct o as [x|]; [reflexivity|]. rewrite reported_nil. unfold out. destruct m; reflexivity.
Qed.
(** Checking the value raises: so does the field. *)
Lemma value_raises v w t e : p_str E sp = Ok t -> obtains W s f p arg v -> ignored v = false -> lookable f v ->
  translated f v w -> ignored w = false -> py_in w (o_ignores (f_opts f)) = false -> violated w = Exn e ->
  exists s', field_map W (S n) f arg s = (Exn e, s') /\ stk s' = stk s /\ forms s' = forms s /\ errs s' = errs s.
Proof.
  intros T O Gv L Tr Gw I V. destruct (obtains_body v t T O Gv) as (q & Tq & B).
  rewrite (after_run v w q t Tq L (translated_is _ _ Tr) Gw), I, V in B.
  destruct (field_run W n f arg s eid m es pid p igd igm MP (dr_resolve _ DR) (dr_parent _ DR)) as (_ & s' & A1 & A2 & A3 & A4).
  fold s1 in A1, A3, A4. rewrite B in *. cbn [fst snd after_read forms errs] in *. exists s'. auto.
Qed.
(** A value that cannot be looked up in the table *)
Lemma value_unhashable v t : p_str E sp = Ok t -> obtains W s f p arg v -> ignored v = false -> o_translations (f_opts f) <> [] -> unhashable v ->
  exists s', field_map W (S n) f arg s = (Exn dict_unhashable, s') /\ stk s' = stk s /\ forms s' = forms s /\ errs s' = errs s.
Proof.
  intros T O Gv NE U. destruct (obtains_body v t T O Gv) as (q & Tq & B).
  assert (AF : field_after W (field_map W n) f v (after_read q) = (Exn dict_unhashable, after_read q)).
  { unfold field_after. unfold bind at 1. now rewrite (munge_raises v _ NE U). }
  rewrite AF in B. destruct (field_run W n f arg s eid m es pid p igd igm MP (dr_resolve _ DR) (dr_parent _ DR)) as (_ & s' & A1 & A2 & A3 & A4).
  fold s1 in A1, A3, A4. rewrite B in *. cbn [fst snd after_read forms errs] in *. exists s'. auto.
Qed.
End Field.
