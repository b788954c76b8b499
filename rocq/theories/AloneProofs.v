(** * AloneProofs: a field that is called outside every mapping (C101). *)
From Verif Require Import PyBase PyStr Source Field Context Fields SpecCtx SpecField SpecBuild SpecAlone FieldProofs Balance Make74.

Lemma nth_replace_same {A} (l : list A) i a b : nth_error l i = Some a -> nth_error (replace_nth i b l) i = Some b.
Proof. intros H. apply nth_replace_eq. apply nth_error_Some. congruence. Qed.
Definition within_field (f : field) (s : st) : st := St ([("field", CField f); ("parent", CField f)] :: stk s) (forms s) (paths s) (errs s).
Lemma alone_map W n f arg s r : o_attach_parent (f_opts f) = false ->
  field__map W (field_map W n) f arg (within_field f s) = (r, within_field f s) -> field_map W (S n) f arg s = (r, s).
Proof.
  intros P H. change (field_map W (S n)) with (field_map_body W (field_map W n)). unfold field_map_body, bind at 1, with_ctx, closing.
  change (push W [("field", CField f); ("parent", CField f)] s) with (Ok tt, within_field f s). cbv iota. rewrite H.
  assert (R : restore W (within_field f s) = (Ok tt, s)) by (destruct s; reflexivity). rewrite R. destruct r as [v|e]; [|reflexivity]. rewrite P. reflexivity.
Qed.
Lemma inner_lookup f s k : k <> "field" -> k <> "parent" -> lookup k (stk (within_field f s)) = lookup k (stk s).
Proof.
  intros A B. cbn [within_field stk lookup alookup]. apply String.eqb_neq in A, B. rewrite String.eqb_sym in A. rewrite String.eqb_sym in B.
  rewrite A, B. reflexivity.
Qed.
Lemma listen_map W n f arg s es r : o_attach_parent (f_opts f) = false ->
  field__map W (field_map W n) f arg (within_field f s) = (r, St (stk (within_field f s)) (forms s) (paths s) es) -> field_map W (S n) f arg s = (r, St (stk s) (forms s) (paths s) es).
Proof.
  intros P H. change (field_map W (S n)) with (field_map_body W (field_map W n)). unfold field_map_body, bind at 1, with_ctx, closing.
  change (push W [("field", CField f); ("parent", CField f)] s) with (Ok tt, within_field f s). cbv iota. rewrite H.
  assert (R : restore W (St (stk (within_field f s)) (forms s) (paths s) es) = (Ok tt, St (stk s) (forms s) (paths s) es)) by reflexivity. rewrite R. destruct r as [v|e]; [|reflexivity]. rewrite P. reflexivity.
Qed.
Section Alone.
Variables (W : world) (n : nat) (f : field) (s : st).
Hypothesis AL : alone s.
Notation s1 := (within_field f s).
Lemma alone_report kd : exists a, report W kd s1 = (Exn (EAttr a), s1).
Proof.
  unfold report, ctx_get, ctx_get_opt, bind, get. rewrite inner_lookup by discriminate. pose proof (al_errors _ AL) as NE. destruct (lookup "errors" (stk s)) as [[]|]; try (eexists; reflexivity). exfalso. eapply NE. reflexivity.
Qed.
Lemma alone_default : (forall v, o_default (f_opts f) = DVal v -> v <> VConst NOTSET -> field_default W (field_map W n) f s1 = (Ok v, s1)) /\
  (required f -> exists a, field_default W (field_map W n) f s1 = (Exn (EAttr a), s1)).
Proof.
  assert (B : forall A (x y : M A), (c <- ctx_get "ignore_default"; if truthy_c c then x else y)%m s1 = y s1).
  { intros A x y. unfold ctx_get, ctx_get_opt, bind, get. rewrite inner_lookup by discriminate. destruct (al_default _ AL) as (c & L & T). rewrite L. cbn [ret]. now rewrite T. }
  unfold field_default. rewrite B. split.
  - intros v D NV. rewrite D. destruct v; try reflexivity. match goal with c : const |- _ => destruct c end; [reflexivity|reflexivity|congruence].
  - intros R. assert (Q : exists a, report_missing_unless_ignored W s1 = (Exn (EAttr a), s1)).
    { unfold report_missing_unless_ignored. unfold ctx_get, ctx_get_opt, bind at 1 2, get. rewrite inner_lookup by discriminate.
      destruct (al_missing _ AL) as (c & L & T). rewrite L. cbn [ret]. rewrite T. unfold bind. destruct (alone_report Missing) as (a & A). rewrite A. eexists. reflexivity. }
    destruct R as [R|R]; rewrite R; exact Q.
Qed.
Hypothesis HF : hook_free f.
Lemma alone_after v w : ignored v = false -> lookable f v -> translated f v w -> ignored w = false ->
  field_after W (field_map W n) f v s1 =
  if py_in w (o_ignores (f_opts f)) then field_default W (field_map W n) f s1
  else match field_violation (w_env W) (entries s) f w with
       | Ok None => (Ok w, s1)
       | Ok (Some x) => match report W (Invalid x) s1 with (Ok _, s2) => (Ok ERRORv, s2) | (Exn e, s2) => (Exn e, s2) end
       | Exn e => (Exn e, s1)
       end.
Proof.
  intros I L T G. destruct HF as [[] HP HM HFi HV]. unfold field_after. unfold bind at 1. rewrite (munge_run f v s1 L), (translated_is f v w T), HM.
  unfold bind at 1. cbn [ret]. assert (NN : is_NONE w = false) by (destruct w; try reflexivity; match goal with c : const |- _ => destruct c end; [discriminate|reflexivity..]).
  rewrite NN, G, HFi, HV. unfold field_filter. rewrite Bool.negb_involutive. destruct (py_in w (o_ignores (f_opts f))); [reflexivity|].
  unfold bind at 1. cbn [ret negb]. unfold field_validate. unfold bind at 1 2. change (entries s1) with (entries s).
  destruct (field_violation (w_env W) (entries s) f w) as [[x|]|e]; [|reflexivity|reflexivity].
  unfold bind at 1. destruct (report W (Invalid x) s1) as [[u|e] s2]; reflexivity.
Qed.
Lemma alone_given v : ignored v = false -> field__map W (field_map W n) f v s1 = field_after W (field_map W n) f v s1.
Proof.
  intros I. unfold field__map, field_body, bind. assert (NN : is_NONE v = false) by (destruct v; try reflexivity; match goal with c : const |- _ => destruct c end; [discriminate|reflexivity..]).
  rewrite NN. reflexivity.
Qed.
Lemma C101_value_lem v w : settles (w_env W) f v w -> field_map W (S n) f v s = (Ok w, s).
Proof.
  intros (I & L & T & G & NI & F). apply alone_map; [apply HF|]. rewrite alone_given, (alone_after v w) by assumption. rewrite NI, (fits_violation W _ f w F). reflexivity.
Qed.
Lemma C101_invalid_lem v w x : ignored v = false -> lookable f v -> translated f v w -> ignored w = false ->
  py_in w (o_ignores (f_opts f)) = false -> field_violation (w_env W) (entries s) f w = Ok (Some x) ->
  exists a, field_map W (S n) f v s = (Exn (EAttr a), s).
Proof.
  intros I L T G NI V. destruct (alone_report (Invalid x)) as (a & A). exists a. apply alone_map; [apply HF|].
  rewrite alone_given, (alone_after v w) by assumption. rewrite NI, V, A. reflexivity.
Qed.
Lemma C101_ignored_lem v w : ignored v = false -> lookable f v -> translated f v w -> ignored w = false ->
  py_in w (o_ignores (f_opts f)) = true ->
  (forall d, o_default (f_opts f) = DVal d -> d <> VConst NOTSET -> field_map W (S n) f v s = (Ok d, s)) /\
  (required f -> exists a, field_map W (S n) f v s = (Exn (EAttr a), s)).
Proof.
  intros I L T G NI. destruct alone_default as [A B]. split.
  - intros d D ND. apply alone_map; [apply HF|]. rewrite alone_given, (alone_after v w) by assumption. rewrite NI. now apply A.
  - intros R. destruct (B R) as (a & C). exists a. apply alone_map; [apply HF|]. rewrite alone_given, (alone_after v w) by assumption. now rewrite NI.
Qed.
End Alone.
Lemma C101_reported_lem W n f s eid m es : listening s eid m es -> hook_free f -> forall v w x,
  ignored v = false -> lookable f v -> translated f v w -> ignored w = false ->
  py_in w (o_ignores (f_opts f)) = false -> field_violation (w_env W) (entries s) f w = Ok (Some x) ->
  let all := es ++ [placeless (Invalid x) f] in
  field_map W (S n) f v s =
    (match m with Collect => Ok ERRORv | Raise => Exn (EForm all) end, St (stk s) (forms s) (paths s) (replace_nth eid (m, all) (errs s))).
Proof.
  intros [LP LE LL] HF v w x I L T G NI V all. apply listen_map; [apply HF|]. rewrite alone_given, (alone_after W n f s HF v w) by assumption. rewrite NI, V.
  assert (R : report W (Invalid x) (within_field f s) = (match m with Collect => Ok tt | Raise => Exn (EForm all) end, St (stk (within_field f s)) (forms s) (paths s) (replace_nth eid (m, all) (errs s)))).
  { unfold report, ctx_get, ctx_get_opt, bind at 1 2, get. rewrite inner_lookup by discriminate. rewrite LE. cbn [ret].
    unfold bind at 1 2. change (lookup "field" (stk (within_field f s))) with (Some (CField f)). cbn [ret]. unfold bind at 1. unfold path_text, ctx_get, ctx_get_opt, bind at 1 2, get.
    rewrite inner_lookup by discriminate. rewrite LP. cbn [ret fst snd]. unfold call_errs, bind at 1, extend_errs. change (errs (within_field f s)) with (errs s). rewrite LL.
    unfold bind, get. cbn [errs]. rewrite (nth_replace_same (errs s) eid _ (m, es ++ [MkErr (Invalid x) "None" (f_name f) None]) LL). destruct m; reflexivity. }
  rewrite R. destruct m; reflexivity.
Qed.
Lemma C101_nothing_lem W n f s : alone s -> direct_read f -> exists a, field_map W (S n) f NONEv s = (Exn (EAttr a), s).
Proof.
  intros AL [HC HR _ HP]. eexists. apply alone_map; [exact HP|]. unfold field__map, field_resolve, bind at 1. change (is_NONE NONEv) with true. cbv iota.
  rewrite HR. assert (CP : forall A (k : nat -> M A), (x <- cur_path; k x)%m (within_field f s) = (Exn (EAttr "'NoneType' object has no attribute"), within_field f s)).
  { intros A k. unfold cur_path, ctx_get, ctx_get_opt, bind, get. rewrite inner_lookup by discriminate. now rewrite (al_path _ AL). }
  assert (B : field_body W (field_map W n) f NONEv (within_field f s) = (Exn (EAttr "'NoneType' object has no attribute"), within_field f s)).
  { unfold field_body. change (is_NONE NONEv) with true. cbv iota. rewrite HC. unfold field_compute. unfold bind at 1. now rewrite CP. }
  assert (K : forall k, with_ctx W [("src", CKey k)] (field_body W (field_map W n) f NONEv) (within_field f s) = (Exn (EAttr "'NoneType' object has no attribute"), within_field f s)).
  { intros k. unfold with_ctx, closing, push. cbn [alookup String.eqb Ascii.eqb Bool.eqb]. now rewrite CP. }
  destruct (f_kind f); cbn [ret]; try exact B; destruct (o_src (f_opts f)); cbn [ret]; try exact B; apply K.
Qed.
