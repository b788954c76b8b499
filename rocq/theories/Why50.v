(** * Why50: [has] on a name outside a mapping (C50). *)
From Verif Require Import PyBase PyStr Source Field Context Fields Forms SpecCtx SpecField SpecWhy Shape Reads Balance CtxProofs Run FieldProofs FieldLemmas FormProofs FormLemmas ObjProofs FormsLemmas.
From Coq Require Import Lia.
Open Scope Z_scope.

Lemma find_name a t f : find_field a t = Some f -> fname f = a /\ f_name f = Some a.
Proof.
  unfold find_field. intros F. apply find_some in F. destruct F as [_ F]. unfold name_is in F. unfold fname. destruct (f_name f) as [x|]; [|discriminate].
  apply String.eqb_eq in F. subst. auto.
Qed.

Section Has.
Variables (W : world) (n id : nat) (a : string) (t : formty) (l : list (val * val)) (f : field) (s : st) (p0 q : path) (txt : string).
Hypothesis R : reach W s.
Hypothesis OUT : outside_mapping s.
Hypothesis N : nth_error (forms s) id = Some (t, l).
Hypothesis D : dict_get l (VStr a) = None.
Hypothesis FF : find_field a t = Some f.
Hypothesis NS : find_field "src" t = None.
Hypothesis P0 : source_path (w_env W) (entries s) empty_src = Ok p0.
Hypothesis X : p_exists (w_env W) (entries s) (place f p0) = (q, Ok false).
Hypothesis T : p_str (w_env W) (place f p0) = Ok txt.
Hypothesis DR : direct_read f.

Let kw : frame := [("form", CForm id); ("parent", CForm id); ("src", CSrc empty_src); ("errors", CErrs (length (errs s)))].
Let s0 : st := St (stk s) (forms s) (paths s) (errs s ++ [(Raise, [])]).
Let s1 : st := St ((("src_path", CPath (length (paths s))) :: kw) :: stk s) (forms s) (paths s ++ [p0]) (errs s ++ [(Raise, [])]).
Lemma has_push : push W kw s0 = (Ok tt, s1).
Proof. unfold push. change (alookup kw "src") with (Some (CSrc empty_src)). cbv beta iota. rewrite bind_run. change (entries s0) with (entries s). rewrite P0. reflexivity. Qed.
Lemma has_mapping : mapping W s1 (length (errs s)) Raise [] (length (paths s)) p0 false false.
Proof.
  destruct OUT as [F1 F2 F3].
  assert (LK : forall k, k = "ignore_default" \/ k = "ignore_missing" -> lookup k (stk s1) = lookup k (stk s)) by (intros k [-> | ->]; reflexivity).
  split.
  - apply (reach_open W kw s0 s1); [|reflexivity|exact has_push]. apply (reach_heap W (forms s) (errs s ++ [(Raise, [])]) s R).
  - reflexivity.
  - cbn [s1 errs]. rewrite nth_error_app2 by lia. now rewrite Nat.sub_diag.
  - reflexivity.
  - cbn [s1 paths]. rewrite nth_error_app2 by lia. now rewrite Nat.sub_diag.
  - destruct F2 as (c & C1 & C2). exists c. rewrite LK by auto. auto.
  - destruct F3 as (c & C1 & C2). exists c. rewrite LK by auto. auto.
Qed.
Lemma has_absent : absent W s1 f p0.
Proof. exists q. exact X. Qed.
Lemma has_block r s2 : field_map W (S n) f NONEv s1 = (r, s2) -> stk s2 = stk s1 -> 
  with_ctx W kw (field_map W (S n) f NONEv) s0 = (r, St (stk s) (forms s2) (paths s2) (errs s2)).
Proof.
  intros H K. unfold with_ctx, closing. rewrite has_push, H. unfold restore. rewrite K. cbn [s1 stk]. unfold bind, set_stk, has_key. reflexivity.
Qed.
Lemma has_read r s2 : field_map W (S n) f NONEv s1 = (r, s2) -> stk s2 = stk s1 -> 
  form_getattr W (field_map W (S n)) id a s = match r with
    | Exn e => (Exn e, St (stk s) (forms s2) (paths s2) (errs s2))
    | Ok v => (if ignored v then raise (EAttr "form cannot map field") else form_set id (VStr a) v;; ret v) (St (stk s) (forms s2) (paths s2) (errs s2))
    end.
Proof.
  intros H K. unfold form_getattr. rewrite bind_run, (form_type_run _ _ _ _ N), FF. unfold field_get. destruct (find_name _ _ _ FF) as [FN _]. rewrite FN.
  rewrite bind_run. unfold form_entries at 1. unfold get at 1. rewrite (entries_at _ _ _ _ N), D. rewrite bind_run. unfold ctx_get_opt, get.
  destruct OUT as [F1 F2 F3]. rewrite F1. rewrite bind_run, (form_type_run _ _ _ _ N), NS. rewrite bind_run, ret_run. rewrite bind_run. unfold new_errs. rewrite bind_run.
  fold s0. fold kw. change (VConst NONE) with NONEv. rewrite (has_block r s2 H K). destruct r; reflexivity.
Qed.

Lemma C50_required_lem : required f -> exists s', Forms.has_name W (field_map W (S n)) id a s = (Exn (EForm [missing_at f (length (paths s)) txt]), s') /\
  stk s' = stk s /\ forms s' = forms s.
Proof.
  intros RQ. pose proof (absent_missing W n f NONEv s1 _ _ _ _ _ _ _ has_mapping DR txt eq_refl has_absent T (or_intror RQ)) as (s2 & Y & Y2 & Y3 & _).
  cbn [negb app] in Y. change (if false then [] else miss_err f (length (paths s)) txt) with [missing_at f (length (paths s)) txt] in Y. cbv beta iota in Y.
  pose proof (has_read _ s2 Y Y2) as G. unfold Forms.has_name. rewrite bind_run. unfold form_entries at 1. unfold get at 1. rewrite (entries_at _ _ _ _ N).
  assert (DH : dict_has l (VStr a) = false) by now apply dict_has_none. rewrite DH. unfold catch. rewrite G. eexists. split; [reflexivity|]. split; [reflexivity|exact Y3].
Qed.
Lemma has_default v : o_default (f_opts f) = DVal v -> v <> VConst NOTSET -> exists s2, stk s2 = stk s /\ forms s2 = forms s /\ errs s2 = errs s ++ [(Raise, [])] /\
  form_getattr W (field_map W (S n)) id a s = (if ignored v then raise (EAttr "form cannot map field") else form_set id (VStr a) v;; ret v) s2.
Proof.
  intros DV NV. pose proof (absent_default W n f NONEv s1 _ _ _ _ _ _ _ has_mapping DR txt v eq_refl has_absent T eq_refl DV NV) as (s2 & Y & Y2 & Y3 & Y4).
  pose proof (has_read _ s2 Y Y2) as G. eexists. split; [|split; [|split; [|exact G]]]; [reflexivity|exact Y3|]. cbn [errs app] in *. rewrite Y4. cbn [s1 errs].
  apply replace_same. rewrite nth_error_app2 by lia. now rewrite Nat.sub_diag.
Qed.
Lemma C50_default_lem v : o_default (f_opts f) = DVal v -> v <> VConst NOTSET ->
  exists s', Forms.has_name W (field_map W (S n)) id a s = (match v with VNone | VConst _ => Ok false | VObj c _ => if String.prefix "method " c then Ok true else Exn (EAttr "__get__") | _ => Exn (EAttr "__get__") end, s') /\
    stk s' = stk s /\ forms s' = match v with VConst _ => forms s | _ => replace_nth id (t, dict_set l (VStr a) v) (forms s) end.
Proof.
  intros DV NV. destruct (has_default v DV NV) as (s2 & A & B & C & G). unfold Forms.has_name. rewrite bind_run. unfold form_entries at 1. unfold get at 1. rewrite (entries_at _ _ _ _ N).
  assert (DH : dict_has l (VStr a) = false) by now apply dict_has_none. rewrite DH. unfold catch. rewrite G. 
  destruct (ignored v) eqn:I.
  - destruct v; try discriminate. exists s2. split; [reflexivity|auto].
  - rewrite bind_run. rewrite <- B in N. rewrite (form_set_run _ _ _ _ _ _ N). rewrite ret_run.
    exists (hset s2 id t (dict_set l (VStr a) v)). rewrite <- A, <- B. destruct v; try discriminate; (split; [try reflexivity|split; reflexivity]).
    cbv beta iota. unfold is_method. destruct (String.prefix _ _); reflexivity.
Qed.
Lemma field_read : form_getattr W (field_map W (S n)) id a s = field_get W (field_map W (S n)) f id s.
Proof. unfold form_getattr. now rewrite bind_run, (form_type_run _ _ _ _ N), FF. Qed.
Lemma C50_field_required_lem : required f -> exists s', has_field W (field_map W (S n)) id f s = (Exn (EForm [missing_at f (length (paths s)) txt]), s') /\
  stk s' = stk s /\ forms s' = forms s.
Proof.
  intros RQ. pose proof (absent_missing W n f NONEv s1 _ _ _ _ _ _ _ has_mapping DR txt eq_refl has_absent T (or_intror RQ)) as (s2 & Y & Y2 & Y3 & _).
  cbn [negb app] in Y. change (if false then [] else miss_err f (length (paths s)) txt) with [missing_at f (length (paths s)) txt] in Y. cbv beta iota in Y.
  pose proof (has_read _ s2 Y Y2) as G. rewrite field_read in G. unfold has_field, catch. rewrite G. eexists. split; [reflexivity|]. split; [reflexivity|exact Y3].
Qed.
Lemma C50_field_default_lem v : o_default (f_opts f) = DVal v -> v <> VConst NOTSET ->
  exists s', has_field W (field_map W (S n)) id f s =
      (match v with VNone => Ok false | VConst _ => Exn (EAttr "form cannot map field") | _ => Ok true end, s') /\
    stk s' = stk s /\ forms s' = match v with VConst _ => forms s | _ => replace_nth id (t, dict_set l (VStr a) v) (forms s) end.
Proof.
  intros DV NV. destruct (has_default v DV NV) as (s2 & A & B & C & G). rewrite field_read in G. unfold has_field, catch. rewrite G.
  destruct (ignored v) eqn:I.
  - destruct v; try discriminate. exists s2. split; [reflexivity|auto].
  - rewrite bind_run. rewrite <- B in N. rewrite (form_set_run _ _ _ _ _ _ N). rewrite ret_run.
    exists (hset s2 id t (dict_set l (VStr a) v)). rewrite <- A, <- B. destruct v; try discriminate; (split; [reflexivity|split; reflexivity]).
Qed.
Lemma C50_field_raising_lem h e : o_resolve (f_opts f) = None -> o_attach_parent (f_opts f) = false ->
  o_compute (f_opts f) = Some h -> hk_attached h = true -> hk_fun h VNone [] = PRaise e ->
  exists s', has_field W (field_map W (S n)) id f s = (match e with EKey | EIndex => Ok false | _ => Exn e end, s') /\ stk s' = stk s /\ forms s' = forms s.
Proof.
  intros HR HP HC HA HF. destruct (field_run W n f NONEv s1 _ _ _ _ _ _ _ has_mapping HR HP) as (_ & s2 & Y & Y2 & Y3 & _).
  assert (B : field_body W (field_map W n) f NONEv (entered f NONEv s1 (length (paths s)) p0) = (Exn e, entered f NONEv s1 (length (paths s)) p0)).
  { unfold field_body. cbn [is_NONE NONEv]. rewrite HC. rewrite bind_run. unfold call_hook. rewrite HA, bind_run, ret_run, HF. reflexivity. }
  rewrite B in Y, Y3. cbn [fst snd] in Y, Y3. pose proof (has_read _ s2 Y Y2) as G. rewrite field_read in G. unfold has_field, catch. rewrite G.
  exists (St (stk s) (forms s2) (paths s2) (errs s2)). split; [destruct e; reflexivity|]. split; [reflexivity|exact Y3].
Qed.
End Has.
Lemma C50_field_present_lem W n id f s v : dict_get (entries s id) (VStr (fname f)) = Some v ->
  exists b, has_field W (field_map W n) id f s = (Ok b, s) /\ (b = true <-> v <> VNone).
Proof.
  intros D. exists (negb (is_None v)). split.
  - unfold has_field, catch, field_get. rewrite bind_run. unfold form_entries at 1. unfold get at 1. now rewrite D.
  - destruct v; cbn; split; congruence.
Qed.
