(** * DropProofs: a field that yields no value has reported an error, or is optional (C26). *)
From Verif Require Import PyBase PyStr Source Field Context Fields SpecCtx SpecField SpecBox SpecDrop Shape Reads Balance CtxProofs Run FieldProofs FieldLemmas BoxProofs.
From Coq Require Import Lia.

Definition grew (eid : nat) (s s' : st) : Prop :=
  forall m es, nth_error (errs s) eid = Some (m, es) -> exists new, new <> [] /\ nth_error (errs s') eid = Some (m, es ++ new).
Lemma grew_after eid s1 s2 s3 : (exists m es, nth_error (errs s1) eid = Some (m, es)) -> stable s1 s2 -> grew eid s2 s3 -> grew eid s1 s3.
Proof.
  intros _ S G m es N. destruct (stable_errs _ _ S _ _ _ N) as (mo & N2). destruct (G m _ N2) as (new & A & B).
  exists (mo ++ new). rewrite app_assoc. split; [|exact B]. destruct mo; [exact A|discriminate].
Qed.
Lemma grew_before eid s1 s2 s3 : grew eid s1 s2 -> stable s2 s3 -> grew eid s1 s3.
Proof.
  intros G S m es N. destruct (G m es N) as (new & A & B). destruct (stable_errs _ _ S _ _ _ B) as (mo & N2).
  exists (new ++ mo). rewrite app_assoc. split; [|exact N2]. destruct new; [congruence|discriminate].
Qed.

Lemma ctx_get_state k s c s' : ctx_get k s = (c, s') -> s' = s.
Proof. unfold ctx_get, ctx_get_opt, bind, get. destruct (lookup k (stk s)); intros R; now injection R as _ <-. Qed.

Section At.
Variables (W : world) (eid : nat).
Definition knows (s : st) : Prop := lookup "errors" (stk s) = Some (CErrs eid) /\ exists m es, nth_error (errs s) eid = Some (m, es).
Lemma knows_stable s s' : stable s s' -> knows s -> knows s'.
Proof.
  intros S (A & m & es & B). split; [now rewrite (stable_stk _ _ S)|]. destruct (stable_errs _ _ S _ _ _ B) as (mo & B'). eauto.
Qed.
Lemma report_grows kd s r s' : knows s -> report W kd s = (Ok r, s') -> grew eid s s'.
Proof.
  intros (A & m0 & es0 & B) R m es N. unfold report in R. rewrite bind_run in R. rewrite (ctx_get_at s _ _ A) in R. rewrite bind_run in R.
  destruct (ctx_get "field" s) as [[fc|e] sf] eqn:F; [|discriminate].
  apply ctx_get_state in F. subst sf. destruct fc; try discriminate. rewrite bind_run in R. destruct (path_text W s) as [[tl|e] s1] eqn:P; [|discriminate].
  assert (E1 : errs s1 = errs s).
  { unfold path_text in P. rewrite bind_run in P. destruct (ctx_get "src_path" s) as [[c|e] s2] eqn:C; [|discriminate].
    apply ctx_get_state in C. subst s2. destruct c; try (injection P as <- <-; reflexivity). rewrite bind_run in P. unfold on_path in P.
    destruct (nth_error (paths s) pid) as [q|]; [|discriminate]. destruct (p_str (w_env W) q); [|discriminate]. injection P as <- <-. reflexivity. }
  unfold call_errs in R. rewrite bind_run in R. unfold extend_errs in R. rewrite E1, N in R.
  rewrite bind_run in R. cbn [get errs] in R. rewrite nth_replace_eq in R by (apply nth_error_Some; congruence).
  exists [MkErr kd (fst tl) (f_name f) (snd tl)]. split; [discriminate|].
  destruct m; [|discriminate]. injection R as _ <-. cbn [errs]. rewrite nth_replace_eq; [reflexivity|]. apply nth_error_Some. congruence.
Qed.
Lemma invalid_error_grows x s v s' : knows s -> invalid_error W x s = (Ok v, s') -> grew eid s s'.
Proof.
  intros K R. unfold invalid_error in R. rewrite bind_run in R. destruct (report W (Invalid x) s) as [[u|e] s1] eqn:P; [|discriminate].
  injection R as _ <-. exact (report_grows _ _ _ _ K P).
Qed.
Lemma invalid_error_ERROR x s v s' : invalid_error W x s = (Ok v, s') -> v = ERRORv.
Proof.
  intros R. unfold invalid_error in R. rewrite bind_run in R. destruct (report W (Invalid x) s) as [[u|e] s1]; [|discriminate]. now injection R as <- _.
Qed.

(** [x] yields a marker other than [NONE] only after reporting. *)
Variable rec : field -> val -> M val.
Hypothesis GREC : forall f v, good (rec f v).
Definition sure (x : M val) (s : st) : Prop :=
  forall v s', x s = (Ok v, s') -> ignored v = true -> v = NONEv \/ grew eid s s'.
Lemma sure_invalid x s : knows s -> sure (invalid_error W x) s.
Proof. intros K v s' R _. right. exact (invalid_error_grows _ _ _ _ K R). Qed.
Lemma sure_bind {A} (x : M A) (f : A -> M val) s : wf s -> knows s -> good x ->
  (forall a s1, x s = (Ok a, s1) -> wf s1 -> knows s1 -> sure (f a) s1) -> sure (bind x f) s.
Proof.
  intros WF K G H v s' R I. rewrite bind_run in R. destruct (x s) as [[a|e] s1] eqn:X; [|discriminate].
  pose proof (good_stable _ _ _ _ G WF X) as S. destruct (H a s1 eq_refl (stable_wf _ _ WF S) (knows_stable _ _ S K) v s' R I) as [->|Gr]; [now left|].
  right. eapply grew_after; [|exact S|exact Gr]. destruct K as (_ & m & es & N). eauto.
Qed.
Lemma sure_ret v s : ignored v = false -> sure (ret v) s.
Proof. intros I w s' R J. injection R as <- _. congruence. Qed.
Lemma sure_NONE s : sure (ret NONEv) s.
Proof. intros w s' R J. injection R as <- _. now left. Qed.
Lemma sure_raise e s : sure (raise e) s.
Proof. intros w s' R J. discriminate. Qed.
Lemma sure_need {x : val} (k : string -> M val) s : (forall t, x = VStr t -> sure (k t) s) -> sure (bind (need_str x) k) s.
Proof. intros H w s' R J. rewrite bind_run in R. unfold need_str in R. destruct x; try discriminate. exact (H s0 eq_refl w s' R J). Qed.

Lemma sure_form t rs u s c : wf s -> knows s -> lookup "src" (stk s) = Some c -> is_none_c c = false -> sure (parse_form W rec t rs u) s.
Proof.
  intros WF K C CN. unfold parse_form. apply sure_bind; [exact WF|exact K|apply good_new_form|]. intros id s1 X1 WF1 K1.
  assert (C1 : lookup "src" (stk s1) = Some c) by (injection X1 as _ <-; exact C). clear X1.
  intros v s' R I. rewrite bind_run in R. destruct (form_map W rec id ANone [] rs u Collect s1) as [[es|e] s2] eqn:FM; [|discriminate].
  destruct es as [|e es]; injection R as <- <-; [discriminate|]. right.
  unfold form_map in FM. rewrite bind_run in FM. destruct (effective_tags [] s1) as [[tg|x] s3] eqn:X; [|discriminate].
  pose proof (good_stable _ _ _ _ (good_effective_tags _) WF1 X) as S3. rewrite bind_run in FM. unfold form_type, get in FM.
  rewrite bind_run in FM. match type of FM with context [(if rs then ?a else ?b) ?z] => destruct ((if rs then a else b) z) as [[u4|x] s4] eqn:X4 end; [|discriminate].
  pose proof (good_stable _ _ _ _ (good_if rs _ _ (good_form_reset _ _ _) (good_ret tt)) (stable_wf _ _ WF1 S3) X4) as S4.
  pose proof (stable_trans _ _ _ S3 S4) as S14. rewrite bind_run in FM.
  rewrite (ctx_get_at s4 "src" c) in FM by (rewrite (stable_stk _ _ S14); exact C1). rewrite CN in FM. cbn [is_anone negb andb] in FM.
  rewrite bind_run in FM. destruct (nested_map W rec id tg u Collect s4) as [[e5|x] s5] eqn:X5; [|discriminate].
  rewrite bind_run in FM. unfold errs_of, get in FM. destruct (nth_error (errs s5) e5) as [[m5 l5]|] eqn:N5; cbn in FM; [|discriminate].
  assert (H5 : l5 = e :: es /\ s5 = s2) by (injection FM as H1 H2; auto). clear FM. destruct H5 as [-> ->].
  pose proof (stable_wf _ _ WF1 S14) as WF4. pose proof (knows_stable _ _ S14 K1) as K4.
  eapply grew_after; [destruct K1 as (_ & m & es1 & N); eauto|exact S14|]. clear S14 S4 S3 X4 X K1 WF1 C1.
  unfold nested_map in X5. unfold bind at 1, new_errs in X5. set (s6 := St _ _ _ _) in X5. set (k := length (errs s4)) in X5.
  assert (WF6 : wf s6) by (destruct WF4 as [A B]; split; [exact A|exact B]).
  rewrite bind_run in X5. destruct (with_ctx W [("errors", CErrs k)] (form__map W rec id tg u) s6) as [[u7|x] s7] eqn:X7; [|discriminate].
  assert (S7 : stable s6 s7).
  { eapply good_stable; [|exact WF6|exact X7]. apply with_ctx_good; [reflexivity|now apply good_form__map]. }
  rewrite bind_run in X5. destruct K4 as (K4 & m4 & es4 & N4).
  rewrite (ctx_get_at s7 "errors" (CErrs eid)) in X5 by (rewrite (stable_stk _ _ S7); exact K4).
  rewrite bind_run in X5. unfold errs_of, get in X5.
  assert (Nk : exists l, nth_error (errs s7) k = Some (Collect, l)).
  { destruct (stable_errs _ _ S7 k Collect []) as (mo & Q); [|eauto]. cbn [s6 errs]. unfold k. now rewrite nth_error_app2, Nat.sub_diag by lia. }
  destruct Nk as (l & Nk). rewrite Nk in X5.
  assert (Le : (eid < length (errs s4))%nat) by (apply nth_error_Some; congruence).
  destruct (stable_errs _ _ S7 eid m4 es4) as (mo & N7); [cbn [s6 errs]; rewrite nth_error_app1 by exact Le; exact N4|].
  rewrite bind_run in X5. unfold extend_errs in X5. rewrite N7 in X5. injection X5 as <- <-. cbn [errs] in *.
  intros m' es' N'. rewrite N4 in N'. injection N' as <- <-.
  rewrite nth_replace_neq in N5 by (unfold k; lia). rewrite Nk in N5. injection N5 as _ ->.
  exists (mo ++ e :: es). split; [destruct mo; discriminate|]. cbn [errs]. rewrite nth_replace_eq by (apply nth_error_Some; congruence). now rewrite app_assoc.
Qed.
End At.

Section Drop.
Variables (W : world) (n : nat) (f : field).
Variables (s : st) (eid : nat) (m : mode) (es : list err) (pid : nat) (p : path) (igd igm : bool).
Hypothesis MP : mapping W s eid m es pid p igd igm.
Hypothesis PS : plain_steps f.
Hypothesis FD : fair_default f.
Hypothesis FT : fair_translations f.
Hypothesis NM : no_marker W s f p.
Hypothesis HE : honest_env (w_env W).
Hypothesis SS : src_set s f.
Hypothesis NF : no_fallback W s f p.
Let E := w_env W.
Let rec := field_map W n.
Let inq (q : path) : st := after_read f NONEv s pid p q.
Let GREC : forall g v, good (rec g v) := fun g v => good_field_map W n g v.

Lemma inq_knows q : knows eid (inq q).
Proof.
  split; [|exists m, es; exact (mp_errs _ _ _ _ _ _ _ _ _ MP)].
  unfold inq. rewrite ar_lookup by discriminate. exact (mp_eid _ _ _ _ _ _ _ _ _ MP).
Qed.
Lemma inq_src q : exists c, lookup "src" (stk (inq q)) = Some c /\ is_none_c c = false.
Proof.
  destruct SS as (c & A & B). exists c. split; [|exact B]. rewrite <- A. unfold inq, after_read, entered, step_key. cbn [stk is_NONE NONEv].
  change (match f_kind f with KGroup _ => None | _ => o_src (f_opts f) end) with (own_key f).
  destruct (own_key f); reflexivity.
Qed.

Lemma sure_primitive ty q : read_type (f_kind f) = Some ty -> present_at W s f p q -> forall v s', path_primitive W ty pid (inq q) = (Ok v, s') -> ignored v = false.
Proof.
  intros T X v s' R. unfold path_primitive in R. destruct (p_primitive E (entries s) ty q) as [q' r] eqn:P.
  unfold inq in R. rewrite (ar_on W f NONEv s eid m es pid p igd igm MP (fun E ents => p_primitive E ents ty) q q' r P) in R.
  injection R as -> _. exact (NM ty q q' v T X P).
Qed.
Lemma try_date_value fmts x : ignored (try_date W fmts x) = false.
Proof. induction fmts as [|fmt l IH]; cbn [try_date]; [reflexivity|]. destruct (if String.eqb fmt "iso8601" then _ else _); [reflexivity|exact IH]. Qed.

Ltac step := match goal with
  | |- sure _ (bind (need_str _) _) _ => apply sure_need; intros
  | |- sure _ (bind _ _) _ => apply sure_bind; [assumption|assumption| |intros]
  | |- sure _ (invalid_error _ _) _ => apply sure_invalid; assumption
  | |- sure _ (raise _) _ => apply sure_raise
  | |- sure _ (ret _) _ => apply sure_ret; first [reflexivity|assumption|now apply try_date_value]
  | |- sure _ (match ?x with _ => _ end) _ => destruct x eqn:?
  | |- good _ => first [apply good_path_value|apply good_path_primitive|apply good_path_sequence|apply good_path_mapping
                       |apply good_lift|now apply good_tuple_items|now apply good_list_items|now apply good_dict_items|now apply good_poly_type
                       |apply good_report|now apply good_map_at|apply good_path_has_src|apply good_ret]
  end.

Lemma sure_group l : forall keys k acc s1, wf s1 -> knows eid s1 -> sure eid (group_items W rec l keys k acc) s1.
Proof.
  induction keys as [|x keys IH]; intros k acc s1 WF K; cbn [group_items].
  - destruct k; [apply sure_NONE|apply sure_ret; reflexivity].
  - step; [apply good_lift|]. destruct a as [[g c]|]; [|now apply IH]. step; [now apply good_map_at|]. now apply IH.
Qed.
Lemma sure_parse q : present_at W s f p q -> sure eid (parse_kind W rec (f_kind f) pid) (inq q).
Proof.
  intros X. pose proof (in_shape_wf W n f s eid m es pid p igd igm MP PS q (present_shape W f s p q X)) as WF.
  change (wf (inq q)) in WF. pose proof (inq_knows q) as K. destruct HE as (N1 & N2 & N3).
  assert (SP := fun ty => sure_primitive ty q).
  destruct (f_kind f) eqn:KD; cbn [parse_kind];
    try (intros v s' R I; exfalso; pose proof (SP _ eq_refl X v s' R); congruence).
  - unfold parse_decimal. repeat step.
  - unfold parse_date. repeat step.
  - unfold parse_time. repeat step.
  - unfold parse_datetime. repeat step.
  - unfold parse_tuple. repeat step.
  - unfold parse_list. intros v s' R I. unfold catch in R. destruct (path_sequence W pid (inq q)) as [[len|e] s1] eqn:Q.
    + rewrite bind_run in R. match type of R with context [match ?x with _ => _ end] => destruct x as [[l|e] s2] end; [|discriminate]. injection R as <- _. discriminate.
    + rewrite bind_run in R. unfold path_has_src, get in R.
      match type of R with context [if negb ?b then _ else _] => destruct (negb b); [discriminate|] end.
      destruct e; try discriminate. destruct allow_field; [|discriminate]. exfalso.
      destruct (NF _ _ _ KD) as (len & q2 & q3 & X3 & Y). assert (q3 = q).
      { destruct X as (a1 & B1 & B2). destruct X3 as (a2 & B3 & B4). congruence. }
      subst q3. unfold path_sequence in Q. unfold inq in Q. rewrite (ar_on W f NONEv s eid m es pid p igd igm MP p_sequence q _ _ Y) in Q. discriminate.
  - unfold parse_dict. repeat step.
  - unfold parse_code. intros v s' R I. rewrite bind_run in R. destruct (path_primitive W TyAuto pid (inq q)) as [[a|e] s1] eqn:Q; [|discriminate].
    pose proof (SP _ eq_refl X a s1 Q) as H. pose proof (good_stable _ _ _ _ (good_path_primitive W TyAuto pid) WF Q) as ST.
    pose proof (stable_wf _ _ WF ST). pose proof (knows_stable eid _ _ ST K).
    assert (SU : sure eid (match a with VStr t => if has_char newline t then match e_compile (w_env W) t with Ok m0 => ret m0 | Exn e => invalid_error W (VioExn e) end
       else match e_import (w_env W) t with Some (Ok m0) => ret m0 | Some (Exn e) => invalid_error W (VioExn e) | None => invalid_error W (VioCode a) end
       | _ => ret a end) s1).
    { destruct a; try (apply sure_ret; exact H). repeat step; apply sure_ret; eauto. }
    destruct (SU v s' R I) as [->|G]; [now left|]. right. eapply grew_after; [|exact ST|exact G]. destruct K as (_ & z); exact z.
  - assert (U : forall a, is_uuid a = true -> ignored a = false) by (now intros []).
    unfold parse_uuid, to_uuid. repeat step; apply sure_ret; eauto.
  - destruct (inq_src q) as (c & C1 & C2). eapply sure_form; eauto.
  - unfold parse_poly. destruct (inq_src q) as (c & C1 & C2). intros v s' R I. rewrite bind_run in R.
    destruct (poly_type W rec probe tf table pid (inq q)) as [[a|e] s1] eqn:Q; [|discriminate].
    pose proof (good_stable _ _ _ _ (good_poly_type W rec GREC probe tf table pid) WF Q) as ST.
    pose proof (stable_wf _ _ WF ST) as WF1. pose proof (knows_stable eid _ _ ST K) as K1.
    destruct a as [t|w].
    + assert (SU : sure eid (parse_form W rec t reset u) s1).
      { eapply sure_form; eauto. rewrite (stable_stk _ _ ST). exact C1. }
      destruct (SU v s' R I) as [->|G]; [now left|]. right. eapply grew_after; [|exact ST|exact G]. destruct K as (_ & z); exact z.
    + injection R as <- <-. unfold poly_type in Q. rewrite bind_run in Q.
      destruct (path_value W pid (inq q)) as [[b|e] s2] eqn:Q2; [|discriminate].
      pose proof (good_stable _ _ _ _ (good_path_value W pid) WF Q2) as ST2.
      unfold catch in Q. destruct (types_probe W rec probe tf b s2) as [r s3] eqn:Q3.
      pose proof (good_stable _ _ _ _ (good_types_probe W rec GREC probe tf b) (stable_wf _ _ WF ST2) Q3) as ST3.
      pose proof (stable_trans _ _ _ ST2 ST3) as ST13. pose proof (knows_stable eid _ _ ST13 K) as K3.
      assert (REP : forall x, (report W (Invalid x);; ret (inr ERRORv)) s3 = (Ok (inr w : formty + val), s1) -> grew eid (inq q) s1).
      { intros x RR. rewrite bind_run in RR. destruct (report W (Invalid x) s3) as [[u0|e] s4] eqn:R4; [|discriminate].
        injection RR as _ <-. eapply grew_after; [|exact ST13|exact (report_grows W eid _ _ _ _ K3 R4)]. destruct K as (_ & z); exact z. }
      destruct r as [ident|e].
      * destruct (is_None ident); [injection Q as <- _; now left|]. destruct (negb (hashable ident)); [discriminate|].
        destruct (dict_get (map (fun ic => (fst ic, VStr (snd ic))) table) ident) as [[]|];
          try (right; exact (REP _ Q)). destruct (w_class W s0); discriminate.
      * destruct (is_value_error e); [|discriminate]. right. exact (REP _ Q).
  - unfold parse_group. step; [apply good_path_mapping|]. step; [apply good_lift|]. now apply sure_group.
Qed.

(** How a field may end without a value. *)
Definition dropped (v : val) (s1 s2 : st) : Prop :=
  grew eid s1 s2 \/ (v = NOTSETv /\ igm = true) \/ (v = NONEv /\ o_default (f_opts f) = DVal NONEv /\ igd = false).
Lemma dropped_after v s1 s2 s3 : knows eid s1 -> stable s1 s2 -> dropped v s2 s3 -> dropped v s1 s3.
Proof. intros (_ & K) S [G|D]; [left; now apply (grew_after eid s1 s2 s3)|now right]. Qed.
Definition flags (s2 : st) : Prop := forall k, k <> "src" -> k <> "field" -> k <> "parent" -> lookup k (stk s2) = lookup k (stk s).
Lemma flags_stable s1 s2 : stable s1 s2 -> flags s1 -> flags s2.
Proof. intros S F k A B C. rewrite (stable_stk _ _ S). now apply F. Qed.
Lemma missing_drop s1 v s2 : knows eid s1 -> flags s1 -> report_missing_unless_ignored W s1 = (Ok v, s2) -> dropped v s1 s2.
Proof.
  intros K F R. unfold report_missing_unless_ignored in R. rewrite bind_run in R. destruct (mp_igm _ _ _ _ _ _ _ _ _ MP) as (c & C1 & C2).
  rewrite (ctx_get_at s1 "ignore_missing" c) in R by (rewrite F by discriminate; exact C1). rewrite bind_run in R.
  destruct (truthy_c c) eqn:I.
  - injection R as <- _. right; left; auto.
  - destruct (report W Missing s1) as [[u|e] s3] eqn:P; [|discriminate]. injection R as _ <-. left. exact (report_grows W eid _ _ _ _ K P).
Qed.
Lemma default_drop s1 v s2 : knows eid s1 -> flags s1 -> field_default W rec f s1 = (Ok v, s2) -> ignored v = true -> dropped v s1 s2.
Proof.
  intros K F R I. unfold field_default in R. rewrite bind_run in R. destruct (mp_igd _ _ _ _ _ _ _ _ _ MP) as (c & C1 & C2).
  rewrite (ctx_get_at s1 "ignore_default" c) in R by (rewrite F by discriminate; exact C1).
  destruct (truthy_c c) eqn:G; [now apply missing_drop|]. unfold fair_default in FD. destruct (o_default (f_opts f)) as [[h|]|d|q] eqn:D.
  - contradiction.
  - now apply missing_drop.
  - destruct d as [| | | | | | | | | | | | | |c0| | | | |]; try (injection R as <- _; discriminate).
    destruct c0; [|congruence|now apply missing_drop]. injection R as <- _. right; right; auto.
  - destruct FD as (w & -> & Iw). cbn [run] in R. injection R as <- _. congruence.
Qed.
Lemma after_drop s1 v w s2 : wf s1 -> knows eid s1 -> flags s1 -> ignored v = false ->
  field_after W rec f v s1 = (Ok w, s2) -> ignored w = true -> dropped w s1 s2.
Proof.
  intros WF K F Iv R I. unfold field_after in R. rewrite bind_run in R. unfold field_munge in R.
  assert (T : exists v1, ignored v1 = false /\ (v1' <- match o_munge (f_opts f) with Some h => if ignored v1 then ret v1 else call_hook W rec h [v1] | None => ret v1 end;
    if is_NONE v1' then field_default W rec f else if ignored v1' then ret v1' else if negb (field_filter f v1') then field_default W rec f else
    ok <- match o_filter (f_opts f) with Some h => r <- call_hook W rec h [v1']; ret (truthy r) | None => ret true end;
    if negb ok then field_default W rec f else ok0 <- field_validate W f v1';
    if negb ok0 then ret ERRORv else ok1 <- match o_validate (f_opts f) with Some h => r <- call_hook W rec h [v1']; ret (truthy r) | None => ret true end;
    if negb ok1 then ret ERRORv else ret v1') s1 = (Ok w, s2)).
  { unfold fair_translations in FT. destruct (o_translations (f_opts f)) as [|kv tr]; [exists v; split; [exact Iv|exact R]|].
    destruct (hashable v); [|discriminate]. rewrite ret_run in R.
    eexists. split; [|exact R]. destruct (dict_get (kv :: tr) v) as [x|] eqn:D; [|exact Iv].
    unfold dict_get in D. destruct (find _ (kv :: tr)) as [[k x']|] eqn:FI; [|discriminate]. injection D as <-.
    apply find_some in FI. exact (FT k _ (proj1 FI)). }
  clear R. destruct T as (v1 & I1 & R). rewrite (ps_munge _ PS), bind_run, ret_run in R.
  assert (N : is_NONE v1 = false) by (destruct v1; try reflexivity; discriminate). rewrite N, I1 in R.
  destruct (negb (field_filter f v1)); [now apply default_drop|]. rewrite (ps_filter _ PS), bind_run, ret_run in R. cbn [negb] in R.
  rewrite bind_run in R. unfold field_validate in R. rewrite bind_run in R.
  destruct (field_violation (w_env W) (entries s1) f v1) as [[x|]|e]; [| |discriminate].
  - rewrite bind_run in R. destruct (report W (Invalid x) s1) as [[u|e] s3] eqn:P; [|discriminate]. rewrite ret_run in R. injection R as _ <-.
    left. exact (report_grows W eid _ _ _ _ K P).
  - rewrite ret_run in R. cbn [negb] in R. rewrite (ps_validate _ PS), bind_run, ret_run in R. injection R as <- _. congruence.
Qed.
Lemma inq_flags q : flags (inq q).
Proof. intros k A B C. now apply ar_lookup. Qed.
Lemma body_drop v s2 : field_body W rec f NONEv (inq (place f p)) = (Ok v, s2) -> ignored v = true -> dropped v (inq (place f p)) s2.
Proof.
  intros R I. pose proof (inq_knows (place f p)) as K0.
  assert (AB : forall q r, (if is_NONE r then match o_default (f_opts f) with DUnset (Some h) => call_hook W rec h [] | _ => field_default W rec f end
              else if ignored r then ret r else field_after W rec f r) q = (Ok v, s2) -> wf q -> knows eid q -> flags q ->
              (ignored r = true -> r = NONEv \/ grew eid (inq (place f p)) q) -> (forall m es, nth_error (errs (inq (place f p))) eid = Some (m, es) -> exists more, nth_error (errs q) eid = Some (m, es ++ more)) -> dropped v (inq (place f p)) s2).
  { intros q r RR WF K F H EX.
    assert (UP : dropped v q s2 -> dropped v (inq (place f p)) s2).
    { intros [G|D]; [left|now right]. intros m' es' N'. destruct (EX _ _ N') as (more & N2). destruct (G _ _ N2) as (new & A & B).
      exists (more ++ new). rewrite app_assoc. split; [|exact B]. destruct more; [exact A|discriminate]. }
    destruct (is_NONE r) eqn:IR.
    - apply UP. apply default_drop; auto. unfold fair_default in FD. destruct (o_default (f_opts f)) as [[h|]|d|x]; [contradiction| | |]; exact RR.
    - destruct (ignored r) eqn:IG.
      + injection RR as <- <-. destruct (H eq_refl) as [->|G]; [discriminate|now left].
      + apply UP. now apply (after_drop q r). }
  destruct (p_exists E (entries s) (place f p)) as [q1 r1] eqn:X1.
  unfold field_body in R. change (is_NONE NONEv) with true in R. cbv beta iota in R. rewrite (ps_compute _ PS), bind_run in R.
  assert (SH : forall q, pshape q = pshape (place f p) -> wf (inq q)) by (intros q; apply (in_shape_wf W n f s eid m es pid p igd igm MP PS)).
  pose proof (preads_exists E (entries s) (place f p)) as H1. rewrite X1 in H1. cbn [fst] in H1.
  destruct r1 as [[|]|e].
  2: { assert (C : field_compute W rec f (inq (place f p)) = (Ok NONEv, inq q1)).
       { unfold field_compute, bind, inq. rewrite (ar_cur W f NONEv s eid m es pid p igd igm MP).
         unfold path_exists. rewrite (ar_on W f NONEv s eid m es pid p igd igm MP p_exists _ _ _ X1). reflexivity. }
       rewrite C in R. apply (AB (inq q1) NONEv R); auto using inq_knows, inq_flags. intros m' es' N'. exists []. rewrite app_nil_r. exact N'. }
  2: { assert (C : field_compute W rec f (inq (place f p)) = (Exn e, inq q1)).
       { unfold field_compute, bind, inq. rewrite (ar_cur W f NONEv s eid m es pid p igd igm MP).
         unfold path_exists. rewrite (ar_on W f NONEv s eid m es pid p igd igm MP p_exists _ _ _ X1). reflexivity. }
       rewrite C in R. discriminate. }
  destruct (p_is_null E (entries s) q1) as [q2 r2] eqn:X2.
  pose proof (preads_is_null E (entries s) q1) as H2. rewrite X2 in H2. cbn [fst] in H2. assert (H12 : pshape q2 = pshape (place f p)) by congruence.
  destruct r2 as [[|]|e].
  1: { assert (C : field_compute W rec f (inq (place f p)) = (Ok VNone, inq q2)).
       { unfold field_compute, bind, inq. rewrite (ar_cur W f NONEv s eid m es pid p igd igm MP).
         unfold path_exists. rewrite (ar_on W f NONEv s eid m es pid p igd igm MP p_exists _ _ _ X1). cbn [negb].
         unfold path_is_null. rewrite (ar_on W f NONEv s eid m es pid p igd igm MP p_is_null _ _ _ X2). reflexivity. }
       rewrite C in R. apply (AB (inq q2) VNone R); auto using inq_knows, inq_flags; [discriminate|]. intros m' es' N'. exists []. rewrite app_nil_r. exact N'. }
  2: { assert (C : field_compute W rec f (inq (place f p)) = (Exn e, inq q2)).
       { unfold field_compute, bind, inq. rewrite (ar_cur W f NONEv s eid m es pid p igd igm MP).
         unfold path_exists. rewrite (ar_on W f NONEv s eid m es pid p igd igm MP p_exists _ _ _ X1). cbn [negb].
         unfold path_is_null. rewrite (ar_on W f NONEv s eid m es pid p igd igm MP p_is_null _ _ _ X2). reflexivity. }
       rewrite C in R. discriminate. }
  assert (X : present_at W s f p q2) by (exists q1; auto).
  pose proof (sure_parse q2 X) as SU. destruct (parse_kind W rec (f_kind f) pid (inq q2)) as [r s3] eqn:PK.
  assert (C : field_compute W rec f (inq (place f p)) = match r with Ok v => (Ok v, s3) | Exn e => if caught_by_compute e then invalid_error W (VioExn (spoken e)) s3 else (Exn e, s3) end).
  { unfold field_compute, bind, inq. rewrite (ar_cur W f NONEv s eid m es pid p igd igm MP).
    unfold path_exists. rewrite (ar_on W f NONEv s eid m es pid p igd igm MP p_exists _ _ _ X1). cbn [negb].
    unfold path_is_null. rewrite (ar_on W f NONEv s eid m es pid p igd igm MP p_is_null _ _ _ X2).
    unfold catch. rewrite (ps_parse _ PS). unfold inq in PK. rewrite PK. destruct r as [v'|e]; [reflexivity|].
    destruct (caught_by_compute e); reflexivity. }
  pose proof (good_stable _ _ _ _ (good_parse_kind W rec GREC (f_kind f) pid) (SH q2 H12) PK) as ST.
  pose proof (knows_stable eid _ _ ST (inq_knows q2)) as K3. pose proof (flags_stable _ _ ST (inq_flags q2)) as F3.
  rewrite C in R. destruct r as [v'|e].
  - apply (AB s3 v' R); auto; [exact (stable_wf _ _ (SH q2 H12) ST)| |].
    + intros IG. destruct (SU v' s3 PK IG) as [->|G]; [now left|right]. exact G.
    + intros m' es' N'. exact (stable_errs _ _ ST _ _ _ N').
  - destruct (caught_by_compute e); [|discriminate]. destruct (invalid_error W (VioExn (spoken e)) s3) as [[v'|e'] s4] eqn:IE; [|discriminate].
    pose proof (invalid_error_ERROR _ _ _ _ _ IE). subst v'. injection R as <- <-.
    left. eapply grew_after; [destruct (inq_knows (place f p)) as (_ & z); exact z| |exact (invalid_error_grows W eid _ _ _ _ K3 IE)].
    destruct ST as [S1 S2 S3 S4]. split; auto. unfold shapes in *. unfold inq, after_read in *. cbn [paths] in *. rewrite !map_replace, ?H12 in *. exact S2.
Qed.
Lemma field_drop v s' : field_map W (S n) f NONEv s = (Ok v, s') -> ignored v = true ->
  (exists new, new <> [] /\ nth_error (errs s') eid = Some (m, es ++ new)) \/ (v = NOTSETv /\ igm = true) \/ (v = NONEv /\ o_default (f_opts f) = DVal NONEv /\ igd = false).
Proof.
  intros R I. destruct (field_body W rec f NONEv (inq (place f p))) as [r s2] eqn:B.
  destruct (box_finish W n f s eid m es pid p igd igm MP PS _ B) as (s3 & A1 & A2 & A3 & A4). cbn [fst snd] in *.
  rewrite A1 in R. injection R as -> ->. destruct (body_drop v s2 B I) as [G|D]; [left|now right].
  destruct (G m es (mp_errs _ _ _ _ _ _ _ _ _ MP)) as (new & N1 & N2). exists new. split; [exact N1|congruence].
Qed.
End Drop.
