(** * DropLemmas: C26, C31 and C69 from the proofs about locations and drops. *)
From Verif Require Import PyBase PyStr Source Field Context Fields SpecCtx SpecField SpecBox SpecLocal SpecDrop Shape Reads Balance CtxProofs Run FieldProofs FieldLemmas BoxProofs LocalProofs DropProofs.
From Coq Require Import Lia.

Lemma C69_field W n f v s pid p : reach W s -> local f ->
  lookup "src_path" (stk s) = Some (CPath pid) -> nth_error (paths s) pid = Some p ->
  reports_below W pid p s (snd (field_map W n f v s)).
Proof. intros R L A B. exact (loc_field_map W n f v L s (reach_wf _ _ R) pid p A B). Qed.

Lemma C69_form W n id t src tags rs u s es s' : reach W s -> local_form t -> local_unm u ->
  (exists l, nth_error (forms s) id = Some (t, l)) ->
  Form_map W n id (ASrc src) tags rs u Collect s = (Ok es, s') ->
  exists h p, source_path (w_env W) h src = Ok p /\ Forall (located W (length (paths s)) p) es.
Proof.
  intros R LT LU T FM. pose proof (reach_wf _ _ R) as WF. unfold Form_map, form_map in FM. set (rec := field_map W n) in *.
  assert (GREC : forall f v, good (rec f v)) by (intros; apply good_field_map).
  assert (LREC : forall f v, local f -> loc W (rec f v)) by (intros; now apply loc_field_map).
  rewrite bind_run in FM. destruct (effective_tags tags s) as [[tg|x] s3] eqn:X; [|discriminate].
  pose proof (good_stable _ _ _ _ (good_effective_tags _) WF X) as S3.
  assert (P3 : paths s3 = paths s).
  { unfold effective_tags in X. destruct tags; [|now injection X as _ <-]. unfold ctx_get_opt, bind, get in X.
    destruct (lookup "tags" (stk s)) as [[]|]; now injection X as _ <-. }
  rewrite bind_run in FM. unfold form_type, get in FM.
  rewrite bind_run in FM. match type of FM with context [(if rs then ?a else ?b) ?z] => destruct ((if rs then a else b) z) as [[u4|x] s4] eqn:X4 end; [|discriminate].
  pose proof (good_stable _ _ _ _ (good_if rs _ _ (good_form_reset _ _ _) (good_ret tt)) (stable_wf _ _ WF S3) X4) as S4.
  assert (P4 : paths s4 = paths s3).
  { destruct rs; [|now injection X4 as _ <-]. revert X4. generalize (ft_fields match nth_error (forms s3) id with Some (t0, _) => t0 | None => FormTy "" [] end).
    clear. intros fs. revert s3. induction fs as [|f fs IH]; intros s3 X; cbn [form_reset] in X; [now injection X as _ <-|].
    rewrite bind_run in X. destruct ((if selected tg f then field_delete f id else ret tt) s3) as [[u|x] s5] eqn:Y; [|discriminate].
    rewrite (IH _ X). destruct (selected tg f); [|now injection Y as _ <-].
    unfold field_delete, form_entries, bind, get, set_entries in Y. destruct (dict_has _ _); [|now injection Y as _ <-].
    destruct (nth_error (forms s3) id) as [[]|]; now injection Y as _ <-. }
  pose proof (stable_trans _ _ _ S3 S4) as S14. pose proof (stable_wf _ _ WF S14) as WF4.
  assert (T4 : exists l, nth_error (forms s4) id = Some (t, l)) by (destruct T as (l & T); exact (stable_forms _ _ S14 _ _ _ T)).
  rewrite bind_run in FM. destruct (ctx_get "src" s4) as [[c|x] s5] eqn:Y; [|discriminate]. apply ctx_get_state in Y. subst s5.
  cbn [is_anone andb] in FM. rewrite bind_run in FM.
  destruct (root_map W rec id (ASrc src) tg u Collect s4) as [[e5|x] s5] eqn:X5; [|discriminate].
  rewrite bind_run in FM. unfold errs_of, get in FM. destruct (nth_error (errs s5) e5) as [[m5 l5]|] eqn:N5; cbn in FM; [|].
  2:{ exfalso. revert N5 X5. unfold root_map. unfold bind at 1, form_type, get. destruct T4 as (l & T4). rewrite T4. rewrite bind_run. cbn [lift root_source].
      unfold bind at 1, new_errs. intros N5. rewrite bind_run. set (s6 := St _ _ _ _).
      assert (WF6 : wf s6) by now apply new_errs_wf.
      destruct (with_ctx W _ _ s6) as [[u7|x] s7] eqn:X7; [|discriminate]. intros Q. injection Q as <- <-.
      assert (S7 : stable s6 s7). { eapply good_stable; [|exact WF6|exact X7]. apply with_ctx_good; [reflexivity|now apply good_form__map]. }
      destruct (stable_errs _ _ S7 (length (errs s4)) Collect []) as (mo & Q).
      - cbn [s6 errs]. now rewrite nth_error_app2, Nat.sub_diag by lia.
      - congruence. }
  assert (E5 : l5 = es) by (destruct l5; injection FM; auto). subst l5. clear FM.
  unfold root_map in X5. unfold bind at 1, form_type, get in X5. destruct T4 as (l & T4). rewrite T4 in X5. rewrite bind_run in X5. cbn [lift root_source] in X5.
  unfold bind at 1, new_errs in X5. rewrite bind_run in X5. set (s6 := St _ _ _ _) in X5. set (k := length (errs s4)) in X5.
  assert (WF6 : wf s6) by now apply new_errs_wf. assert (T6 : typed id t s6) by (exists l; exact T4).
  pose proof (source_block W src k _ s6 WF6 (good_form__map W rec GREC id tg u) (loc_from_typed W id t s6 _ T6 (loct_form__map W rec GREC LREC id t tg u LT LU))) as B.
  cbv zeta in B. destruct (source_path (w_env W) (entries s6) src) as [p|x] eqn:SP; [|rewrite B in X5; discriminate].
  destruct (with_ctx W [("src", CSrc src); ("errors", CErrs k)] (form__map W rec id tg u) s6) as [[u7|x] s7]; [|discriminate].
  injection X5 as <- <-. cbn [snd] in B. destruct (B k Collect []) as (new & B1 & B2 & _).
  - cbn [s6 errs]. unfold k. now rewrite nth_error_app2, Nat.sub_diag by lia.
  - exists (entries s6), p. split; [exact SP|]. rewrite B1 in N5. injection N5 as _ <-. cbn [app]. cbn [s6 paths] in B2. now rewrite P4, P3 in B2.
Qed.

(** ** C26 *)
Lemma plain_place f p : plain_path p -> plain_path (place f p).
Proof. intros (q & ->). unfold place. destruct (own_key f); eexists; reflexivity. Qed.
Lemma shape_plain p q : pshape p = pshape q -> plain_path q -> plain_path p.
Proof. intros S (q' & ->). destruct p as [[p|u]|]; cbn in S; try discriminate. now exists p. Qed.
Lemma present_plain W s f p q : present_at W s f p q -> plain_path p -> plain_path q.
Proof. intros X P. eapply shape_plain; [exact (present_shape W f s p q X)|]. now apply plain_place. Qed.
Lemma converted_value E src ty v w : ty <> TyAuto -> psource_parse E src ty v = Ok w -> ignored w = false.
Proof.
  intros N H. destruct src as [| d [] loc|]; cbn [psource_parse] in H; destruct ty; try congruence;
    cbn [json_parse mixin_parse] in H; destruct v; cbn in H; try discriminate; try (injection H as <-; reflexivity);
    repeat match type of H with context [match ?x with _ => _ end] => destruct x; try discriminate end; injection H as <-; reflexivity.
Qed.
Lemma converted_no_marker W s f p : plain_path p -> converted (f_kind f) -> no_marker W s f p.
Proof.
  intros P C ty q q' v T X R. destruct (present_plain _ _ _ _ _ X P) as (b & ->). cbn in R.
  unfold pp_primitive in R. destruct (pp_value (w_env W) (entries s) b) as [b' r]. injection R as _ R. destruct r as [x|]; [|discriminate].
  eapply converted_value; [|exact R]. destruct (f_kind f); cbn in T; try discriminate; injection T as <-; try discriminate; contradiction.
Qed.
Lemma converted_no_fallback W s f p : converted (f_kind f) -> no_fallback W s f p.
Proof. intros C g lo hi K. rewrite K in C. discriminate. Qed.

Lemma C26_field W n f s eid m es pid p igd igm v s' :
  mapping W s eid m es pid p igd igm -> plain_steps f -> fair_default f -> fair_translations f ->
  no_marker W s f p -> honest_env (w_env W) -> src_set s f -> no_fallback W s f p ->
  field_map W (S n) f NONEv s = (Ok v, s') -> ignored v = true ->
  (exists new, new <> [] /\ nth_error (errs s') eid = Some (m, es ++ new)) \/
  (v = NOTSETv /\ igm = true) \/ (v = NONEv /\ o_default (f_opts f) = DVal NONEv /\ igd = false).
Proof. intros MP PS FD FT NM HE SS NF. exact (field_drop W n f s eid m es pid p igd igm MP PS FD FT NM HE SS NF v s'). Qed.
Lemma C26_plain W n f s eid m es pid p igd igm v s' :
  mapping W s eid m es pid p igd igm -> plain_steps f -> fair_default f -> fair_translations f ->
  converted (f_kind f) -> plain_path p -> honest_env (w_env W) -> own_key f <> None ->
  (forall k, own_key f = Some k -> k <> KRaw VNone) ->
  field_map W (S n) f NONEv s = (Ok v, s') -> ignored v = true ->
  (exists new, new <> [] /\ nth_error (errs s') eid = Some (m, es ++ new)) \/
  (v = NOTSETv /\ igm = true) \/ (v = NONEv /\ o_default (f_opts f) = DVal NONEv /\ igd = false).
Proof.
  intros MP PS FD FT C P HE O K. eapply C26_field; eauto using converted_no_marker, converted_no_fallback.
  unfold src_set. destruct (own_key f) as [k|]; [|congruence]. eexists. split; [reflexivity|].
  specialize (K k eq_refl). destruct k as [| |[]]; try reflexivity. congruence.
Qed.

(** ** C31: the errors of the items, one block per index *)
Lemma restore_reach_len {A} W kw (body : M A) s s1 r s2 r3 s3 : reach W s -> block kw -> push W kw s = (Ok tt, s1) -> body s1 = (r, s2) -> reach W s2 ->
  (1 < length (stk s2))%nat -> restore W s2 = (r3, s3) -> reach W (snd (with_ctx W kw body s)).
Proof.
  intros R B P X R2 L Q. unfold with_ctx, closing. rewrite P, X. pose proof (reach_close W s2 R2 L) as H. rewrite Q in *.
  destruct r3; exact H.
Qed.
Section Items.
Variables (W : world) (n : nat) (g : field) (eid : nat) (m : mode) (pid : nat) (igd igm : bool).
Hypothesis LG : local g.
Hypothesis PS : plain_steps g.
Hypothesis FD : fair_default g.
Hypothesis FT : fair_translations g.
Hypothesis CV : converted (f_kind g).
Hypothesis HE : honest_env (w_env W).
Hypothesis NR : own_key g <> Some (KRaw VNone).
Lemma reach_stk s : reach W s -> stk s <> [].
Proof. intros R. pose proof (wf_stk _ (reach_wf _ _ R)) as H. destruct (stk s); [contradiction H|discriminate]. Qed.
Lemma item_run k s es p v s' : (forall x, k <> KRaw x) ->
  mapping W s eid m es pid p igd igm -> plain_path p ->
  with_ctx W [("src", CKey k)] (field_map W (S n) g NONEv) s = (Ok v, s') ->
  exists p' new, mapping W s' eid m (es ++ new) pid p' igd igm /\ pshape p' = pshape p /\
    Forall (located W pid (p_append k p)) new /\
    (ignored v = true -> new <> [] \/ (v = NOTSETv /\ igm = true) \/ (v = NONEv /\ o_default (f_opts g) = DVal NONEv /\ igd = false)).
Proof.
  intros NK MP P R. pose proof MP as [RE A1 A2 A3 A4 A5 A6]. pose proof (reach_wf _ _ RE) as WF.
  assert (G : good (field_map W (S n) g NONEv)) by apply good_field_map.
  pose proof (block_key W [("src", CKey k)] k (field_map W (S n) g NONEv) s pid p WF G eq_refl eq_refl A3 A4) as BK. cbv zeta in BK.
  match type of BK with wf ?x /\ _ => set (s1 := x) in * end. destruct BK as (W1 & s2 & B1 & B2 & B3 & B4).
  assert (PU : push W [("src", CKey k)] s = (Ok tt, s1)).
  { unfold push. cbn [alookup]. cbn. unfold cur_path, ctx_get, ctx_get_opt, bind, get. rewrite A3. cbn [ret]. unfold on_path. rewrite A4. reflexivity. }
  assert (R1 : reach W s1) by (eapply reach_open; [exact RE| |exact PU]; reflexivity).
  assert (MP1 : mapping W s1 eid m es pid (p_append k p) igd igm).
  { split; auto. cbn [s1 paths]. apply nth_replace_eq. apply nth_error_Some. congruence. }
  rewrite B1 in R. destruct (field_map W (S n) g NONEv s1) as [r s3] eqn:F. cbn [fst snd] in *. injection R as -> ->.
  pose proof (good_stable _ _ _ _ G W1 F) as ST.
  pose proof (C69_field W (S n) g NONEv s1 pid (p_append k p) R1 LG (mp_pid _ _ _ _ _ _ _ _ _ MP1) (mp_path _ _ _ _ _ _ _ _ _ MP1)) as L.
  rewrite F in L. cbn [snd] in L. destruct (L eid m es A2) as (new & L1 & L2 & _).
  assert (ST' : stable s s').
  { eapply good_stable; [|exact WF|exact B1]. apply with_ctx_good; [reflexivity|exact G]. }
  destruct (stable_path _ _ _ _ ST' A4) as (p' & P1 & P2). exists p', new. split; [|split; [exact P2|split; [exact L2|]]].
  - split.
    + replace s' with (snd (with_ctx W [("src", CKey k)] (field_map W (S n) g NONEv) s)) by now rewrite B1.
      destruct (restore W s3) as [r4 s4] eqn:Q.
      eapply restore_reach_len; [exact RE|reflexivity|exact PU|exact F| | |exact Q].
      * replace s3 with (snd (field_map W (S n) g NONEv s1)) by now rewrite F. now apply reach_field.
      * rewrite (stable_stk _ _ ST). cbn [s1 stk length]. pose proof (reach_stk s RE). destruct (stk s); [congruence|cbn; lia].
    + now rewrite B2.
    + now rewrite B4.
    + now rewrite B2.
    + exact P1.
    + rewrite B2. exact A5.
    + rewrite B2. exact A6.
  - intros I. assert (PP : plain_path (p_append k p)) by (destruct P as (q & ->); eexists; reflexivity).
    destruct (C26_field W n g s1 eid m es pid (p_append k p) igd igm v s3 MP1 PS FD FT (converted_no_marker _ _ _ _ PP CV) HE) as [(nw & N1 & N2)|D]; auto.
    + unfold src_set. destruct (own_key g) as [k'|] eqn:OK.
      * exists (CKey k'). split; [reflexivity|]. destruct k' as [| |[]]; try reflexivity. congruence.
      * exists (CKey k). split; [reflexivity|]. destruct k as [| |x]; try reflexivity. destruct (NK x eq_refl).
    + now apply converted_no_fallback.
    + left. rewrite L1 in N2. injection N2 as N2. apply app_inv_head in N2. congruence.
Qed.
Lemma p_append_plain_shape k p q : pshape p = pshape q -> pshape (p_append k p) = pshape (p_append k q).
Proof. intros S. now rewrite !p_append_shape, S. Qed.
Lemma accounted_shape p q keys vs news : pshape p = pshape q -> accounted W g pid p igd igm keys vs news -> accounted W g pid q igd igm keys vs news.
Proof.
  intros S. induction 1 as [|k keys v vs new news F D A IH]; constructor; auto.
  eapply Forall_impl; [|exact F]. intros e. apply located_shape. now apply p_append_plain_shape.
Qed.
Lemma items_run l : forall s es p vs s2, (forall k h, In (k, h) l -> h = g /\ forall x, k <> KRaw x) ->
  mapping W s eid m es pid p igd igm -> plain_path p -> items W (S n) l s vs s2 ->
  exists p' news, mapping W s2 eid m (es ++ concat news) pid p' igd igm /\ accounted W g pid p igd igm (map fst l) vs news.
Proof.
  induction l as [|[k h] l IH]; intros s es p vs s2 HL MP P IT; inversion IT as [|k' h' l' s' v1 s1 vs0 s2' WC IT']; subst.
  - exists p, []. cbn [concat]. rewrite app_nil_r. split; [exact MP|constructor].
  - destruct (HL k h (or_introl eq_refl)) as [-> NK].
    destruct (item_run k s es p _ _ NK MP P WC) as (p1 & new & M1 & S1 & F1 & D1).
    destruct (IH s1 (es ++ new) p1 vs0 s2) as (p2 & news & M2 & A2); auto.
    + intros k' h' I. apply HL. now right.
    + now apply (shape_plain p1 p).
    + exists p2, (new :: news). cbn [concat map fst]. rewrite app_assoc. split; [exact M2|]. constructor; auto.
      now apply (accounted_shape p1 p).
Qed.
End Items.

Lemma reach_pathop W s op : reach W s -> reach W (snd (run_pathop W op s)).
Proof.
  intros R. pose proof (reach_run W 0 (PPath op (fun _ => PRet VNone)) s R) as H. cbn [run] in H. unfold catch in H.
  destruct (run_pathop W op s) as [r s'] eqn:E. cbn [snd] in *. exact H.
Qed.
Lemma within_mapping W f s eid m es pid p igd igm len q : mapping W s eid m es pid p igd igm -> plain_steps f ->
  sequence_at W s f p len q -> mapping W (within f s pid q) eid m es pid q igd igm.
Proof.
  intros MP PF (q2 & (q1 & X1 & X2) & X3). pose proof MP as [RE A1 A2 A3 A4 A5 A6].
  change (within f s pid q) with (after_read f NONEv s pid p q).
  assert (LK : forall k, k <> "src" -> k <> "field" -> k <> "parent" -> lookup k (stk (after_read f NONEv s pid p q)) = lookup k (stk s)) by (intros; now apply ar_lookup).
  split; try (rewrite LK by discriminate; assumption); [|exact A2|exact (ar_path W f NONEv s eid m es pid p igd igm MP q)].
  assert (R0 : reach W (after_read f NONEv s pid p (place f p))).
  { set (s1 := St ([("field", CField f); ("parent", CField f)] :: stk s) (forms s) (paths s) (errs s)).
    assert (R1 : reach W s1) by (eapply (reach_open W [("field", CField f); ("parent", CField f)] s s1); [exact RE|reflexivity|reflexivity]).
    unfold after_read, entered, place, step_key. change (is_NONE NONEv) with true. cbv beta iota.
    destruct (own_key f) as [k|].
    - eapply (reach_open W [("src", CKey k)] s1); [exact R1|reflexivity|]. unfold push. cbn [alookup]. cbn.
      unfold cur_path, ctx_get, ctx_get_opt, bind, get. cbn. rewrite A3. cbn [ret]. unfold on_path. cbn [s1 paths]. rewrite A4. reflexivity.
    - cbn [app key_frames stk]. rewrite replace_same by exact A4. exact R1. }
  assert (ST : forall A (op : env -> entries_of -> path -> path * res A) o q q' r, reach W (after_read f NONEv s pid p q) -> op (w_env W) (entries s) q = (q', r) ->
     (forall z, snd (run_pathop W o z) = snd ((pid <- cur_path; on_path W pid op) z)) -> reach W (after_read f NONEv s pid p q')).
  { intros A op o a a' r Ra X H. pose proof (reach_pathop W _ o Ra) as H'. rewrite H in H'. rewrite bind_run in H'.
    rewrite (ar_cur W f NONEv s eid m es pid p igd igm MP) in H'. rewrite (ar_on W f NONEv s eid m es pid p igd igm MP op a a' r X) in H'. exact H'. }
  pose proof (ST _ p_exists OpExists _ _ _ R0 X1) as R1.
  assert (R1' : reach W (after_read f NONEv s pid p q1)).
  { apply R1. intros z. unfold run_pathop, path_exists. rewrite !bind_run. destruct (cur_path z) as [[c|e] z1]; [|reflexivity]. rewrite bind_run. destruct (on_path W c p_exists z1) as [[]]; reflexivity. }
  pose proof (ST _ p_is_null OpIsNull _ _ _ R1' X2) as R2.
  assert (R2' : reach W (after_read f NONEv s pid p q2)).
  { apply R2. intros z. unfold run_pathop, path_is_null. rewrite !bind_run. destruct (cur_path z) as [[c|e] z1]; [|reflexivity]. rewrite bind_run. destruct (on_path W c p_is_null z1) as [[]]; reflexivity. }
  apply (ST _ p_sequence OpSequence _ _ _ R2' X3).
  intros z. unfold run_pathop, path_sequence. rewrite !bind_run. destruct (cur_path z) as [[c|e] z1]; [|reflexivity]. rewrite bind_run. destruct (on_path W c p_sequence z1) as [[]]; reflexivity.
Qed.

Lemma C31_items W n f g lo hi s eid m es pid p igd igm len q vs s1 :
  mapping W s eid m es pid p igd igm -> plain_path p -> plain_steps f -> f_kind f = KList g lo hi false ->
  local g -> plain_steps g -> fair_default g -> fair_translations g -> converted (f_kind g) ->
  honest_env (w_env W) -> own_key g <> Some (KRaw VNone) ->
  sequence_at W s f p len q -> items W (S n) (indexed len g) (within f s pid q) vs s1 ->
  exists news, nth_error (errs s1) eid = Some (m, es ++ concat news) /\
    accounted W g pid (place f p) igd igm (map (fun i => KInt (Z.of_nat i)) (seq 0 len)) vs news.
Proof.
  intros MP P PF KF LG PG FD FT CV HE NR SQ IT. pose proof SQ as (q2 & X & Y).
  pose proof (preads_sequence (w_env W) (entries s) q2) as SH. rewrite Y in SH. cbn [fst] in SH.
  assert (S2 : pshape q = pshape (place f p)) by (rewrite SH; exact (present_shape W f s p q2 X)).
  assert (MW : mapping W (within f s pid q) eid m es pid q igd igm).
  { now apply (within_mapping W f s eid m es pid p igd igm len q). }
  destruct (items_run W n g eid m pid igd igm LG PG FD FT CV HE NR (indexed len g) (within f s pid q) es q vs s1) as (p' & news & M' & A); auto.
  - intros k h I. unfold indexed in I. apply in_map_iff in I. destruct I as (i & E & _). injection E as <- <-. split; [reflexivity|discriminate].
  - eapply shape_plain; [exact S2|]. now apply plain_place.
  - exists news. split; [exact (mp_errs _ _ _ _ _ _ _ _ _ M')|].
    apply (accounted_shape W g pid igd igm q (place f p)) in A; [|exact S2]. unfold indexed in A. rewrite map_map in A. exact A.
Qed.
