(** * FormProofs: the loop of [Form.map] (C37, C39, C43, C44). *)
From Verif Require Import PyBase PyStr Source Field Context Fields SpecCtx SpecField SpecBox SpecLocal SpecForm Shape Reads Balance CtxProofs Run FieldProofs FieldLemmas BoxProofs LocalProofs StillProofs DropProofs.
From Coq Require Import Lia.

(** ** Tags *)
Lemma selected_chosen tags f : selected tags f = true <-> chosen tags f.
Proof.
  unfold selected, chosen. destruct tags as [|t tags]; [split; [now left|reflexivity]|]. unfold has_tag. rewrite existsb_exists. split.
  - intros (x & I & H). right. exists x. split; [exact I|]. apply existsb_exists in H. destruct H as (y & J & E). apply String.eqb_eq in E. now subst.
  - intros [H|(x & I & J)]; [discriminate|]. exists x. split; [exact I|]. apply existsb_exists. exists x. split; [exact J|apply String.eqb_refl].
Qed.
Lemma choice_filter tags fs : choice tags fs (filter (selected tags) fs).
Proof.
  induction fs as [|f fs IH]; cbn [filter]; [constructor|]. destruct (selected tags f) eqn:S.
  - constructor; [now apply selected_chosen|exact IH].
  - constructor; [rewrite <- selected_chosen; congruence|exact IH].
Qed.
Lemma choice_is tags fs gs : choice tags fs gs -> gs = filter (selected tags) fs.
Proof.
  induction 1 as [|f fs gs C H IH|f fs gs C H IH]; cbn [filter]; [reflexivity| |].
  - apply selected_chosen in C. now rewrite C, IH.
  - destruct (selected tags f) eqn:S; [apply selected_chosen in S; contradiction|exact IH].
Qed.
Lemma texts_some l ts : texts_of l = Some ts <-> l = map VStr ts.
Proof.
  split.
  - revert ts. induction l as [|v l IH]; cbn [texts_of]; [now intros ts [= <-]|]. destruct v; try discriminate.
    intros ts. destruct (texts_of l) as [us|]; [|discriminate]. intros [= <-]. cbn [map]. now rewrite (IH us eq_refl).
  - intros ->. induction ts as [|x ts IH]; [reflexivity|]. cbn [map texts_of]. now rewrite IH.
Qed.
Lemma effective_run tags s : exists tg, effective_tags tags s = (Ok tg, s) /\ in_force s tags tg.
Proof.
  unfold effective_tags, in_force. destruct tags as [|t tags].
  - exists (tags_of (lookup "tags" (stk s))). split; [reflexivity|]. right. split; [reflexivity|].
    destruct (lookup "tags" (stk s)) as [[]|]; try reflexivity. destruct v; try reflexivity. cbn [tags_of].
    destruct (texts_of l) as [ts|] eqn:T; [left; now apply texts_some|]. right. split; [|reflexivity].
    intros ts X. apply texts_some in X. congruence.
  - exists (t :: tags). split; [reflexivity|]. left. split; [discriminate|reflexivity].
Qed.
Lemma in_force_fun s tags a b : in_force s tags a -> in_force s tags b -> a = b.
Proof.
  intros [[N ->]|[-> A]] [[M ->]|[E B]]; try reflexivity; try congruence. destruct (lookup "tags" (stk s)) as [[]|]; try congruence.
  destruct v; try congruence. destruct A as [A|[A ->]], B as [B|[B ->]]; try reflexivity; try (exfalso; eapply A, B); try (exfalso; eapply B, A).
  apply texts_some in A, B. congruence.
Qed.

(** ** Dictionaries keyed by strings *)
Lemma xnum_str a : xnum_of (VStr a) = None.
Proof. reflexivity. Qed.
Lemma py_eq_str k a : py_eq k (VStr a) = true <-> k = VStr a.
Proof.
  destruct k; cbn [py_eq]; rewrite ?xnum_str;
    try (split; [|discriminate]; match goal with |- context [match ?x with _ => _ end] => destruct x end; discriminate);
    try (split; discriminate).
  rewrite String.eqb_eq. split; [now intros ->|now intros [= ->]].
Qed.
Lemma str_py_eq k a : py_eq (VStr a) k = true <-> k = VStr a.
Proof.
  destruct k; cbn [py_eq]; rewrite ?xnum_str; try (split; discriminate).
  rewrite String.eqb_eq. split; [now intros ->|now intros [= ->]].
Qed.
Lemma dict_get_set l a v k : dict_get (dict_set l (VStr a) v) k = if py_eq (VStr a) k then Some v else dict_get l k.
Proof.
  induction l as [|[k' v'] l IH]; unfold dict_get in *; cbn [dict_set find fst option_map snd].
  - now destruct (py_eq (VStr a) k).
  - destruct (py_eq k' (VStr a)) eqn:Q; cbn [find fst].
    + apply py_eq_str in Q. subst k'. now destruct (py_eq (VStr a) k).
    + destruct (py_eq k' k) eqn:R; cbn [option_map snd].
      * destruct (py_eq (VStr a) k) eqn:S; [|reflexivity]. apply str_py_eq in S. subst k. congruence.
      * exact IH.
Qed.

(** ** Resetting *)
Lemma filter_none {A} (p : A -> bool) l : existsb p l = false -> filter (fun x => negb (p x)) l = l.
Proof.
  induction l as [|a l IH]; intros H; [reflexivity|]. cbn [existsb filter] in *. apply orb_false_iff in H. destruct H as [H1 H2].
  rewrite H1. cbn [negb]. now rewrite IH.
Qed.
Lemma field_delete_run f id s t l : nth_error (forms s) id = Some (t, l) ->
  exists s', field_delete f id s = (Ok tt, s') /\ stk s' = stk s /\ paths s' = paths s /\ errs s' = errs s /\
    (forall i, i <> id -> nth_error (forms s') i = nth_error (forms s) i) /\
    nth_error (forms s') id = Some (t, filter (fun kv => negb (py_eq (fst kv) (VStr (fname f)))) l).
Proof.
  intros N. unfold field_delete, form_entries, bind, get, entries. rewrite N. destruct (dict_has l (VStr (fname f))) eqn:H.
  - unfold set_entries. rewrite N. eexists. split; [reflexivity|]. cbn [stk paths errs forms]. repeat (split; [reflexivity|]). split.
    + intros i D. apply nth_replace_neq. congruence.
    + apply nth_replace_eq. apply nth_error_Some. congruence.
  - eexists. split; [reflexivity|]. repeat (split; [reflexivity|]). rewrite N. do 2 f_equal. symmetry.
    exact (filter_none (fun kv => py_eq (fst kv) (VStr (fname f))) l H).
Qed.
Lemma named_cons g gs k : named (g :: gs) k = py_eq k (VStr (fname g)) || named gs k.
Proof.
  destruct (py_eq k (VStr (fname g))) eqn:Q; cbn [orb].
  - apply py_eq_str in Q. subst k. cbn [named existsb]. now rewrite String.eqb_refl.
  - destruct k; try reflexivity. cbn [named existsb]. cbn [py_eq] in Q. now rewrite Q.
Qed.
Lemma without_cons g gs l : without gs (filter (fun kv => negb (py_eq (fst kv) (VStr (fname g)))) l) = without (g :: gs) l.
Proof.
  unfold without. induction l as [|kv l IH]; [reflexivity|]. cbn [filter]. rewrite named_cons, negb_orb.
  destruct (py_eq (fst kv) (VStr (fname g))); cbn [negb andb filter]; [exact IH|]. now rewrite IH.
Qed.
Lemma form_reset_run id tg fs : forall s t l, nth_error (forms s) id = Some (t, l) ->
  exists s', form_reset id tg fs s = (Ok tt, s') /\ stk s' = stk s /\ paths s' = paths s /\ errs s' = errs s /\
    (forall i, i <> id -> nth_error (forms s') i = nth_error (forms s) i) /\
    nth_error (forms s') id = Some (t, without (filter (selected tg) fs) l).
Proof.
  induction fs as [|f fs IH]; intros s t l N; cbn [form_reset filter].
  - exists s. repeat (split; [reflexivity|]). rewrite N. unfold without. do 2 f_equal. symmetry. apply (filter_none (fun kv => named [] (fst kv))).
    clear. induction l as [|[k v] l IH]; [reflexivity|]. cbn [existsb fst]. now destruct k.
  - rewrite bind_run. destruct (selected tg f).
    + destruct (field_delete_run f id s t l N) as (s1 & R & A1 & A2 & A3 & A4 & A5). rewrite R.
      destruct (IH s1 t _ A5) as (s2 & R2 & B1 & B2 & B3 & B4 & B5). exists s2. rewrite R2.
      split; [reflexivity|]. split; [congruence|]. split; [congruence|]. split; [congruence|]. split.
      * intros i D. rewrite B4, A4; auto.
      * now rewrite B5, without_cons.
    + rewrite ret_run. apply IH. exact N.
Qed.

(** ** The loop *)
Lemma form_set_run id k v s t l : nth_error (forms s) id = Some (t, l) ->
  form_set id k v s = (Ok tt, St (stk s) (replace_nth id (t, dict_set l k v) (forms s)) (paths s) (errs s)).
Proof. intros N. unfold form_set, form_entries, bind, get, entries, set_entries. now rewrite N. Qed.
Lemma form_set_stored id f v s : form_set id (VStr (fname f)) v s = (Ok tt, stored id f v s).
Proof.
  unfold form_set, form_entries, bind, get, entries, set_entries, stored. destruct (nth_error (forms s) id) as [[t l]|]; reflexivity.
Qed.
Section Loop.
Variables (W : world) (n id eid : nat).
Lemma stored_errs f v s : errs (stored id f v s) = errs s.
Proof. unfold stored. now destruct (nth_error (forms s) id) as [[]|]. Qed.
Lemma stored_stable f v s : stable s (stored id f v s).
Proof.
  unfold stored. destruct (nth_error (forms s) id) as [[t l]|] eqn:N; [|apply stable_refl].
  split; cbn [stk forms errs]; [reflexivity| | |].
  - exists []. rewrite app_nil_r. auto.
  - intros i t' l' H. destruct (Nat.eq_dec id i) as [<-|D].
    + rewrite nth_replace_eq by (apply nth_error_Some; congruence). rewrite N in H. injection H as <- <-. eauto.
    + rewrite nth_replace_neq by exact D. eauto.
  - intros i m es H. exists []. now rewrite app_nil_r.
Qed.
Lemma loop_ok tg : forall fs s vs news s2, maps W n id eid (filter (selected tg) fs) s vs news s2 ->
  map_fields (field_map W n) id tg fs s = (Ok tt, s2).
Proof.
  induction fs as [|f fs IH]; intros s vs news s2 H; cbn [filter map_fields] in *; [inversion H; subst; reflexivity|].
  rewrite bind_run. destruct (selected tg f).
  - inversion H as [|? ? ? v s1 m es new vs' news' ? R N1 N2 M]; subst. rewrite bind_run. change (VConst NONE) with NONEv. rewrite R.
    destruct (ignored v); [rewrite ret_run|rewrite form_set_stored]; eapply IH; exact M.
  - rewrite ret_run. eapply IH; exact H.
Qed.
Lemma loop_raises tg : forall fs s x s2, maps_raise W n id eid (filter (selected tg) fs) s x s2 ->
  map_fields (field_map W n) id tg fs s = (Exn x, s2).
Proof.
  induction fs as [|f fs IH]; intros s x s2 H; cbn [filter map_fields] in *; [inversion H|].
  rewrite bind_run. destruct (selected tg f).
  - rewrite bind_run. change (VConst NONE) with NONEv. inversion H as [? ? ? ? ? R|? ? ? v s1 ? ? R M]; subst; rewrite R; [reflexivity|].
    destruct (ignored v); [rewrite ret_run|rewrite form_set_stored]; eapply IH; exact M.
  - rewrite ret_run. eapply IH; exact H.
Qed.
Lemma loop_inv tg : forall fs s s2 m es, wf s -> nth_error (errs s) eid = Some (m, es) ->
  map_fields (field_map W n) id tg fs s = (Ok tt, s2) ->
  exists vs news, maps W n id eid (filter (selected tg) fs) s vs news s2 /\ nth_error (errs s2) eid = Some (m, es ++ concat news).
Proof.
  induction fs as [|f fs IH]; intros s s2 m es WF N R; cbn [filter map_fields] in *.
  - injection R as <-. exists [], []. split; [constructor|]. cbn [concat]. now rewrite app_nil_r.
  - rewrite bind_run in R. destruct (selected tg f).
    + rewrite bind_run in R. change (VConst NONE) with NONEv in R. destruct (field_map W n f NONEv s) as [[v|x] s1] eqn:F; [|discriminate].
      pose proof (good_stable _ _ _ _ (good_field_map W n f NONEv) WF F) as S1. destruct (stable_errs _ _ S1 _ _ _ N) as (new & N1).
      set (s1' := if ignored v then s1 else stored id f v s1).
      assert (R' : map_fields (field_map W n) id tg fs s1' = (Ok tt, s2)).
      { unfold s1'. destruct (ignored v); [rewrite ret_run in R|rewrite form_set_stored in R]; exact R. }
      assert (WF' : wf s1').
      { unfold s1'. destruct (ignored v); [eapply stable_wf; eauto|]. eapply stable_wf; [|apply stored_stable]. eapply stable_wf; eauto. }
      assert (N' : nth_error (errs s1') eid = Some (m, es ++ new)).
      { unfold s1'. destruct (ignored v); [exact N1|]. now rewrite stored_errs. }
      destruct (IH s1' s2 m (es ++ new) WF' N' R') as (vs & news & M & N2). exists (v :: vs), (new :: news). split.
      * econstructor; eauto.
      * cbn [concat]. now rewrite app_assoc.
    + rewrite ret_run in R. now apply (IH s s2 m es).
Qed.
Lemma maps_errs gs : forall s vs news s2 m es, maps W n id eid gs s vs news s2 -> nth_error (errs s) eid = Some (m, es) ->
  nth_error (errs s2) eid = Some (m, es ++ concat news).
Proof.
  induction gs as [|g gs IH]; intros s vs news s2 m es H N; inversion H as [|? ? ? v s1 m1 es1 new vs' news' ? R N1 N2 M]; subst.
  - cbn [concat]. now rewrite app_nil_r.
  - rewrite N in N1. injection N1 as <- <-. cbn [concat]. rewrite app_assoc.
    apply (IH _ _ _ _ m (es ++ new) M). destruct (ignored v); [exact N2|]. now rewrite stored_errs.
Qed.
Lemma maps_stable gs : forall s vs news s2, wf s -> maps W n id eid gs s vs news s2 -> stable s s2.
Proof.
  induction gs as [|g gs IH]; intros s vs news s2 WF H; inversion H as [|? ? ? v s1 m1 es1 new vs' news' ? R N1 N2 M]; subst; [apply stable_refl|].
  pose proof (good_stable _ _ _ _ (good_field_map W n g NONEv) WF R) as S1.
  assert (S2 : stable s (if ignored v then s1 else stored id g v s1)).
  { destruct (ignored v); [exact S1|]. eapply stable_trans; [exact S1|apply stored_stable]. }
  eapply stable_trans; [exact S2|]. eapply IH; [|exact M]. eapply stable_wf; eauto.
Qed.
(** Entries. *)
Lemma stored_entries f v s t l : nth_error (forms s) id = Some (t, l) -> nth_error (forms (stored id f v s)) id = Some (t, dict_set l (VStr (fname f)) v).
Proof.
  intros N. unfold stored. rewrite N. cbn [forms]. apply nth_replace_eq. apply nth_error_Some. congruence.
Qed.
Lemma stored_other f v s i : i <> id -> nth_error (forms (stored id f v s)) i = nth_error (forms s) i.
Proof. intros D. unfold stored. destruct (nth_error (forms s) id) as [[t l]|]; [|reflexivity]. cbn [forms]. apply nth_replace_neq. congruence. Qed.
Lemma maps_entries C (SC : still_classes C W) gs : (forall g, In g gs -> still C g) -> forall s vs news s2 t l, maps W n id eid gs s vs news s2 ->
  nth_error (forms s) id = Some (t, l) ->
  nth_error (forms s2) id = Some (t, assigned gs vs l) /\
  forall i x, i <> id -> nth_error (forms s) i = Some x -> nth_error (forms s2) i = Some x.
Proof.
  induction gs as [|g gs IH]; intros HS s vs news s2 t l H N; inversion H as [|? ? ? v s1 m1 es1 new vs' news' ? R N1 N2 M]; subst; [split; [exact N|auto]|].
  pose proof (kb_field_map W C n SC g NONEv (HS g (or_introl eq_refl)) s) as K. rewrite R in K. cbn [snd] in K. destruct K as [_ K].
  assert (KE : forall i x, nth_error (forms s) i = Some x -> nth_error (forms s1) i = Some x).
  { intros i x Q. destruct (K i x Q) as (x' & Q' & _ & E). rewrite Q'. f_equal. apply E. discriminate. }
  pose proof (KE _ _ N) as N3. set (s1' := if ignored v then s1 else stored id g v s1) in *.
  assert (N4 : nth_error (forms s1') id = Some (t, if ignored v then l else dict_set l (VStr (fname g)) v)).
  { unfold s1'. destruct (ignored v); [exact N3|]. now apply stored_entries. }
  destruct (IH (fun g' I => HS g' (or_intror I)) s1' vs' news' s2 t _ M N4) as [A B]. split; [exact A|].
  intros i x D Q. apply B; [exact D|]. unfold s1'. destruct (ignored v); [|rewrite stored_other by exact D]; now apply KE.
Qed.
End Loop.
Lemma assigned_get : forall gs vs l k,
  dict_get (assigned gs vs l) k = match k with VStr a => latest gs vs a (dict_get l k) | _ => dict_get l k end.
Proof.
  induction gs as [|g gs IH]; intros vs l k; [now destruct k|]. destruct vs as [|v vs]; [now destruct k|].
  cbn [assigned latest]. rewrite IH. destruct (ignored v); [now destruct k|]. rewrite dict_get_set. destruct k; try reflexivity.
Qed.
Lemma latest_out : forall gs vs a d, (forall g, In g gs -> fname g <> a) -> latest gs vs a d = d.
Proof.
  induction gs as [|g gs IH]; intros vs a d H; [reflexivity|]. destruct vs as [|v vs]; [reflexivity|]. cbn [latest].
  rewrite IH by (intros; apply H; now right). destruct (ignored v); [reflexivity|].
  destruct (String.eqb (fname g) a) eqn:Q; [|reflexivity]. apply String.eqb_eq in Q. exfalso. apply (H g); [now left|exact Q].
Qed.
Lemma named_in gs k : named gs k = true <-> exists g, In g gs /\ k = VStr (fname g).
Proof.
  unfold named. destruct k; try (split; [discriminate|intros (g & _ & H); discriminate]). rewrite existsb_exists. split.
  - intros (g & I & H). apply String.eqb_eq in H. subst. eauto.
  - intros (g & I & H). injection H as ->. exists g. split; [exact I|apply String.eqb_refl].
Qed.
Lemma without_get gs l k : dict_get (without gs l) k = if named gs k then None else dict_get l k.
Proof.
  unfold without, dict_get. induction l as [|[k' v] l IH]; cbn [filter find fst option_map].
  - now destruct (named gs k).
  - destruct (named gs k') eqn:A; cbn [negb filter find fst].
    + rewrite IH. destruct (named gs k) eqn:B; [reflexivity|]. apply named_in in A. destruct A as (g & I & ->).
      destruct (py_eq (VStr (fname g)) k) eqn:Q; [|reflexivity]. apply str_py_eq in Q. subst k.
      assert (X : named gs (VStr (fname g)) = true) by (apply named_in; eauto). congruence.
    + destruct (py_eq k' k) eqn:Q; [|exact IH]. destruct (named gs k) eqn:B; [|reflexivity].
      apply named_in in B. destruct B as (g & I & ->). apply py_eq_str in Q. subst k'.
      assert (X : named gs (VStr (fname g)) = true) by (apply named_in; eauto). congruence.
Qed.
