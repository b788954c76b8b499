(** * Proofs about form objects: attributes, copies, construction, [has]. *)
From Coq Require Import Lia.
From Verif Require Import PyBase PyStr Source Field Context Fields Forms SpecForms Balance FormProofs.

(** ** Attributes *)
Lemma find_named a t f : In f (ft_fields t) -> f_name f = Some a ->
  exists g, find_field a t = Some g /\ fname g = a.
Proof.
  intros I N. unfold find_field. destruct (find (name_is a) (ft_fields t)) as [g|] eqn:Q.
  - exists g. split; [reflexivity|]. apply find_some in Q. destruct Q as [_ Q]. unfold name_is in Q. unfold fname.
    destruct (f_name g); [|discriminate]. now apply String.eqb_eq in Q.
  - exfalso. apply find_none with (x := f) in Q; [|exact I]. unfold name_is in Q. rewrite N, String.eqb_refl in Q. discriminate.
Qed.
Lemma is_key_py a k : is_key a k = py_eq (VStr a) k.
Proof.
  destruct (py_eq (VStr a) k) eqn:Q.
  - apply str_py_eq in Q. subst k. apply String.eqb_refl.
  - destruct k; try reflexivity. cbn [is_key]. destruct (String.eqb a s) eqn:R; [|reflexivity]. apply String.eqb_eq in R. subst s.
    exfalso. assert (py_eq (VStr a) (VStr a) = true) by now apply str_py_eq. congruence.
Qed.
Lemma dict_get_del l a k : dict_get (dict_del l (VStr a)) k = if is_key a k then None else dict_get l k.
Proof.
  rewrite is_key_py. unfold dict_del, dict_get. induction l as [|[k' v'] l IH]; cbn [filter find fst].
  - now destruct (py_eq (VStr a) k).
  - destruct (py_eq k' (VStr a)) eqn:Q; cbn [negb].
    + rewrite IH. destruct (py_eq (VStr a) k) eqn:R; [reflexivity|]. apply py_eq_str in Q. subst k'. now rewrite R.
    + cbn [find fst]. destruct (py_eq k' k) eqn:R; [|exact IH]. cbn [option_map snd].
      destruct (py_eq (VStr a) k) eqn:S; [|reflexivity]. apply str_py_eq in S. subst k. congruence.
Qed.

(** [hset s i l]: the state after the entries of [i] become [l]. *)
Definition hset (s : st) (i : nat) (t : formty) (l : list (val * val)) : st :=
  St (stk s) (replace_nth i (t, l) (forms s)) (paths s) (errs s).
Lemma entries_at s i t l : nth_error (forms s) i = Some (t, l) -> entries s i = l.
Proof. unfold entries. now intros ->. Qed.
Lemma hset_at s i t l t0 l0 : nth_error (forms s) i = Some (t0, l0) -> nth_error (forms (hset s i t l)) i = Some (t, l).
Proof. intros N. apply nth_replace_eq. apply nth_error_Some. congruence. Qed.
Lemma hset_other s i j t l : i <> j -> nth_error (forms (hset s i t l)) j = nth_error (forms s) j.
Proof. intros N. now apply nth_replace_neq. Qed.
Lemma form_set_run s i t l k v : nth_error (forms s) i = Some (t, l) ->
  form_set i k v s = (Ok tt, hset s i t (dict_set l k v)).
Proof. intros N. unfold form_set, form_entries, bind, get. rewrite (entries_at _ _ _ _ N). unfold set_entries. now rewrite N. Qed.
Lemma form_type_run s i t l : nth_error (forms s) i = Some (t, l) -> form_type i s = (Ok t, s).
Proof. intros N. unfold form_type, get. now rewrite N. Qed.

Definition agrees (s : st) (m : heap_map) : Prop := forall i k, map_of s i k = m i k.
Definition same_rest (s s' : st) : Prop :=
  stk s' = stk s /\ paths s' = paths s /\ errs s' = errs s /\ length (forms s') = length (forms s) /\
  (forall i, option_map fst (nth_error (forms s') i) = option_map fst (nth_error (forms s) i)).
Lemma same_rest_refl s : same_rest s s.
Proof. repeat split. Qed.
Lemma same_rest_trans a b c : same_rest a b -> same_rest b c -> same_rest a c.
Proof. intros (A1 & A2 & A3 & A4 & A5) (B1 & B2 & B3 & B4 & B5). repeat split; congruence. Qed.
Lemma hset_rest s i t l l0 : nth_error (forms s) i = Some (t, l0) -> same_rest s (hset s i t l).
Proof.
  intros N. repeat (split; [reflexivity|]). split; [apply replace_nth_length|]. intros j.
  destruct (Nat.eq_dec i j) as [<-|D]; [now rewrite (hset_at _ _ _ _ _ _ N), N|now rewrite hset_other].
Qed.
Lemma addressed_same s s' o : same_rest s s' -> addressed s o -> addressed s' o.
Proof.
  intros (_ & _ & _ & _ & T) (t & l & f & N & I & E). specialize (T (aop_form o)). rewrite N in T. cbn [option_map fst] in T.
  destruct (nth_error (forms s') (aop_form o)) as [[t' l']|] eqn:N'; [|discriminate]. injection T as ->. exists t, l', f. auto.
Qed.
Lemma hset_agrees s m i a t l l' o : nth_error (forms s) i = Some (t, l) -> agrees s m ->
  (forall k, dict_get l' k = if is_key a k then o else dict_get l k) -> agrees (hset s i t l') (put m i a o).
Proof.
  intros N A L j k. unfold map_of, put. destruct (Nat.eqb_spec i j) as [<-|D]; cbn [andb].
  - rewrite (entries_at _ _ _ _ (hset_at _ _ t l' _ _ N)), L. destruct (is_key a k); [reflexivity|].
    rewrite <- A. unfold map_of. now rewrite (entries_at _ _ _ _ N).
  - unfold entries. rewrite hset_other by exact D. apply A.
Qed.

Lemma dict_has_none l k : dict_has l k = false <-> dict_get l k = None.
Proof.
  unfold dict_has, dict_get. induction l as [|[k' v'] l IH]; cbn [existsb find fst option_map]; [tauto|].
  destruct (py_eq k' k); cbn [orb option_map]; [split; discriminate|exact IH].
Qed.
Lemma dict_del_absent l a : dict_has l (VStr a) = false -> forall k, dict_get l k = if is_key a k then None else dict_get l k.
Proof.
  intros H k. rewrite is_key_py. destruct (py_eq (VStr a) k) eqn:Q; [|reflexivity]. apply str_py_eq in Q. subst k.
  now apply dict_has_none.
Qed.
Lemma put_none_absent s m i a : agrees s m -> m i (VStr a) = None -> agrees s (put m i a None).
Proof.
  intros A H j k. unfold put. destruct (Nat.eqb_spec i j) as [<-|D]; cbn [andb]; [|apply A].
  destruct (is_key a k) eqn:Q; [|apply A]. destruct k; try discriminate. cbn in Q. apply String.eqb_eq in Q. subst s0. now rewrite A.
Qed.

Lemma do_aop_run W fuel o s m : addressed s o -> agrees s m ->
  match o with AGet i a => m i (VStr a) <> None | _ => True end ->
  exists s', do_aop W fuel o s = (Ok (spec_answer o m), s') /\ agrees s' (spec_aop o m) /\ same_rest s s'.
Proof.
  intros (t & l & f & N & I & F) A P. destruct (find_named _ _ _ I F) as (g & G & FG).
  destruct o as [i a|i a v|i a]; cbn [aop_form aop_name do_aop spec_answer spec_aop] in *.
  - unfold form_getattr, bind. rewrite (form_type_run _ _ _ _ N), G. unfold field_get, bind, form_entries, get.
    rewrite FG. specialize (A i (VStr a)) as A'. unfold map_of in A'. rewrite <- A' in P. rewrite <- A'.
    destruct (dict_get (entries s i) (VStr a)) as [v|] eqn:D; [|congruence]. exists s. cbn [ret]. split; [reflexivity|]. split; [exact A|apply same_rest_refl].
  - unfold form_setattr, bind. rewrite (form_type_run _ _ _ _ N), G, FG, (form_set_run _ _ _ _ _ _ N). cbn [ret].
    eexists. split; [reflexivity|]. split; [|now apply hset_rest with l]. apply hset_agrees with l; [exact N|exact A|].
    intros k. rewrite dict_get_set, is_key_py. reflexivity.
  - unfold form_delattr, bind. rewrite (form_type_run _ _ _ _ N), G. unfold field_delete, bind, form_entries, get.
    rewrite FG, (entries_at _ _ _ _ N). destruct (dict_has l (VStr a)) eqn:H.
    + unfold set_entries. rewrite N. cbn [ret]. eexists. split; [reflexivity|]. split; [|now apply hset_rest with l].
      apply hset_agrees with l; [exact N|exact A|]. apply dict_get_del.
    + cbn [ret]. eexists. split; [reflexivity|]. split; [|apply same_rest_refl]. apply put_none_absent; [exact A|].
      rewrite <- A. unfold map_of. rewrite (entries_at _ _ _ _ N). now apply dict_has_none.
Qed.

Lemma C48_gen W fuel ops : forall s m, (forall o, In o ops -> addressed s o) -> agrees s m -> reads_present ops m ->
  exists s', do_aops W fuel ops s = (Ok (fst (spec_aops ops m)), s') /\ agrees s' (snd (spec_aops ops m)) /\ same_rest s s'.
Proof.
  induction ops as [|o ops IH]; intros s m AD AG RP.
  - exists s. split; [reflexivity|]. split; [exact AG|apply same_rest_refl].
  - cbn [reads_present] in RP. destruct RP as [R1 R2].
    destruct (do_aop_run W fuel o s m (AD o (or_introl eq_refl)) AG R1) as (s1 & E1 & A1 & S1).
    destruct (IH s1 (spec_aop o m)) as (s2 & E2 & A2 & S2);
      [intros q Q; apply addressed_same with s; [exact S1|apply AD; now right]|exact A1|exact R2|].
    exists s2. cbn [do_aops spec_aops]. unfold bind at 1. rewrite E1. unfold bind. rewrite E2.
    destruct (spec_aops ops (spec_aop o m)) as [xs m'] eqn:Q. cbn [fst snd ret] in *. split; [reflexivity|]. split; [exact A2|now apply same_rest_trans with s1].
Qed.

Lemma C48_lem W fuel ops s : (forall o, In o ops -> addressed s o) -> reads_present ops (map_of s) ->
  exists s', do_aops W fuel ops s = (Ok (fst (spec_aops ops (map_of s))), s') /\
    (forall i k, map_of s' i k = snd (spec_aops ops (map_of s)) i k) /\
    stk s' = stk s /\ paths s' = paths s /\ errs s' = errs s /\
    (forall i, option_map fst (nth_error (forms s') i) = option_map fst (nth_error (forms s) i)).
Proof.
  intros A R. destruct (C48_gen W fuel ops s (map_of s) A (fun i k => eq_refl) R) as (s' & E & G & S1 & S2 & S3 & S4 & S5).
  exists s'. repeat (split; [assumption|]). assumption.
Qed.

(** ** Copies *)
Lemma spec_aops_proj l : forall m m' i, (forall k, m i k = m' i k) ->
  forall k, snd (spec_aops l m) i k = snd (spec_aops (filter (fun o => Nat.eqb (aop_form o) i) l) m') i k.
Proof.
  induction l as [|o l IH]; intros m m' i E k; [apply E|].
  cbn [spec_aops filter]. destruct (spec_aops l (spec_aop o m)) as [xs r] eqn:Q. cbn [snd].
  assert (P : forall m1 m2 (e : forall k, m1 i k = m2 i k), (aop_form o = i -> False) -> forall k, spec_aop o m1 i k = m2 i k).
  { intros m1 m2 e D k0. destruct o as [j a|j a v|j a]; cbn [aop_form spec_aop] in *; [apply e| |]; unfold put;
      (destruct (Nat.eqb_spec j i); [contradiction|]); cbn [andb]; apply e. }
  destruct (Nat.eqb_spec (aop_form o) i) as [D|D].
  - cbn [spec_aops]. specialize (IH (spec_aop o m) (spec_aop o m') i). rewrite Q in IH. cbn [snd] in IH.
    destruct (spec_aops (filter _ l) (spec_aop o m')) as [ys r'] eqn:Q'. cbn [snd] in *. apply IH.
    intros k0. destruct o as [j a|j a v|j a]; cbn [spec_aop]; [apply E| |]; unfold put; destruct (Nat.eqb j i && is_key a k0); auto.
  - specialize (IH (spec_aop o m) m' i). rewrite Q in IH. cbn [snd] in IH. apply IH. apply P; assumption.
Qed.

Lemma py_eq_dec_get l k v : dict_get (dict_set l k v) k = Some v \/ py_eq k k = false.
Proof.
  destruct (py_eq k k) eqn:Q; [left|now right]. induction l as [|[k' v'] l IH]; unfold dict_get in *; cbn [dict_set find fst].
  - now rewrite Q.
  - destruct (py_eq k' k) eqn:R; cbn [find fst]; rewrite R; [reflexivity|exact IH].
Qed.

Lemma dict_set_fresh l k v : (forall kv, In kv l -> py_eq (fst kv) k = false) -> dict_set l k v = l ++ [(k, v)].
Proof.
  induction l as [|[k' v'] l IH]; intros H; cbn [dict_set app]; [reflexivity|].
  pose proof (H (k', v') (or_introl eq_refl)) as H1. cbn [fst] in H1. rewrite H1. rewrite IH; [reflexivity|]. intros kv I. apply H. now right.
Qed.
Lemma copy_items_run d t l : forall s acc, nth_error (forms s) d = Some (t, acc) ->
  (forall kv, In kv acc -> forall kv', In kv' l -> py_eq (fst kv) (fst kv') = false) -> distinct_keys l ->
  copy_items d l s = (Ok tt, hset s d t (acc ++ l)).
Proof.
  induction l as [|[k v] l IH]; intros s acc N DA DK.
  - cbn [copy_items ret]. rewrite app_nil_r. unfold hset. rewrite replace_same by exact N. now destruct s.
  - cbn [copy_items]. unfold bind. rewrite (form_set_run _ _ _ _ _ _ N). cbn [distinct_keys] in DK. destruct DK as [D1 D2].
    rewrite dict_set_fresh by (intros kv I; exact (DA kv I (k, v) (or_introl eq_refl))).
    rewrite (IH (hset s d t (acc ++ [(k, v)])) (acc ++ [(k, v)])).
    + unfold hset. cbn [stk forms paths errs]. f_equal. f_equal. rewrite <- app_assoc. cbn [app].
      apply replace_twice.
    + apply hset_at with t acc. exact N.
    + intros kv I kv' I'. apply in_app_or in I. destruct I as [I|[<-|[]]]; [apply DA; [exact I|now right]|exact (D1 kv' I')].
    + exact D2.
Qed.

Lemma nth_last {A} (l : list A) x : nth_error (l ++ [x]) (length l) = Some x.
Proof. rewrite nth_error_app2 by lia. now rewrite Nat.sub_diag. Qed.

Lemma replace_last {A} (l : list A) x y : replace_nth (length l) y (l ++ [x]) = l ++ [y].
Proof.
  unfold replace_nth. rewrite nth_last, firstn_app, firstn_all, Nat.sub_diag. cbn [firstn]. rewrite app_nil_r.
  rewrite skipn_all2; [reflexivity|]. rewrite app_length. cbn. lia.
Qed.
Lemma C53_copy_lem id t l s : nth_error (forms s) id = Some (t, l) -> distinct_keys l ->
  form_copy id s = (Ok (length (forms s)), St (stk s) (forms s ++ [(t, l)]) (paths s) (errs s)).
Proof.
  intros N D. unfold form_copy, bind. rewrite (form_type_run _ _ _ _ N). unfold new_form. unfold form_entries, get.
  assert (L : (id < length (forms s))%nat) by (apply nth_error_Some; congruence).
  set (s1 := St (stk s) (forms s ++ [(t, [])]) (paths s) (errs s)).
  assert (N1 : nth_error (forms s1) id = Some (t, l)) by (cbn [s1 forms]; rewrite nth_error_app1 by exact L; exact N).
  rewrite (entries_at _ _ _ _ N1).
  rewrite (copy_items_run (length (forms s)) t l s1 []) by (first [exact D|cbn [s1 forms]; apply nth_last|intros kv []]).
  unfold ret, hset, s1. cbn [stk forms paths errs app]. now rewrite replace_last.
Qed.

(** After the copy, updates to one form are invisible in the other. *)
Lemma C53_independent_lem W fuel id t l s ops : nth_error (forms s) id = Some (t, l) -> distinct_keys l ->
  let s1 := snd (form_copy id s) in let d := length (forms s) in
  (forall o, In o ops -> addressed s1 o) -> (forall i a, ~ In (AGet i a) ops) ->
  exists s', snd (do_aops W fuel ops s1) = s' /\ fst (do_aops W fuel ops s1) = Ok (map (fun _ => None) ops) /\
    (forall k, map_of s' id k = snd (spec_aops (filter (fun o => Nat.eqb (aop_form o) id) ops) (map_of s)) id k) /\
    (forall k, map_of s' d k =
       snd (spec_aops (filter (fun o => Nat.eqb (aop_form o) d) ops) (fun _ k => dict_get l k)) d k).
Proof.
  intros N D s1 d AD NG. unfold s1 in *. rewrite (C53_copy_lem id t l s N D) in *. cbn [snd] in *.
  set (s2 := St (stk s) (forms s ++ [(t, l)]) (paths s) (errs s)) in *.
  assert (RP : forall m, reads_present ops m).
  { clear AD. induction ops as [|o ops IH]; intros m; [exact I|]. split; [destruct o; auto; exfalso; eapply NG; now left|]. apply IH. intros i a H. apply (NG i a). now right. }
  destruct (C48_gen W fuel ops s2 (map_of s2) AD (fun i k => eq_refl) (RP _)) as (s' & E & G & _).
  exists s'. rewrite E. cbn [fst snd]. split; [reflexivity|]. split; [|split].
  - f_equal. clear - NG. revert NG. generalize (map_of s2). induction ops as [|o ops IH]; intros m NG; [reflexivity|]. cbn [spec_aops map].
    destruct (spec_aops ops (spec_aop o m)) as [xs r] eqn:Q. cbn [fst]. f_equal.
    + destruct o; try reflexivity. exfalso. eapply NG. now left.
    + specialize (IH (spec_aop o m)). rewrite Q in IH. apply IH. intros i a H. apply (NG i a). now right.
  - intros k. rewrite G. apply spec_aops_proj. intros k0. unfold map_of, entries, s2. cbn [forms].
    rewrite nth_error_app1 by (apply nth_error_Some; congruence). reflexivity.
  - intros k. rewrite G. apply spec_aops_proj. intros k0. unfold map_of, entries, s2, d. cbn [forms]. now rewrite nth_last.
Qed.
