From Coq Require Import Lia.
From Verif Require Import PyBase PyStr Source Field Context Fields SpecSrc Eval Refine Regime SpecTame TameProofs FormProofs Balance.
Open Scope ev_scope.

(** *** Assigning string keys of a dictionary again *)
Definition sset (l : list (val * val)) (a : string) (v : val) : list (val * val) := dict_set l (VStr a) v.
Definition upd (l : list (val * val)) (S : list (string * val)) : list (val * val) :=
  fold_left (fun l kv => sset l (fst kv) (snd kv)) S l.
Lemma str_eq a b : py_eq (VStr a) (VStr b) = String.eqb a b.
Proof. reflexivity. Qed.
Lemma set_set l a v w : sset (sset l a v) a w = sset l a w.
Proof.
  unfold sset. induction l as [|[k x] l IH]; cbn [dict_set]; [rewrite str_eq, String.eqb_refl; reflexivity|].
  destruct (py_eq k (VStr a)) eqn:Q; cbn [dict_set]; rewrite Q; [reflexivity|now rewrite IH].
Qed.
Lemma set_comm l a b v w : a <> b -> dict_has l (VStr a) = true -> sset (sset l a v) b w = sset (sset l b w) a v.
Proof.
  intros N. unfold sset, dict_has. induction l as [|[k x] l IH]; cbn [dict_set existsb fst]; [discriminate|].
  destruct (py_eq k (VStr a)) eqn:Qa; cbn [orb].
  - intros _. apply py_eq_str in Qa. subst k. rewrite str_eq. cbn [dict_set]. rewrite str_eq.
    destruct (String.eqb_spec a b); [contradiction|]. cbn [dict_set]. now rewrite str_eq, String.eqb_refl.
  - intros H. cbn [dict_set]. destruct (py_eq k (VStr b)) eqn:Qb; cbn [dict_set]; rewrite Qa; [reflexivity|]. now rewrite IH.
Qed.
Lemma set_same l a v : dict_get l (VStr a) = Some v -> sset l a v = l.
Proof.
  unfold sset, dict_get. induction l as [|[k x] l IH]; cbn [dict_set find fst]; [discriminate|].
  destruct (py_eq k (VStr a)); [cbn; now intros [= ->]|]. intros H. now rewrite IH.
Qed.
Lemma has_set l a v b : dict_has l (VStr b) = true -> dict_has (sset l a v) (VStr b) = true.
Proof.
  unfold sset, dict_has. induction l as [|[k x] l IH]; cbn [dict_set existsb fst]; [discriminate|].
  destruct (py_eq k (VStr b)) eqn:Qb; cbn [orb].
  - intros _. destruct (py_eq k (VStr a)); cbn [existsb fst]; rewrite Qb; reflexivity.
  - intros H. destruct (py_eq k (VStr a)); cbn [existsb fst]; rewrite Qb; auto.
Qed.
Lemma set_has l a v : dict_has (sset l a v) (VStr a) = true.
Proof.
  unfold sset, dict_has. induction l as [|[k x] l IH]; cbn [dict_set existsb fst]; [rewrite str_eq, String.eqb_refl; reflexivity|].
  destruct (py_eq k (VStr a)) eqn:Q; cbn [existsb fst]; rewrite Q; auto.
Qed.
Lemma get_set_other l a b v : a <> b -> dict_get (sset l a v) (VStr b) = dict_get l (VStr b).
Proof. intros N. unfold sset. rewrite dict_get_set, str_eq. destruct (String.eqb_spec a b); [contradiction|reflexivity]. Qed.
Lemma get_set_this l a v : dict_get (sset l a v) (VStr a) = Some v.
Proof. unfold sset. now rewrite dict_get_set, str_eq, String.eqb_refl. Qed.
Lemma upd_get S : forall l a, ~ In a (map fst S) -> dict_get (upd l S) (VStr a) = dict_get l (VStr a).
Proof.
  induction S as [|[k x] S IH]; intros l a N; [reflexivity|]. cbn [upd fold_left fst snd map In] in *.
  change (dict_get (upd (sset l k x) S) (VStr a) = dict_get l (VStr a)). rewrite IH by tauto. apply get_set_other. intros ->. tauto.
Qed.
Lemma upd_has S : forall l a, dict_has l (VStr a) = true -> dict_has (upd l S) (VStr a) = true.
Proof.
  induction S as [|[k x] S IH]; intros l a H; [exact H|]. apply (IH (sset l k x)). now apply has_set.
Qed.
Lemma upd_absorb S : forall l a v, In a (map fst S) -> dict_has l (VStr a) = true -> upd (sset l a v) S = upd l S.
Proof.
  induction S as [|[k x] S IH]; intros l a v I H; [contradiction|]. cbn [map fst In] in I.
  change (upd (sset (sset l a v) k x) S = upd (sset l k x) S).
  destruct (String.eqb_spec k a) as [->|N]; [now rewrite set_set|].
  rewrite set_comm by auto. apply IH; [tauto|now apply has_set].
Qed.
Lemma upd_twice S : forall l, upd (upd l S) S = upd l S.
Proof.
  induction S as [|[k x] S IH]; intros l; [reflexivity|].
  change (upd (sset (upd (sset l k x) S) k x) S = upd (sset l k x) S).
  assert (HH : dict_has (upd (sset l k x) S) (VStr k) = true) by (apply upd_has, set_has).
  destruct (in_dec string_dec k (map fst S)) as [I|N].
  - rewrite upd_absorb; auto.
  - rewrite set_same; auto. rewrite upd_get by auto. apply get_set_this.
Qed.

(** *** Deleting the selected fields *)
Definition dropped (tags : list string) (fs : list field) (l : list (val * val)) : list (val * val) :=
  fold_left (fun l f => if selected tags f then dict_del l (VStr (fname f)) else l) fs l.
Lemma del_absent l a : dict_has l (VStr a) = false -> dict_del l (VStr a) = l.
Proof.
  unfold dict_has, dict_del. induction l as [|[k x] l IH]; cbn [existsb filter fst]; [reflexivity|].
  destruct (py_eq k (VStr a)); [discriminate|]. intros H. cbn [negb]. now rewrite IH.
Qed.
Lemma del_set l a v : dict_del (sset l a v) (VStr a) = dict_del l (VStr a).
Proof.
  unfold sset, dict_del. induction l as [|[k x] l IH]; cbn [dict_set filter fst]; [rewrite str_eq, String.eqb_refl; reflexivity|].
  destruct (py_eq k (VStr a)) eqn:Q; cbn [filter fst]; rewrite Q; cbn [negb]; [reflexivity|now rewrite IH].
Qed.
Lemma del_set_other l a v b : a <> b -> dict_del (sset l a v) (VStr b) = sset (dict_del l (VStr b)) a v.
Proof.
  intros N. unfold sset, dict_del. induction l as [|[k x] l IH]; cbn [dict_set filter fst].
  - rewrite str_eq. destruct (String.eqb_spec a b); [contradiction|reflexivity].
  - destruct (py_eq k (VStr a)) eqn:Qa.
    + apply py_eq_str in Qa. subst k. cbn [filter fst]. rewrite str_eq. destruct (String.eqb_spec a b); [contradiction|].
      cbn [negb dict_set]. now rewrite str_eq, String.eqb_refl.
    + cbn [filter fst]. destruct (py_eq k (VStr b)); cbn [negb]; [exact IH|]. cbn [dict_set]. rewrite Qa. now rewrite IH.
Qed.
Definition named (tags : list string) (fs : list field) (a : string) : Prop :=
  exists f, In f fs /\ selected tags f = true /\ fname f = a.
Lemma dropped_set tags fs : forall l a v, named tags fs a -> dropped tags fs (sset l a v) = dropped tags fs l.
Proof.
  induction fs as [|f fs IH]; intros l a v (g & I & Sg & Ng); [contradiction|]. cbn [dropped fold_left].
  destruct (selected tags f) eqn:Sf.
  - destruct (String.eqb_spec (fname f) a) as [<-|N]; [now rewrite del_set|]. rewrite del_set_other by auto.
    apply IH. destruct I as [->|I]; [contradiction|]. exists g. auto.
  - apply IH. destruct I as [->|I]; [congruence|]. exists g. auto.
Qed.
Lemma dropped_upd tags fs S : (forall a, In a (map fst S) -> named tags fs a) -> forall l, dropped tags fs (upd l S) = dropped tags fs l.
Proof.
  induction S as [|[k x] S IH]; intros H l; [reflexivity|].
  change (dropped tags fs (upd (sset l k x) S) = dropped tags fs l). rewrite IH by (intros a I; apply H; now right).
  apply dropped_set. apply H. now left.
Qed.
Lemma del_twice l a : dict_del (dict_del l (VStr a)) (VStr a) = dict_del l (VStr a).
Proof.
  unfold dict_del. induction l as [|[k x] l IH]; cbn [filter fst]; [reflexivity|].
  destruct (py_eq k (VStr a)) eqn:Q; cbn [negb]; [exact IH|]. cbn [filter fst]. rewrite Q. cbn [negb]. now rewrite IH.
Qed.
Lemma del_comm l a b : dict_del (dict_del l (VStr a)) (VStr b) = dict_del (dict_del l (VStr b)) (VStr a).
Proof.
  unfold dict_del. induction l as [|[k x] l IH]; cbn [filter fst]; [reflexivity|].
  destruct (py_eq k (VStr a)) eqn:Qa, (py_eq k (VStr b)) eqn:Qb; cbn [negb filter fst]; rewrite ?Qa, ?Qb; cbn [negb]; congruence.
Qed.
Lemma dropped_del tags fs : forall l a, dropped tags fs (dict_del l (VStr a)) = dict_del (dropped tags fs l) (VStr a).
Proof.
  induction fs as [|f fs IH]; intros l a; [reflexivity|]. cbn [dropped fold_left]. destruct (selected tags f); [|apply IH].
  rewrite del_comm. apply IH.
Qed.
Lemma dropped_twice tags fs : forall l, dropped tags fs (dropped tags fs l) = dropped tags fs l.
Proof.
  induction fs as [|f fs IH]; intros l; [reflexivity|]. cbn [dropped fold_left].
  change (dropped tags fs (if selected tags f then dict_del (dropped tags fs (if selected tags f then dict_del l (VStr (fname f)) else l)) (VStr (fname f))
          else dropped tags fs (if selected tags f then dict_del l (VStr (fname f)) else l)) =
          dropped tags fs (if selected tags f then dict_del l (VStr (fname f)) else l)).
  destruct (selected tags f); [|apply IH]. rewrite dropped_del, IH, <- dropped_del, del_twice. reflexivity.
Qed.

(** *** The heap *)
Lemma replace_cons {A} n (x a : A) l : replace_nth (S n) x (a :: l) = a :: replace_nth n x l.
Proof. unfold replace_nth. cbn [nth_error]. now destruct (nth_error l n). Qed.
Lemma replace_nil {A} n (x : A) : replace_nth n x [] = [].
Proof. unfold replace_nth. now destruct n. Qed.
Lemma replace_twice {A} n (x y : A) : forall l, replace_nth n x (replace_nth n y l) = replace_nth n x l.
Proof.
  induction n as [|n IH]; intros [|z l]; rewrite ?replace_nil; try reflexivity. rewrite !replace_cons. now rewrite IH.
Qed.
Lemma replace_id {A} n (x : A) l : nth_error l n = Some x -> replace_nth n x l = l.
Proof. apply replace_same. Qed.
Lemma replace_there {A} i j (x y : A) : forall l, nth_error l j = Some y -> nth_error (replace_nth i x l) j <> None.
Proof.
  revert j. induction i as [|i IH]; intros j [|a l]; rewrite ?replace_nil; try (intros ->; discriminate).
  - destruct j; [discriminate|]. cbn. now intros ->.
  - rewrite replace_cons. destruct j; cbn [nth_error]; [discriminate|]. apply IH.
Qed.
Lemma hents_hit h id t l : nth_error h id = Some (t, l) -> hents h id = l.
Proof. intros H. unfold hents. now rewrite H. Qed.
Lemma ev_set_is id k v es (h : heap) t l : nth_error h id = Some (t, l) ->
  ev_set id k v (es, h) = (Ok tt, (es, replace_nth id (t, dict_set l k v) h)).
Proof. intros H. unfold ev_set, ev_entries, ebind, ev_set_entries. cbn [snd fst]. rewrite H. now rewrite (hents_hit _ _ _ _ H). Qed.
Lemma ev_del_is f id es (h : heap) t l : nth_error h id = Some (t, l) ->
  ev_del f id (es, h) = (Ok tt, (es, replace_nth id (t, dict_del l (VStr (fname f))) h)).
Proof.
  intros H. unfold ev_del, ev_entries, ebind, ev_set_entries. cbn [snd fst]. rewrite (hents_hit _ _ _ _ H).
  destruct (dict_has l (VStr (fname f))) eqn:D; [cbn [snd fst]; now rewrite H|]. unfold eret. rewrite del_absent by exact D. now rewrite (replace_id _ _ _ H).
Qed.
Lemma ev_reset_is id tags fs : forall es (h : heap) t l, nth_error h id = Some (t, l) ->
  ev_reset id tags fs (es, h) = (Ok tt, (es, replace_nth id (t, dropped tags fs l) h)).
Proof.
  induction fs as [|f fs IH]; intros es h t l H; cbn [ev_reset dropped fold_left].
  - unfold eret. now rewrite (replace_id _ _ _ H).
  - unfold ebind. destruct (selected tags f).
    + rewrite (ev_del_is f id es h t l H). rewrite (IH es _ t (dict_del l (VStr (fname f)))); [|eapply replace_hit; eauto].
      now rewrite replace_twice.
    + unfold eret. now apply IH.
Qed.

(** *** The fields of a form *)
Section Form.
Variables (W : world) (root : val) (Loc : val -> Prop) (src : psource).
Let E := w_env W.
Hypothesis RG : regime E src root Loc.
Hypothesis STR : forall v w, psource_parse E src TyStr v = Ok w -> exists s, w = VStr s.

(** Two runs over the fields come to the same outcome, assign the same entries and append the
    same errors. *)
Definition runs_alike (p p' : nat) (tags : list string) (fs : list field) (id id' : nat) (e e' : Ev unit) : Prop :=
  exists o new S, (forall a, In a (map fst S) -> named tags fs a) /\
  forall es (h : heap) t l t' l', nth_error h id = Some (t, l) -> nth_error h id' = Some (t', l') ->
    e (es, h) = (o, (es ++ map (put p) new, replace_nth id (t, upd l S) h)) /\
    e' (es, h) = (o, (es ++ map (put p') new, replace_nth id' (t', upd l' S) h)).
Lemma fields_alike d n m r r' id id' tags fs : (n = m \/ (d <= n)%nat /\ (d <= m)%nat) ->
  (forall f, In f fs -> tame d f) -> twin Collect Loc src r r' -> ready W src r ->
  runs_alike (r_pid r) (r_pid r') tags fs id id' (ev_fields (ev_field W n) r id tags fs) (ev_fields (ev_field W m) r' id' tags fs).
Proof.
  intros B. induction fs as [|f fs IH]; intros D T R; cbn [ev_fields].
  { exists (Ok tt), [], []. split; [easy|]. intros es h t l t' l' H H'. cbn. rewrite !app_nil_r. now rewrite (replace_id _ _ _ H), (replace_id _ _ _ H'). }
  destruct IH as (o & new & S & NS & IH); auto. { intros g I. apply D. now right. }
  assert (NS' : forall a, In a (map fst S) -> named tags (f :: fs) a).
  { intros a I. destruct (NS a I) as (g & Ig & Q). exists g. split; [now right|exact Q]. }
  destruct (selected tags f) eqn:Sf.
  - destruct (calm_collect _ _ _ _ (calm_field Collect W root Loc src RG STR d n m r r' f NONEv B (D f (or_introl eq_refl)) T R ltac:(discriminate))) as (o1 & new1 & H1).
    destruct o1 as [v|e].
    + destruct (ignored v) eqn:Iv.
      * exists o, (new1 ++ new), S. split; [exact NS'|]. intros es h t l t' l' H H'. destruct (H1 es h) as [Q Q'].
        unfold ebind. rewrite Q, Q', Iv. cbn [eret]. rewrite !map_app, !app_assoc. unfold eret.
        split; [exact (proj1 (IH _ _ _ _ _ _ H H'))|exact (proj2 (IH _ _ _ _ _ _ H H'))].
      * exists o, (new1 ++ new), ((fname f, v) :: S). split.
        { intros a [<-|I]; [exists f; split; [now left|auto]|auto]. }
        intros es h t l t' l' H H'. destruct (H1 es h) as [Q Q'].
        unfold ebind. rewrite Q, Q', Iv. rewrite !map_app, !app_assoc. unfold ebind.
        rewrite (ev_set_is id _ v _ h t l H), (ev_set_is id' _ v _ h t' l' H').
        split.
        -- destruct (nth_error (replace_nth id (t, dict_set l (VStr (fname f)) v) h) id') as [[t2 l2]|] eqn:Z.
           ++ destruct (IH (es ++ map (put (r_pid r)) new1) _ t (dict_set l (VStr (fname f)) v) t2 l2 (replace_hit _ _ _ _ H) Z) as [Y _].
              etransitivity; [exact Y|]. now rewrite replace_twice.
           ++ exfalso. exact (replace_there _ _ _ _ _ H' Z).
        -- destruct (nth_error (replace_nth id' (t', dict_set l' (VStr (fname f)) v) h) id) as [[t2 l2]|] eqn:Z.
           ++ destruct (IH (es ++ map (put (r_pid r')) new1) _ t2 l2 t' (dict_set l' (VStr (fname f)) v) Z (replace_hit _ _ _ _ H')) as [_ Y].
              etransitivity; [exact Y|]. now rewrite replace_twice.
           ++ exfalso. exact (replace_there _ _ _ _ _ H Z).
    + exists (Exn e), new1, []. split; [intros a []|]. intros es h t l t' l' H H'. destruct (H1 es h) as [Q Q'].
      unfold ebind. rewrite Q, Q'. cbn [upd fold_left]. now rewrite (replace_id _ _ _ H), (replace_id _ _ _ H').
  - exists o, new, S. split; [exact NS'|]. intros es h t l t' l' H H'. unfold ebind, eret. now apply IH.
Qed.

Lemma start_twin o o' : ou_igd o' = ou_igd o -> ou_igm o' = ou_igm o ->
  twin Collect Loc src (r_start o src Collect root) (r_start o' src Collect root).
Proof.
  intros A B. split; cbn; auto. intros v [= <-]. right. apply (rg_root _ _ _ _ RG).
Qed.
Lemma start_ready o : ready W src (r_start o src Collect root).
Proof. intros [= Q]. pose proof (rg_some _ _ _ _ RG _ (rg_root _ _ _ _ RG)) as N. rewrite Q in N. discriminate. Qed.

(** what the mapping does to the entries of the form *)
Lemma form_map_alike d fuel o o' id tags u t : ou_igd o' = ou_igd o -> ou_igm o' = ou_igm o -> tame_form d t ->
  match u with UIgnore | UFalsy | UBad _ => True | _ => False end ->
  exists x new S, (forall a, In a (map fst S) -> named tags (ft_fields t) a) /\
  forall (h : heap) l, nth_error h id = Some (t, l) ->
    ev_form_map W (ev_field W fuel) (r_start o src Collect root) id tags u ([], h) =
      (x, (map (put (ou_pid o)) new, replace_nth id (t, upd l S) h)) /\
    ev_form_map W (ev_field W fuel) (r_start o' src Collect root) id tags u ([], h) =
      (x, (map (put (ou_pid o')) new, replace_nth id (t, upd l S) h)).
Proof.
  intros A B D U. unfold ev_form_map.
  destruct (psource_mapping E no_ents src 0 root) as [vw|e] eqn:M.
  2:{ exists (Exn e), [], []. split; [easy|]. intros h l H. unfold ebind, ev_mapping, on_val, elift. cbn [r_start r_val r_src r_keys length].
      fold E. rewrite M. cbn. now rewrite (replace_id _ _ _ H). }
  assert (T : twin Collect Loc src (r_inform (r_start o src Collect root) id) (r_inform (r_start o' src Collect root) id)).
  { destruct (start_twin o o' A B). split; auto. }
  destruct (fields_alike d fuel fuel _ _ id id tags (ft_fields t) (or_introl eq_refl) D T) as (x & new & S & NS & FA).
  { apply start_ready. }
  exists (match x with Ok _ => match u with UBad _ => Exn (EValue "unmapped invalid, should be capture or ignore") | _ => Ok tt end | Exn e => Exn e end), new, S.
  split; [exact NS|]. intros h l H. destruct (FA [] h t l t l H H) as [F F'].
  unfold ebind, ev_mapping, on_val, elift. cbn [r_start r_val r_src r_keys length]. fold E. rewrite M.
  unfold ev_type at 1 2. cbn [snd]. rewrite H. cbn [app r_inform r_start r_pid] in F, F'.
  cbn [r_inform r_start] in *. rewrite F, F'.
  destruct x as [[]|e]; [|auto]. unfold ev_unmapped. destruct u; try contradiction; auto.
Qed.
Lemma map_again d fuel o o' id t l tags rs u (h : heap) :
  ou_igd o' = ou_igd o -> ou_igm o' = ou_igm o -> ou_tags o' = ou_tags o -> tame_form d t ->
  match u with UIgnore | UFalsy | UBad _ => True | _ => False end -> nth_error h id = Some (t, l) ->
  let x := ev_map W fuel o src root id tags rs u Collect h in
  let y := ev_map W fuel o' src root id tags rs u Collect (snd x) in
  match fst x, fst y with
  | Ok es, Ok es' => map said es' = map said es
  | Exn e, Exn e' => e' = e
  | _, _ => False
  end /\ snd y = snd x /\ exists l2, nth_error (snd x) id = Some (t, l2).
Proof.
  intros A B C D U H. cbv zeta. unfold ev_map. rewrite C. set (tags' := match tags with [] => ou_tags o | _ => tags end).
  destruct (form_map_alike d fuel o o' id tags' u t A B D U) as (x & new & S & NS & FA).
  set (l1 := if rs then dropped tags' (ft_fields t) l else l).
  assert (R1 : (if rs then ev_reset id tags' (ft_fields t) else eret tt) ([], h) = (Ok tt, ([], replace_nth id (t, l1) h))).
  { unfold l1. destruct rs; [now apply ev_reset_is|]. unfold eret. now rewrite (replace_id _ _ _ H). }
  rewrite H, R1. destruct (FA _ l1 (replace_hit _ _ _ _ H)) as [F1 _]. rewrite F1, replace_twice.
  pose (h2 := replace_nth id (t, upd l1 S) h : heap).
  assert (H2 : nth_error h2 id = Some (t, upd l1 S)) by (eapply replace_hit; eauto).
  set (l2 := if rs then dropped tags' (ft_fields t) (upd l1 S) else upd l1 S).
  assert (R2 : (if rs then ev_reset id tags' (ft_fields t) else eret tt) ([], h2) = (Ok tt, ([], replace_nth id (t, l2) h2))).
  { unfold l2. destruct rs; [now apply ev_reset_is|]. unfold eret. now rewrite (replace_id _ _ _ H2). }
  assert (L : upd l2 S = upd l1 S).
  { unfold l2, l1. destruct rs; [|apply upd_twice]. rewrite dropped_upd by exact NS. now rewrite dropped_twice. }
  destruct (FA (replace_nth id (t, l2) h2) l2 (replace_hit _ _ _ _ H2)) as [_ F2].
  assert (Z : replace_nth id (t, upd l2 S) (replace_nth id (t, l2) h2) = h2) by (rewrite L, replace_twice; now apply replace_id).
  destruct x as [[]|e]; cbn [fst snd]; change (replace_nth id (t, upd l1 S) h) with h2.
  - rewrite H2, R2, F2, Z. cbn [fst snd]. split; [|split; [reflexivity|eauto]]. now rewrite !said_put.
  - rewrite H2, R2, F2, Z. cbn [fst snd]. eauto.
Qed.

(** *** The same where errors are raised *)
Lemma fields_alike_r d n m r r' id tags fs : (n = m \/ (d <= n)%nat /\ (d <= m)%nat) ->
  (forall f, In f fs -> tame d f) -> twin Raise Loc src r r' -> ready W src r ->
  forall es es' (h h' : heap) t l t' l', map untied es' = map untied es -> nth_error h id = Some (t, l) -> nth_error h' id = Some (t', l') ->
  exists S o o' new new', (forall a, In a (map fst S) -> named tags fs a) /\
    ev_fields (ev_field W n) r id tags fs (es, h) = (o, (new, replace_nth id (t, upd l S) h)) /\
    ev_fields (ev_field W m) r' id tags fs (es', h') = (o', (new', replace_nth id (t', upd l' S) h')) /\
    alike Raise o o' /\ map untied new' = map untied new.
Proof.
  intros B. induction fs as [|f fs IH]; intros D T R es es' h h' t l t' l' U H H'; cbn [ev_fields].
  { exists [], (Ok tt), (Ok tt), es, es'. split; [easy|]. cbn. now rewrite (replace_id _ _ _ H), (replace_id _ _ _ H'). }
  assert (D' : forall g, In g fs -> tame d g) by (intros g I; apply D; now right). specialize (IH D' T R).
  assert (NS' : forall S : list (string * val), (forall a, In a (map fst S) -> named tags fs a) -> forall a, In a (map fst S) -> named tags (f :: fs) a).
  { intros S NS a I. destruct (NS a I) as (g & Ig & Q). exists g. split; [now right|exact Q]. }
  destruct (selected tags f) eqn:Sf.
  - destruct (calm_field Raise W root Loc src RG STR d n m r r' f NONEv B (D f (or_introl eq_refl)) T R ltac:(discriminate) es es' h h' U) as (o1 & o1' & new1 & new1' & Q & Q' & L & U1).
    unfold ebind. rewrite Q, Q'. destruct o1 as [v|e], o1' as [v'|e']; cbn in L; try contradiction.
    + subst v'. destruct (ignored v) eqn:Iv.
      * unfold eret. destruct (IH new1 new1' h h' t l t' l' U1 H H') as (S & o & o' & new & new' & NS & A1 & A2 & A3 & A4).
        exists S, o, o', new, new'. split; [exact (NS' S NS)|]. auto.
      * rewrite (ev_set_is id _ v _ h t l H), (ev_set_is id _ v _ h' t' l' H').
        destruct (IH new1 new1' (replace_nth id (t, dict_set l (VStr (fname f)) v) h) (replace_nth id (t', dict_set l' (VStr (fname f)) v) h')
          t (dict_set l (VStr (fname f)) v) t' (dict_set l' (VStr (fname f)) v) U1 (replace_hit _ _ _ _ H) (replace_hit _ _ _ _ H')) as (S & o & o' & new & new' & NS & A1 & A2 & A3 & A4).
        exists ((fname f, v) :: S), o, o', new, new'. split.
        { intros a [<-|I]; [exists f; split; [now left|auto]|now apply (NS' S NS)]. }
        rewrite replace_twice in A1, A2. auto.
    + exists [], (Exn e), (Exn e'), new1, new1'. split; [intros a []|]. cbn [upd fold_left]. rewrite (replace_id _ _ _ H), (replace_id _ _ _ H'). auto.
  - unfold ebind, eret. destruct (IH es es' h h' t l t' l' U H H') as (S & o & o' & new & new' & NS & A1 & A2 & A3 & A4).
    exists S, o, o', new, new'. split; [exact (NS' S NS)|]. auto.
Qed.
Lemma start_twin_r o o' : ou_igd o' = ou_igd o -> ou_igm o' = ou_igm o ->
  twin Raise Loc src (r_start o src Raise root) (r_start o' src Raise root).
Proof.
  intros A B. split; cbn; auto. intros v [= <-]. right. apply (rg_root _ _ _ _ RG).
Qed.
Lemma form_map_alike_r d fuel o o' id tags u t : ou_igd o' = ou_igd o -> ou_igm o' = ou_igm o -> tame_form d t ->
  match u with UIgnore | UFalsy | UBad _ => True | _ => False end ->
  forall (h h' : heap) l l', nth_error h id = Some (t, l) -> nth_error h' id = Some (t, l') ->
  exists S x x' new new', (forall a, In a (map fst S) -> named tags (ft_fields t) a) /\
    ev_form_map W (ev_field W fuel) (r_start o src Raise root) id tags u ([], h) = (x, (new, replace_nth id (t, upd l S) h)) /\
    ev_form_map W (ev_field W fuel) (r_start o' src Raise root) id tags u ([], h') = (x', (new', replace_nth id (t, upd l' S) h')) /\
    alike Raise x x' /\ map untied new' = map untied new.
Proof.
  intros A B D U h h' l l' H H'. unfold ev_form_map.
  destruct (psource_mapping E no_ents src 0 root) as [vw|e] eqn:M.
  2:{ exists [], (Exn e), (Exn e), [], []. split; [easy|]. unfold ebind, ev_mapping, on_val, elift. cbn [r_start r_val r_src r_keys length].
      fold E. rewrite M. cbn. now rewrite (replace_id _ _ _ H), (replace_id _ _ _ H'). }
  assert (T : twin Raise Loc src (r_inform (r_start o src Raise root) id) (r_inform (r_start o' src Raise root) id)).
  { destruct (start_twin_r o o' A B). split; auto. }
  destruct (fields_alike_r d fuel fuel _ _ id tags (ft_fields t) (or_introl eq_refl) D T) with (es := @nil err) (es' := @nil err) (h := h) (h' := h') (t := t) (l := l) (t' := t) (l' := l')
    as (S & x & x' & new & new' & NS & F & F' & L & UN); auto.
  { intros [= Q]. pose proof (rg_some _ _ _ _ RG _ (rg_root _ _ _ _ RG)) as N. rewrite Q in N. discriminate. }
  set (fin := fun x : res unit => match x with Ok _ => match u with UBad _ => Exn (EValue "unmapped invalid, should be capture or ignore") | _ => Ok tt end | Exn e => Exn e end).
  exists S, (fin x), (fin x'), new, new'. split; [exact NS|].
  unfold ebind, ev_mapping, on_val, elift. cbn [r_start r_val r_src r_keys length]. fold E. rewrite M.
  unfold ev_type at 1 2. cbn [snd]. rewrite H, H'. cbn [app r_inform r_start] in F, F'.
  cbn [r_inform r_start] in *. rewrite F, F'.
  destruct x as [[]|e], x' as [[]|e']; cbn in L; try contradiction; unfold fin, ev_unmapped; destruct u; try contradiction; cbn; auto.
Qed.
Lemma untied_said es es' : map untied es' = map untied es -> map said es' = map said es.
Proof.
  revert es'. induction es as [|[k q n i] es IH]; intros [|[k' q' n' i'] es']; try discriminate; [reflexivity|]. cbn [map untied said]. intros [= -> -> -> X]. now rewrite (IH es' X).
Qed.
Lemma spoken_same e e' : spoken e' = spoken e -> same_exn e e'.
Proof.
  assert (X : forall e e', spoken e' = spoken e -> e' = e \/ (exists es es', e = EForm es /\ e' = EForm es') \/ (exists z z', e = EField z /\ e' = EField z')).
  { clear. intros e e'. destruct e; cbn [spoken]; destruct e'; cbn [spoken]; try discriminate; intros Q; first [left; exact Q|right; left; now eauto|right; right; now eauto]. }
  intros Q. destruct (X e e' Q) as [->|[(es & es' & -> & ->)|(z & z' & -> & ->)]]; [constructor| |].
  - cbn in Q. injection Q as Q. constructor. now apply untied_said.
  - cbn in Q. constructor. destruct z, z'. cbn in *. congruence.
Qed.
Lemma map_again_r d fuel o o' id t l tags rs u (h : heap) :
  ou_igd o' = ou_igd o -> ou_igm o' = ou_igm o -> ou_tags o' = ou_tags o -> tame_form d t ->
  match u with UIgnore | UFalsy | UBad _ => True | _ => False end -> nth_error h id = Some (t, l) ->
  let x := ev_map W fuel o src root id tags rs u Raise h in
  let y := ev_map W fuel o' src root id tags rs u Raise (snd x) in
  match fst x, fst y with
  | Ok es, Ok es' => es = [] /\ es' = []
  | Exn e, Exn e' => spoken e' = spoken e
  | _, _ => False
  end /\ snd y = snd x /\ exists l2, nth_error (snd x) id = Some (t, l2).
Proof.
  intros A B C D U H. cbv zeta. unfold ev_map. rewrite C. set (tags' := match tags with [] => ou_tags o | _ => tags end).
  set (l1 := if rs then dropped tags' (ft_fields t) l else l).
  assert (R1 : (if rs then ev_reset id tags' (ft_fields t) else eret tt) ([], h) = (Ok tt, ([], replace_nth id (t, l1) h))).
  { unfold l1. destruct rs; [now apply ev_reset_is|]. unfold eret. now rewrite (replace_id _ _ _ H). }
  rewrite H, R1. assert (H1 : nth_error (replace_nth id (t, l1) h) id = Some (t, l1)) by (eapply replace_hit; exact H).
  destruct (form_map_alike_r d fuel o o' id tags' u t A B D U _ _ l1 l1 H1 H1) as (S0 & x0 & _ & new0 & _ & NS0 & F0 & _).
  (* the form after the first run, and the second run on it *)
  pose (h2 := replace_nth id (t, upd l1 S0) h : heap).
  assert (H2 : nth_error h2 id = Some (t, upd l1 S0)) by (eapply replace_hit; eauto).
  set (l2 := if rs then dropped tags' (ft_fields t) (upd l1 S0) else upd l1 S0).
  assert (R2 : (if rs then ev_reset id tags' (ft_fields t) else eret tt) ([], h2) = (Ok tt, ([], replace_nth id (t, l2) h2))).
  { unfold l2. destruct rs; [now apply ev_reset_is|]. unfold eret. now rewrite (replace_id _ _ _ H2). }
  destruct (form_map_alike_r d fuel o o' id tags' u t A B D U _ (replace_nth id (t, l2) h2) l1 l2 H1 (replace_hit _ _ _ _ H2)) as (S & x & x' & new & new' & NS & F1 & F2 & L & UN).
  assert (SAME : x0 = x /\ new0 = new /\ upd l1 S0 = upd l1 S).
  { rewrite F0 in F1. injection F1 as Q1 Q2 Q3. split; [exact Q1|]. split; [exact Q2|].
    assert (Z1 : nth_error (replace_nth id (t, upd l1 S0) (replace_nth id (t, l1) h)) id = Some (t, upd l1 S0)) by (eapply replace_hit; exact H1). rewrite Q3 in Z1. rewrite (replace_hit _ _ _ _ H1) in Z1. now injection Z1. }
  destruct SAME as (-> & -> & US). rewrite F0, replace_twice.
  assert (LL : upd l2 S = upd l1 S0).
  { unfold l2. rewrite US. unfold l1. destruct rs; [|apply upd_twice]. rewrite dropped_upd by exact NS. now rewrite dropped_twice. }
  assert (Z : replace_nth id (t, upd l2 S) (replace_nth id (t, l2) h2) = h2) by (rewrite LL, replace_twice; now apply replace_id).
  rewrite Z in F2.
  destruct x as [[]|e], x' as [[]|e']; cbn in L; try contradiction; cbn [fst snd]; change (replace_nth id (t, upd l1 S0) h) with h2; rewrite H2, R2, F2.
  - cbn [fst snd]. split; [|split; [reflexivity|eauto]]. destruct new, new'; try discriminate; [auto|]. cbn [spoken]. now rewrite UN.
  - cbn [fst snd]. split; [exact L|]. split; [reflexivity|eauto].
Qed.
End Form.

Lemma tame_direct d : forall f, tame d f -> direct f.
Proof.
  induction d as [|d IH]; intros f D; [contradiction|]. destruct D as [TO D]. destruct f as [o k]. cbn [f_opts f_kind] in *.
  constructor.
  - split; rewrite ?(to_compute _ TO), ?(to_parse _ TO), ?(to_munge _ TO), ?(to_filter _ TO), ?(to_validate _ TO), ?(to_resolve _ TO); try easy.
    + intros x Hx. pose proof (to_src _ TO x Hx). now destruct x.
    + pose proof (to_default _ TO) as DD. destruct (o_default o) as [[h|]|v|q]; try contradiction; easy.
  - destruct k; try contradiction; constructor; eauto.
    + now apply IH.
    + now apply IH.
    + destruct D as (_ & _ & ->). easy.
Qed.
Lemma tame_form_direct d t : tame_form d t -> direct_form t.
Proof. destruct t as [n fs]. intros D. constructor. intros f I. eapply tame_direct. now apply D. Qed.

Lemma form_map_again W src root Loc d fuel id t l tags rs u s :
  psource_root src = Ok root -> regime (w_env W) src root Loc ->
  (forall v w, psource_parse (w_env W) src TyStr v = Ok w -> exists s, w = VStr s) ->
  nth_error (forms s) id = Some (t, l) -> tame_form d t ->
  match u with UIgnore | UFalsy | UBad _ => True | _ => False end -> mapping_context s ->
  let x := Form_map W fuel id (ASrc (SBase (BPlain src))) tags rs u Collect s in
  let y := Form_map W fuel id (ASrc (SBase (BPlain src))) tags rs u Collect (snd x) in
  match fst x, fst y with
  | Ok es, Ok es' => map said es' = map said es
  | Exn e, Exn e' => e' = e
  | _, _ => False
  end /\ forms (snd y) = forms (snd x).
Proof.
  intros HR RG STR T D U (C1 & C2 & C3). cbv zeta.
  assert (DU : direct_unm u) by (destruct u; try contradiction; constructor).
  destruct (map_refines W fuel src root Loc id t l tags rs u Collect s HR RG T (tame_form_direct _ _ D) DU C1 C2 C3) as (A1 & A2 & A3 & _).
  set (x := Form_map W fuel id (ASrc (SBase (BPlain src))) tags rs u Collect s) in *.
  assert (OO : outer_of (snd x) = Outer (length (paths (snd x))) (ou_igd (outer_of s)) (ou_igm (outer_of s)) (ou_tags (outer_of s)) (ou_form (outer_of s)) (ou_field (outer_of s))).
  { unfold outer_of. now rewrite A3. }
  destruct (map_again W root Loc src RG STR d fuel (outer_of s) (outer_of (snd x)) id t l tags rs u (forms s)) as (M1 & M2 & l2 & M3); auto; try (now rewrite OO).
  rewrite <- A2 in M1, M2, M3.
  rewrite <- A3 in C1, C2, C3.
  destruct (map_refines W fuel src root Loc id t l2 tags rs u Collect (snd x) HR RG M3 (tame_form_direct _ _ D) DU C1 C2 C3) as (B1 & B2 & _).
  rewrite B1, B2, A1. auto.
Qed.
Lemma form_map_again_r W src root Loc d fuel id t l tags rs u s :
  psource_root src = Ok root -> regime (w_env W) src root Loc ->
  (forall v w, psource_parse (w_env W) src TyStr v = Ok w -> exists s, w = VStr s) ->
  nth_error (forms s) id = Some (t, l) -> tame_form d t ->
  match u with UIgnore | UFalsy | UBad _ => True | _ => False end -> mapping_context s ->
  let x := Form_map W fuel id (ASrc (SBase (BPlain src))) tags rs u Raise s in
  let y := Form_map W fuel id (ASrc (SBase (BPlain src))) tags rs u Raise (snd x) in
  same_raised (fst x) (fst y) /\ forms (snd y) = forms (snd x).
Proof.
  intros HR RG STR T D U (C1 & C2 & C3). cbv zeta.
  assert (DU : direct_unm u) by (destruct u; try contradiction; constructor).
  destruct (map_refines W fuel src root Loc id t l tags rs u Raise s HR RG T (tame_form_direct _ _ D) DU C1 C2 C3) as (A1 & A2 & A3 & _).
  set (x := Form_map W fuel id (ASrc (SBase (BPlain src))) tags rs u Raise s) in *.
  assert (OO : outer_of (snd x) = Outer (length (paths (snd x))) (ou_igd (outer_of s)) (ou_igm (outer_of s)) (ou_tags (outer_of s)) (ou_form (outer_of s)) (ou_field (outer_of s))).
  { unfold outer_of. now rewrite A3. }
  destruct (map_again_r W root Loc src RG STR d fuel (outer_of s) (outer_of (snd x)) id t l tags rs u (forms s)) as (M1 & M2 & l2 & M3); auto; try (now rewrite OO).
  rewrite <- A2 in M1, M2, M3.
  rewrite <- A3 in C1, C2, C3.
  destruct (map_refines W fuel src root Loc id t l2 tags rs u Raise (snd x) HR RG M3 (tame_form_direct _ _ D) DU C1 C2 C3) as (B1 & B2 & _).
  rewrite B1, B2, A1. split; [|exact M2]. unfold same_raised. destruct (fst (ev_map _ _ _ _ _ _ _ _ _ _ (forms s))); destruct (fst (ev_map _ _ _ _ _ _ _ _ _ _ _)); auto. now apply spoken_same.
Qed.
Lemma json_strings E d strict loc v w : psource_parse E (SJson d strict loc) TyStr v = Ok w -> exists s, w = VStr s.
Proof.
  cbn. unfold json_as_string, as_string. destruct strict, v; try discriminate; intros [= <-]; eauto.
Qed.
Lemma native_strings E d a i loc v w : psource_parse E (SDefault d a i loc) TyStr v = Ok w -> exists s, w = VStr s.
Proof. cbn. unfold as_string. destruct v; try discriminate; intros [= <-]; eauto. Qed.
