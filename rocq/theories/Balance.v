(** * Balance: whatever a mapping does, it leaves the context and the paths as it
    found them. *)
From Verif Require Import PyBase PyStr Source Field Context Fields Shape.
From Coq Require Import Lia.

Definition shapes (s : st) : list shape := map pshape (paths s).

(** What every operation preserves: the stack exactly; existing paths up to cached
    values; the class of every form; error lists only grow. *)
Record stable (s s' : st) : Prop := Stable {
  stable_stk : stk s' = stk s;
  stable_paths : exists more, shapes s' = shapes s ++ more /\ Forall wf_shape more;
  stable_forms : forall i t l, nth_error (forms s) i = Some (t, l) ->
                 exists l', nth_error (forms s') i = Some (t, l');
  stable_errs : forall i m l, nth_error (errs s) i = Some (m, l) ->
                exists more, nth_error (errs s') i = Some (m, l ++ more)
}.

Lemma stable_refl s : stable s s.
Proof.
  split; [reflexivity| | |].
  - exists []. now rewrite app_nil_r.
  - eauto.
  - intros i m l H. exists []. now rewrite app_nil_r.
Qed.

Lemma stable_trans s1 s2 s3 : stable s1 s2 -> stable s2 s3 -> stable s1 s3.
Proof.
  intros [A1 (m1 & B1 & C1) F1 E1] [A2 (m2 & B2 & C2) F2 E2]. split.
  - congruence.
  - exists (m1 ++ m2). rewrite B2, B1, app_assoc. split; [reflexivity|]. now apply Forall_app.
  - intros i t l H. destruct (F1 _ _ _ H) as [l' H']. eauto.
  - intros i m l H. destruct (E1 _ _ _ H) as [l1 H1]. destruct (E2 _ _ _ H1) as [l2 H2].
    exists (l1 ++ l2). now rewrite app_assoc.
Qed.

(** ** The stack and the paths agree *)

Definition path_c (c : cval) : Prop := c = CNone \/ exists p, c = CPath p.
(** Path [p] is installed by a frame of [l]. *)
Definition installs (p : nat) (l : list frame) : Prop :=
  exists f, In f l /\ alookup f "src_path" = Some (CPath p).

(** Undoing the frames one by one from the top, each frame's key is the last key of
    the path current below it; a frame that installs a path installs a new one. *)
Fixpoint wfs (sh : list shape) (l : list frame) : Prop :=
  match l with
  | [] => False
  | f :: rest =>
      match alookup f "src_path" with
      | Some c =>
          (c = CNone \/ exists p, c = CPath p /\ (p < length sh)%nat /\ ~ installs p rest) /\
          (rest = [] \/ wfs sh rest)
      | None =>
          match alookup f "src" with
          | None => wfs sh rest
          | Some c =>
              exists p s0, lookup "src_path" rest = Some (CPath p) /\
                           nth_error sh p = Some (sh_append (key_of_cval c) s0) /\
                           wf_shape s0 /\ wfs (replace_nth p s0 sh) rest
          end
      end
  end.

Record wf (s : st) : Prop := Wf {
  wf_stk : wfs (shapes s) (stk s);
  wf_paths : Forall wf_shape (shapes s)
}.

Lemma replace_nth_length {A} n (x : A) l : length (replace_nth n x l) = length l.
Proof.
  unfold replace_nth. destruct (nth_error l n) eqn:H; [|reflexivity].
  assert (n < length l)%nat by (apply nth_error_Some; congruence).
  rewrite app_length, firstn_length. cbn [length]. rewrite skipn_length. lia.
Qed.
Lemma nth_replace_eq {A} n (x : A) l : (n < length l)%nat -> nth_error (replace_nth n x l) n = Some x.
Proof.
  intros H. unfold replace_nth. destruct (nth_error l n) eqn:E; [|apply nth_error_Some in H; congruence].
  rewrite nth_error_app2; rewrite firstn_length; [|lia].
  replace (n - Nat.min n (length l))%nat with O by lia. reflexivity.
Qed.
Lemma nth_replace_neq {A} n m (x : A) l : n <> m -> nth_error (replace_nth n x l) m = nth_error l m.
Proof.
  intros H. unfold replace_nth. destruct (nth_error l n) as [y|] eqn:E; [|reflexivity].
  assert (L : (n < length l)%nat) by (apply nth_error_Some; congruence).
  destruct (Nat.lt_ge_cases m n) as [Hm|Hm].
  - rewrite nth_error_app1 by (rewrite firstn_length; lia).
    rewrite <- (firstn_skipn n l) at 2. rewrite nth_error_app1 by (rewrite firstn_length; lia).
    reflexivity.
  - rewrite nth_error_app2 by (rewrite firstn_length; lia). rewrite firstn_length.
    replace (m - Nat.min n (length l))%nat with (S (m - S n)) by lia. cbn [nth_error].
    rewrite <- (firstn_skipn (S n) l) at 2. rewrite nth_error_app2 by (rewrite firstn_length; lia).
    rewrite firstn_length. f_equal. lia.
Qed.
Lemma nth_ext_eq {A} (l l' : list A) : (forall i, nth_error l i = nth_error l' i) -> l = l'.
Proof.
  revert l'; induction l as [|a l IH]; intros [|b l'] H; try reflexivity.
  - specialize (H O); discriminate.
  - specialize (H O); discriminate.
  - pose proof (H O) as H0; cbn in H0; inversion H0; subst. f_equal. apply IH.
    intros i. exact (H (S i)).
Qed.
Lemma replace_same {A} n (x : A) l : nth_error l n = Some x -> replace_nth n x l = l.
Proof.
  intros H. apply nth_ext_eq. intros i. destruct (Nat.eq_dec n i) as [<-|N].
  - rewrite nth_replace_eq; [now rewrite H|]. apply nth_error_Some; congruence.
  - now apply nth_replace_neq.
Qed.
Lemma replace_twice {A} n (x y : A) l : replace_nth n x (replace_nth n y l) = replace_nth n x l.
Proof.
  destruct (nth_error l n) as [z|] eqn:H.
  - assert (L : (n < length l)%nat) by (apply nth_error_Some; congruence).
    apply nth_ext_eq. intros i. destruct (Nat.eq_dec n i) as [<-|N].
    + rewrite !nth_replace_eq; auto. now rewrite replace_nth_length.
    + now rewrite !nth_replace_neq.
  - replace (replace_nth n y l) with l; [reflexivity|]. unfold replace_nth. now rewrite H.
Qed.
Lemma replace_app {A} n (x : A) l m : (n < length l)%nat -> replace_nth n x (l ++ m) = replace_nth n x l ++ m.
Proof.
  intros L. apply nth_ext_eq. intros i. destruct (Nat.eq_dec n i) as [<-|N].
  - rewrite nth_replace_eq by (rewrite app_length; lia).
    rewrite nth_error_app1 by (rewrite replace_nth_length; lia). now rewrite nth_replace_eq.
  - rewrite nth_replace_neq by auto. destruct (Nat.lt_ge_cases i (length l)) as [H|H].
    + rewrite !nth_error_app1 by (rewrite ?replace_nth_length; lia). now rewrite nth_replace_neq.
    + rewrite !nth_error_app2 by (rewrite ?replace_nth_length; lia). now rewrite replace_nth_length.
Qed.
Lemma map_replace {A B} (f : A -> B) n x l : map f (replace_nth n x l) = replace_nth n (f x) (map f l).
Proof.
  unfold replace_nth. rewrite nth_error_map. destruct (nth_error l n); [|reflexivity].
  cbn [option_map]. rewrite map_app, firstn_map. cbn [map]. now rewrite skipn_map.
Qed.
Lemma Forall_replace {A} (P : A -> Prop) n x l : P x -> Forall P l -> Forall P (replace_nth n x l).
Proof.
  intros Hx H. unfold replace_nth. destruct (nth_error l n); [|exact H].
  rewrite <- (firstn_skipn n l) in H. apply Forall_app in H. destruct H as [H1 H2].
  apply Forall_app; split; [exact H1|]. constructor; [exact Hx|].
  rewrite <- (firstn_skipn n l). 
  apply Forall_forall. intros y Hy. rewrite (firstn_skipn n l) in Hy.
  rewrite Forall_forall in H2. apply H2.
  clear - Hy. revert n Hy. induction l as [|a l IH]; intros [|n] Hy; cbn in *; auto; try contradiction.
Qed.

Lemma installs_lookup p l : lookup "src_path" l = Some (CPath p) -> installs p l.
Proof.
  induction l as [|f l IH]; cbn; [discriminate|]. destruct (alookup f "src_path") as [c|] eqn:H.
  - intros [= ->]. exists f. split; [now left|exact H].
  - intros H'. destruct (IH H') as (g & G1 & G2). exists g. split; [now right|exact G2].
Qed.
Lemma installs_cons p f l : installs p l -> installs p (f :: l).
Proof. intros (g & G1 & G2). exists g. split; [now right|exact G2]. Qed.

(** [wfs] only looks at installed paths. *)
Lemma wfs_agree l : forall sh sh', (length sh <= length sh')%nat ->
  (forall p, installs p l -> nth_error sh' p = nth_error sh p) -> wfs sh l -> wfs sh' l.
Proof.
  induction l as [|f rest IH]; intros sh sh' L H; cbn; [auto|].
  assert (R : forall p, installs p rest -> nth_error sh' p = nth_error sh p)
    by (intros p Hp; apply H; now apply installs_cons).
  destruct (alookup f "src_path") as [c|] eqn:Hp.
  - intros [HC HR]. split.
    + destruct HC as [HC|(p & P1 & P2 & P3)]; [now left|]. right. exists p. repeat split; auto. lia.
    + destruct HR as [HR|HR]; [now left|right]. eauto.
  - destruct (alookup f "src") as [c|] eqn:Hs; [|eauto].
    intros (p & s0 & P1 & P2 & P3 & P4). exists p, s0.
    pose proof (R p (installs_lookup _ _ P1)) as Rp.
    repeat split; auto; [congruence|].
    assert (Lp : (p < length sh)%nat) by (apply nth_error_Some; congruence).
    eapply IH; [|  |exact P4].
    + now rewrite !replace_nth_length.
    + intros q Hq. destruct (Nat.eq_dec p q) as [<-|N].
      * rewrite !nth_replace_eq; auto. lia.
      * rewrite !nth_replace_neq; auto.
Qed.

Lemma wfs_extend l sh more : wfs sh l -> wfs (sh ++ more) l.
Proof.
  revert sh; induction l as [|f rest IH]; intros sh; cbn; [auto|].
  destruct (alookup f "src_path") as [c|].
  - intros [HC HR]. split.
    + destruct HC as [HC|(p & P1 & P2 & P3)]; [now left|]. right. exists p. repeat split; auto.
      rewrite app_length; lia.
    + destruct HR as [HR|HR]; [now left|right]. auto.
  - destruct (alookup f "src") as [c|]; [|auto].
    intros (p & s0 & P1 & P2 & P3 & P4). exists p, s0.
    assert (Lp : (p < length sh)%nat) by (apply nth_error_Some; congruence).
    repeat split; auto.
    + now rewrite nth_error_app1.
    + rewrite replace_app by exact Lp. auto.
Qed.

Lemma stable_wf s s' : wf s -> stable s s' -> wf s'.
Proof.
  intros [W1 W2] [A (more & B & C) _ _]. split.
  - rewrite A, B. now apply wfs_extend.
  - rewrite B. now apply Forall_app.
Qed.

Lemma wfs_lookup sh l : wfs sh l -> exists c, lookup "src_path" l = Some c /\ path_c c.
Proof.
  revert sh; induction l as [|f rest IH]; intros sh; cbn; [contradiction|].
  destruct (alookup f "src_path") as [c|].
  - intros [HC _]. exists c. split; [reflexivity|]. destruct HC as [->|(p & -> & _)]; [now left|right; eauto].
  - destruct (alookup f "src") as [c|]; [|apply IH].
    intros (p & s0 & P1 & _). rewrite P1. eexists; split; [reflexivity|]. right; eauto.
Qed.

Lemma wfs_installs_bound sh l p : wfs sh l -> installs p l -> (p < length sh)%nat.
Proof.
  revert sh; induction l as [|f rest IH]; intros sh; cbn; [contradiction|].
  intros W (g & [<-|G1] & G2).
  - rewrite G2 in W. destruct W as [[W|(q & Q1 & Q2 & _)] _]; [discriminate|]. congruence.
  - assert (I : installs p rest) by (exists g; auto).
    destruct (alookup f "src_path") as [c|].
    + destruct W as [_ [->|W]]; [destruct I as (? & [] & _)|]. eauto.
    + destruct (alookup f "src") as [c|]; [|eauto].
      destruct W as (q & s0 & _ & _ & _ & W). specialize (IH _ W I).
      now rewrite replace_nth_length in IH.
Qed.

(** ** Good computations *)

Definition goodat {A} (m : M A) (s : st) : Prop := stable s (snd (m s)).
Definition good {A} (m : M A) : Prop := forall s, wf s -> goodat m s.

Lemma good_ret {A} (a : A) : good (ret a).
Proof. intros s _. apply stable_refl. Qed.
Lemma good_raise {A} e : good (@raise A e).
Proof. intros s _. apply stable_refl. Qed.
Lemma good_lift {A} (r : res A) : good (lift r).
Proof. intros s _. apply stable_refl. Qed.
Lemma good_get {A} (f : st -> A) : good (get f).
Proof. intros s _. apply stable_refl. Qed.
Lemma good_pure {A} (f : st -> res A) : good (fun s => (f s, s)).
Proof. intros s _. apply stable_refl. Qed.
Lemma goodat_bind {A B} (m : M A) (f : A -> M B) s :
  wf s -> goodat m s -> (forall a, good (f a)) -> goodat (bind m f) s.
Proof.
  intros W H Hf. unfold goodat, bind in *. destruct (m s) as [[a|e] s']; cbn in *; [|exact H].
  eapply stable_trans; [exact H|]. apply Hf. eapply stable_wf; eauto.
Qed.
Lemma good_bind {A B} (m : M A) (f : A -> M B) :
  good m -> (forall a, good (f a)) -> good (bind m f).
Proof. intros H Hf s W. apply goodat_bind; auto. Qed.
Lemma good_catch {A B} (m : M A) (f : res A -> M B) :
  good m -> (forall r, good (f r)) -> good (catch m f).
Proof.
  intros H Hf s W. unfold goodat, catch. specialize (H s W). unfold goodat in H.
  destruct (m s) as [r s']; cbn in *.
  eapply stable_trans; [exact H|]. apply Hf. eapply stable_wf; eauto.
Qed.
Lemma good_if {A} (b : bool) (m n : M A) : good m -> good n -> good (if b then m else n).
Proof. destruct b; auto. Qed.

Lemma good_ctx_get_opt k : good (ctx_get_opt k).
Proof. apply good_get. Qed.
Lemma good_ctx_get k : good (ctx_get k).
Proof. apply good_bind; [apply good_get|]. intros [c|]; [apply good_ret|apply good_raise]. Qed.
Lemma good_cur_path : good cur_path.
Proof. apply good_bind; [apply good_ctx_get|]. intros []; try apply good_raise. apply good_ret. Qed.

Lemma stable_shapes_eq s s' :
  stk s' = stk s -> shapes s' = shapes s -> forms s' = forms s -> errs s' = errs s -> stable s s'.
Proof.
  intros A B C D. split; [exact A| | |].
  - exists []. rewrite app_nil_r. auto.
  - rewrite C. eauto.
  - rewrite D. intros i m l H. exists []. now rewrite app_nil_r.
Qed.

Lemma good_on_path {A} W pid (op : env -> entries_of -> path -> path * res A) :
  (forall E e, preads (op E e)) -> good (on_path W pid op).
Proof.
  intros H s _. unfold goodat, on_path. destruct (nth_error (paths s) pid) as [p|] eqn:Hp;
    [|apply stable_refl].
  specialize (H (w_env W) (entries s) p). destruct (op (w_env W) (entries s) p) as [p' r]. cbn in H |- *.
  apply stable_shapes_eq; try reflexivity. unfold shapes. cbn. rewrite map_replace.
  apply replace_same. rewrite nth_error_map, Hp. cbn. now rewrite H.
Qed.

(** ** Opening and closing a block *)

Definition blk_ok (kw : frame) : Prop := alookup kw "src_path" = None.

Lemma push_effect W kw s e s1 : push W kw s = (Exn e, s1) -> wf s -> blk_ok kw -> stable s s1.
Proof.
  unfold push. intros H WF HB. destruct (alookup kw "src") as [c|].
  - assert (K : forall k, (bind cur_path (fun pid =>
        bind (on_path W pid (fun _ _ p => (p_append k p, Ok tt))) (fun _ => push_frame kw))) s = (Exn e, s1)
        -> stable s s1).
    { clear H. intros k H. unfold bind in H. pose proof (good_cur_path s WF) as G. unfold goodat in G.
      destruct (cur_path s) as [[pid|e'] s'] eqn:HC; cbn in G; [|now inversion H; subst].
      unfold on_path in H. destruct (nth_error (paths s') pid); inversion H; subst. exact G. }
    destruct c; try (apply K in H; exact H).
    unfold bind in H. destruct (source_path (w_env W) (entries s) s0); [discriminate|].
    inversion H; subst. apply stable_refl.
  - discriminate.
Qed.

Lemma cur_path_run s : wf s ->
  (exists p, cur_path s = (Ok p, s) /\ lookup "src_path" (stk s) = Some (CPath p) /\
             (p < length (paths s))%nat) \/
  (lookup "src_path" (stk s) = Some CNone /\ exists e, cur_path s = (Exn e, s)).
Proof.
  intros [W _]. destruct (wfs_lookup _ _ W) as (c & Hc & PC).
  unfold cur_path, ctx_get, ctx_get_opt, bind, get. rewrite Hc. cbn.
  destruct PC as [->|[p ->]].
  - right. split; [reflexivity|]. eexists; reflexivity.
  - left. exists p. repeat split. apply installs_lookup in Hc.
    pose proof (wfs_installs_bound _ _ _ W Hc) as L. unfold shapes in L. now rewrite map_length in L.
Qed.

(** Close: the state reached from the opened one by a stable step is closed back to
    the original. *)
Lemma with_ctx_good {A} W kw (body : M A) : blk_ok kw -> good body -> good (with_ctx W kw body).
Proof.
  intros HB HG s WF. unfold goodat, with_ctx, closing.
  destruct (push W kw s) as [[[]|e] s1] eqn:HP; [|eapply push_effect; eauto].
  unfold push in HP. destruct (alookup kw "src") as [c|] eqn:HS.
  - assert (K : forall k, key_of_cval c = k -> (bind cur_path (fun pid =>
        bind (on_path W pid (fun _ _ p => (p_append k p, Ok tt))) (fun _ => push_frame kw))) s = (Ok tt, s1)
        -> stable s (snd (let '(r, s2) := body s1 in
             match restore W s2 with (Exn e, s3) => (Exn e, s3) | (Ok _, s3) => (r, s3) end))).
    { clear HP. intros k Hk HP. unfold bind in HP.
      destruct (cur_path_run s WF) as [(p & C1 & C2 & C3)|(C1 & e & C2)];
        [|rewrite C2 in HP; discriminate].
      rewrite C1 in HP. unfold on_path in HP.
      destruct (nth_error (paths s) p) as [q|] eqn:Hq; [|apply nth_error_None in Hq; lia].
      cbn in HP. inversion HP; subst s1; clear HP.
      assert (Hq' : nth_error (shapes s) p = Some (pshape q)) by (unfold shapes; now rewrite nth_error_map, Hq).
      assert (WQ : wf_shape (pshape q)).
      { pose proof (wf_paths _ WF) as F. rewrite Forall_forall in F. apply F. eapply nth_error_In; eauto. }
      set (s1 := St (kw :: stk s) (forms s) (replace_nth p (p_append k q) (paths s)) (errs s)).
      assert (S1 : shapes s1 = replace_nth p (sh_append k (pshape q)) (shapes s)).
      { unfold s1, shapes. cbn. rewrite map_replace. now rewrite p_append_shape. }
      assert (Lp : (p < length (shapes s))%nat) by (apply nth_error_Some; congruence).
      assert (W1 : wf s1).
      { split.
        - rewrite S1. cbn [s1 stk wfs]. rewrite HB, HS. exists p, (pshape q). repeat split; auto.
          + rewrite Hk. now rewrite nth_replace_eq.
          + rewrite replace_twice, replace_same by exact Hq'. exact (wf_stk _ WF).
        - rewrite S1. apply Forall_replace; [now apply wf_append|exact (wf_paths _ WF)]. }
      pose proof (HG s1 W1) as G. unfold goodat in G.
    try match goal with |- context [body ?x] => change x with s1 end. destruct (body s1) as [r s2]. cbn in G.
      destruct G as [GA (more & GB & GC) GF GE].
      unfold restore. rewrite GA. cbn [s1 stk].
      unfold has_key. rewrite HS, HB. cbn [andb negb].
      set (s2' := St (stk s) (forms s2) (paths s2) (errs s2)).
      unfold bind, set_stk. fold s2'.
      assert (C2' : cur_path s2' = (Ok p, s2')).
      { unfold cur_path, ctx_get, ctx_get_opt, bind, get. cbn [s2' stk]. rewrite C2. reflexivity. }
      rewrite C2'. unfold on_path. cbn [s2' paths].
      assert (N2 : nth_error (shapes s2) p = Some (sh_append k (pshape q))).
      { rewrite GB, S1. rewrite nth_error_app1 by (rewrite replace_nth_length; exact Lp).
        now apply nth_replace_eq. }
      unfold shapes in N2. rewrite nth_error_map in N2.
      destruct (nth_error (paths s2) p) as [q2|] eqn:Hq2; [|discriminate]. cbn in N2.
      injection N2 as N2. destruct (pop_append _ _ _ WQ N2) as (q3 & Q1 & Q2). rewrite Q1.
      cbn [stk forms errs]. split; cbn [stk forms errs paths snd s2'].
      - reflexivity.
      - exists more. split; [|exact GC]. unfold shapes at 1. cbn [paths]. rewrite map_replace.
        fold (shapes s2). rewrite GB, S1, Q2.
        rewrite replace_app by (rewrite replace_nth_length; exact Lp).
        rewrite replace_twice, replace_same by exact Hq'. reflexivity.
      - exact GF.
      - exact GE. }
    destruct c; try (eapply K; [|exact HP]; reflexivity).
    clear K. unfold bind in HP. destruct (source_path (w_env W) (entries s) s0) as [p|e] eqn:Hsp; [|discriminate].
    cbn in HP. inversion HP; subst s1; clear HP.
    set (s1 := St ((("src_path", CPath (length (paths s))) :: kw) :: stk s) (forms s) (paths s ++ [p]) (errs s)).
    assert (S1 : shapes s1 = shapes s ++ [pshape p]) by (unfold shapes; cbn; now rewrite map_app).
    assert (WP : wf_shape (pshape p)) by exact (source_path_wf _ _ _ _ Hsp).
    assert (W1 : wf s1).
    { split.
      - rewrite S1. cbn [s1 stk wfs alookup]. cbn. split; [|right; now apply wfs_extend, wf_stk].
        right. eexists; split; [reflexivity|]. split.
        + rewrite app_length. unfold shapes. rewrite map_length. cbn. lia.
        + intros I. pose proof (wfs_installs_bound _ _ _ (wf_stk _ WF) I) as L. unfold shapes in L.
          rewrite map_length in L. lia.
      - rewrite S1. apply Forall_app; split; [exact (wf_paths _ WF)|auto]. }
    pose proof (HG s1 W1) as G. unfold goodat in G.
    try match goal with |- context [body ?x] => change x with s1 end. destruct (body s1) as [r s2]. cbn in G.
    destruct G as [GA (more & GB & GC) GF GE].
    unfold restore. rewrite GA. cbn [s1 stk]. unfold bind, set_stk.
    unfold has_key. cbn [alookup]. cbn. rewrite HS. cbn.
    split; cbn [stk forms errs paths snd]; [reflexivity| |exact GF|exact GE].
    exists (pshape p :: more). split; [|constructor; assumption].
    unfold shapes at 1. cbn [paths]. fold (shapes s2). rewrite GB, S1. now rewrite <- app_assoc.
  - cbn in HP. inversion HP; subst s1; clear HP.
    set (s1 := St (kw :: stk s) (forms s) (paths s) (errs s)).
    assert (W1 : wf s1).
    { split; [|exact (wf_paths _ WF)]. cbn [s1 stk wfs]. rewrite HB, HS. exact (wf_stk _ WF). }
    pose proof (HG s1 W1) as G. unfold goodat in G.
    try match goal with |- context [body ?x] => change x with s1 end. destruct (body s1) as [r s2]. cbn in G.
    destruct G as [GA (more & GB & GC) GF GE].
    unfold restore. rewrite GA. cbn [s1 stk]. unfold bind, set_stk.
    unfold has_key. rewrite HS. cbn.
    split; cbn [stk forms errs paths snd]; [reflexivity| |exact GF|exact GE].
    exists more. auto.
Qed.

Lemma with_reset_good {A} W (body : M A) : good body -> good (with_reset W body).
Proof.
  intros HG s WF. unfold goodat, with_reset, closing, push_frame. cbv beta iota.
  set (s1 := St ([("src", CNone); ("src_path", CNone)] :: stk s) (forms s) (paths s) (errs s)).
  assert (W1 : wf s1).
  { split; [|exact (wf_paths _ WF)]. cbn. split; [now left|]. right. exact (wf_stk _ WF). }
  pose proof (HG s1 W1) as G. unfold goodat in G.
    try match goal with |- context [body ?x] => change x with s1 end. destruct (body s1) as [r s2]. cbn in G.
  destruct G as [GA (more & GB & GC) GF GE].
  unfold restore. rewrite GA. cbn.
  split; cbn [stk forms errs paths snd]; [reflexivity| |exact GF|exact GE].
  exists more. auto.
Qed.

(** ** Rewinding *)

Fixpoint apps (ks : list cval) (s : shape) : shape :=
  match ks with [] => s | c :: rest => apps rest (sh_append (key_of_cval c) s) end.
Lemma apps_app a b s : apps (a ++ b) s = apps b (apps a s).
Proof. revert s; induction a as [|c a IH]; intros s; cbn; auto. Qed.
Lemma apps_wf ks s : wf_shape s -> wf_shape (apps ks s).
Proof. revert s; induction ks as [|c ks IH]; intros s H; cbn; auto using wf_append. Qed.

Definition no_install (fs : list frame) : Prop := Forall (fun f => alookup f "src_path" = None) fs.

Lemma lookup_app_none k a b : Forall (fun f => alookup f k = None) a -> lookup k (a ++ b) = lookup k b.
Proof. induction 1 as [|f a H _ IH]; cbn; [reflexivity|]. now rewrite H. Qed.

Lemma src_frames_app a b : src_frames (a ++ b) =
  if forallb (fun f => negb (has_key "src_path" f)) a then src_frames a ++ src_frames b
  else src_frames a.
Proof.
  induction a as [|f a IH]; [reflexivity|]. cbn. destruct (has_key "src_path" f); [reflexivity|]. cbn.
  rewrite IH. destruct (alookup f "src"); destruct (forallb _ a); reflexivity.
Qed.

Lemma no_install_dec fs :
  (no_install fs /\ forallb (fun f => negb (has_key "src_path" f)) (rev fs) = true) \/
  (forallb (fun f => negb (has_key "src_path" f)) (rev fs) = false /\
   exists a f b c, fs = a ++ f :: b /\ no_install a /\ alookup f "src_path" = Some c).
Proof.
  induction fs as [|f fs IH].
  - left. split; [constructor|reflexivity].
  - cbn [rev]. rewrite forallb_app. unfold has_key. cbn. destruct (alookup f "src_path") as [c|] eqn:H.
    + right. split; [now rewrite andb_false_r|]. exists [], f, fs, c. repeat split; [constructor|exact H].
    + rewrite andb_true_r. destruct IH as [[I1 I2]|(I1 & a & g & b & c & -> & J1 & J2)].
      * left. split; [constructor; auto|exact I2].
      * right. split; [exact I1|]. exists (f :: a), g, b, c. repeat split; auto. constructor; auto.
Qed.

Lemma wfs_suffix fs rest : rest <> [] -> forall sh, wfs sh (fs ++ rest) -> exists sh', length sh' = length sh /\ wfs sh' rest.
Proof.
  intros NR. induction fs as [|f fs IH]; intros sh; cbn; [eauto|].
  destruct (alookup f "src_path") as [c|].
  - intros [_ [HN|HR]]; [|eauto]. apply app_eq_nil in HN. now destruct HN.
  - destruct (alookup f "src") as [c|]; [|auto].
    intros (p & s0 & _ & _ & _ & W). destruct (IH _ W) as (sh' & L & W').
    exists sh'. split; [|exact W']. now rewrite L, replace_nth_length.
Qed.

Lemma installs_app p a b : installs p b -> installs p (a ++ b).
Proof. intros (f & H1 & H2). exists f. split; [apply in_or_app; now right|exact H2]. Qed.

Lemma wfs_fresh q : forall fs rest sh, rest <> [] -> wfs sh (fs ++ rest) ->
  (exists f, In f fs /\ alookup f "src_path" = Some (CPath q)) -> ~ installs q rest.
Proof.
  induction fs as [|f fs IH]; intros rest sh NR W (g & G0 & G2); [contradiction|].
  destruct G0 as [<-|G1].
  - cbn in W. rewrite G2 in W. destruct W as [[W|(p & P1 & P2 & P3)] _]; [discriminate|].
    injection P1 as <-. intros I. apply P3. now apply installs_app.
  - cbn in W. destruct (alookup f "src_path") as [c|].
    + destruct W as [_ [HN|HR]]; [apply app_eq_nil in HN; now destruct HN|]. eapply IH; eauto.
    + destruct (alookup f "src") as [c|]; [|eapply IH; eauto].
      destruct W as (p & s0 & _ & _ & _ & W). eapply IH; eauto.
Qed.

Lemma unwind_path : forall fs rest p sh, lookup "src_path" rest = Some (CPath p) ->
  wfs sh (fs ++ rest) ->
  exists s0, nth_error sh p = Some (apps (src_frames (rev fs)) s0) /\ (wf_shape (apps (src_frames (rev fs)) s0) -> wf_shape s0) /\
             wfs (replace_nth p s0 sh) rest.
Proof.
  induction fs as [|f fs IH]; intros rest p sh HL W.
  - cbn in *. destruct (nth_error sh p) as [s|] eqn:N.
    + exists s. repeat split; auto. now rewrite replace_same.
    + apply nth_error_None in N. pose proof (wfs_installs_bound _ _ _ W (installs_lookup _ _ HL)). lia.
  - assert (NR : rest <> []) by (intros ->; discriminate).
    cbn [app] in W. cbn [wfs] in W. cbn [rev]. rewrite src_frames_app.
    destruct (alookup f "src_path") as [c|] eqn:HP.
    + assert (Z : src_frames [f] = []) by (cbn; unfold has_key; now rewrite HP).
      rewrite Z, app_nil_r.
      assert (E : forall b : bool, (if b then src_frames (rev fs) else src_frames (rev fs)) = src_frames (rev fs)) by now intros [].
      rewrite E. destruct W as [_ [HN|HR]]; [apply app_eq_nil in HN; now destruct HN|]. eapply IH; eauto.
    + destruct (alookup f "src") as [c|] eqn:HS.
      * assert (Z : src_frames [f] = [c]) by (cbn; unfold has_key; now rewrite HP, HS).
        rewrite Z. destruct W as (q & s1 & L1 & N1 & WS & W).
        destruct (no_install_dec fs) as [[I1 I2]|(I1 & a & g & b & d & Ef & J1 & J2)].
        -- rewrite I2. rewrite lookup_app_none in L1 by exact I1. rewrite HL in L1. injection L1 as <-.
           destruct (IH _ _ _ HL W) as (s0 & S1 & S2 & S3).
           assert (Lp : (p < length sh)%nat) by (apply nth_error_Some; congruence).
           rewrite nth_replace_eq in S1 by exact Lp. injection S1 as S1.
           exists s0. rewrite apps_app. cbn [apps]. rewrite <- S1. repeat split; auto.
           ++ intros _. apply S2. now rewrite <- S1.
           ++ now rewrite replace_twice in S3.
        -- rewrite I1. subst fs.
           assert (Lq : lookup "src_path" ((a ++ g :: b) ++ rest) = Some d).
           { rewrite <- app_assoc, lookup_app_none by exact J1. cbn. now rewrite J2. }
           rewrite Lq in L1. injection L1 as ->.
           assert (FQ : ~ installs q rest).
           { eapply wfs_fresh; [exact NR|exact W|]. exists g. split; [|exact J2].
             apply in_or_app. right. now left. }
           assert (NE : q <> p) by (intros ->; apply FQ; now apply installs_lookup).
           destruct (IH _ _ _ HL W) as (s0 & S1 & S2 & S3).
           rewrite nth_replace_neq in S1 by exact NE. exists s0. repeat split; auto.
           eapply wfs_agree; [| |exact S3].
           ++ now rewrite !replace_nth_length.
           ++ intros r Hr. destruct (Nat.eq_dec p r) as [<-|N].
              ** assert (Lp : (p < length sh)%nat) by (apply nth_error_Some; congruence).
                 rewrite !nth_replace_eq; rewrite ?replace_nth_length; auto.
              ** rewrite !(nth_replace_neq p) by auto. rewrite nth_replace_neq; [reflexivity|].
                 intros ->. now apply FQ.
      * assert (Z : src_frames [f] = []) by (cbn; unfold has_key; now rewrite HP, HS).
        rewrite Z, app_nil_r.
        assert (E : forall b : bool, (if b then src_frames (rev fs) else src_frames (rev fs)) = src_frames (rev fs)) by now intros [].
        rewrite E. eapply IH; eauto.
Qed.

Lemma unwind_none fs rest sh : lookup "src_path" rest = Some CNone -> wfs sh (fs ++ rest) -> wfs sh rest.
Proof.
  intros HL. revert sh. induction fs as [|f fs IH]; intros sh; [auto|]. cbn [app wfs].
  assert (NR : rest <> []) by (intros ->; discriminate).
  destruct (alookup f "src_path") as [c|].
  - intros [_ [HN|HR]]; [apply app_eq_nil in HN; now destruct HN|]. auto.
  - destruct (alookup f "src") as [c|]; [|auto].
    intros (p & s0 & L1 & N1 & WS & W). 
    destruct (no_install_dec fs) as [[I1 I2]|(I1 & a & g & b & d & Ef & J1 & J2)].
    + rewrite lookup_app_none in L1 by exact I1. congruence.
    + subst fs.
      assert (Lq : lookup "src_path" ((a ++ g :: b) ++ rest) = Some d).
      { rewrite <- app_assoc, lookup_app_none by exact J1. cbn. now rewrite J2. }
      rewrite Lq in L1. injection L1 as ->.
      assert (FQ : ~ installs p rest).
      { eapply wfs_fresh; [exact NR|exact W|]. exists g. split; [|exact J2].
        apply in_or_app. right. now left. }
      eapply wfs_agree; [| |exact (IH _ W)].
      * now rewrite replace_nth_length.
      * intros r Hr. rewrite nth_replace_neq; [reflexivity|]. intros ->. now apply FQ.
Qed.

Lemma cur_path_at s p : lookup "src_path" (stk s) = Some (CPath p) -> cur_path s = (Ok p, s).
Proof.
  intros H. unfold cur_path, ctx_get, ctx_get_opt, bind, get. now rewrite H.
Qed.
Lemma ctx_get_at s k c : lookup k (stk s) = Some c -> ctx_get k s = (Ok c, s).
Proof. intros H. unfold ctx_get, ctx_get_opt, bind, get. now rewrite H. Qed.

Lemma pops_run W p : forall ks s0 s, lookup "src_path" (stk s) = Some (CPath p) ->
  nth_error (shapes s) p = Some (apps ks s0) -> wf_shape s0 ->
  exists ps, repeat_m (length ks) (pid <- cur_path; on_path W pid (fun _ _ p => p_pop p)) s
             = (Ok tt, St (stk s) (forms s) ps (errs s)) /\
             map pshape ps = replace_nth p s0 (shapes s).
Proof.
  induction ks as [|c ks IH] using rev_ind; intros s0 s HL HN W0.
  - cbn in *. exists (paths s). split; [now destruct s|]. now rewrite replace_same.
  - rewrite app_length. cbn [length]. rewrite Nat.add_comm. cbn [plus repeat_m].
    rewrite apps_app in HN. cbn [apps] in HN.
    unfold bind at 1 2. rewrite (cur_path_at _ _ HL). unfold on_path at 1.
    assert (HN' := HN). unfold shapes in HN. rewrite nth_error_map in HN.
    destruct (nth_error (paths s) p) as [q|] eqn:Hq; [|discriminate]. cbn in HN. injection HN as HN.
    destruct (pop_append _ _ _ (apps_wf ks s0 W0) HN) as (q' & Q1 & Q2). rewrite Q1.
    set (s' := St (stk s) (forms s) (replace_nth p q' (paths s)) (errs s)).
    assert (S' : shapes s' = replace_nth p (apps ks s0) (shapes s)).
    { unfold s', shapes. cbn. now rewrite map_replace, Q2. }
    assert (Lp : (p < length (shapes s))%nat) by (apply nth_error_Some; congruence).
    destruct (IH s0 s') as (ps & E1 & E2); [exact HL| |exact W0|].
    + rewrite S'. now apply nth_replace_eq.
    + exists ps. split; [exact E1|]. rewrite E2, S'. now rewrite replace_twice.
Qed.

Lemma appends_run W p : forall ks sh0 s, lookup "src_path" (stk s) = Some (CPath p) ->
  nth_error (shapes s) p = Some sh0 ->
  exists ps, append_all W ks s = (Ok tt, St (stk s) (forms s) ps (errs s)) /\
             map pshape ps = replace_nth p (apps ks sh0) (shapes s).
Proof.
  induction ks as [|c ks IH]; intros sh0 s HL HN.
  - cbn in *. exists (paths s). split; [now destruct s|]. now rewrite replace_same.
  - cbn [append_all apps]. unfold bind at 1. rewrite (cur_path_at _ _ HL). unfold bind at 1, on_path at 1.
    assert (HN' := HN). unfold shapes in HN. rewrite nth_error_map in HN.
    destruct (nth_error (paths s) p) as [q|] eqn:Hq; [|discriminate]. cbn in HN. injection HN as HN.
    set (s' := St (stk s) (forms s) (replace_nth p (p_append (key_of_cval c) q) (paths s)) (errs s)).
    assert (S' : shapes s' = replace_nth p (sh_append (key_of_cval c) sh0) (shapes s)).
    { unfold s', shapes. cbn. rewrite map_replace, p_append_shape. now rewrite HN. }
    assert (Lp : (p < length (shapes s))%nat) by (apply nth_error_Some; congruence).
    destruct (IH (sh_append (key_of_cval c) sh0) s') as (ps & E1 & E2); [exact HL| |].
    + rewrite S'. now apply nth_replace_eq.
    + exists ps. split; [exact E1|]. rewrite E2, S'. now rewrite replace_twice.
Qed.

Lemma find_frame_split stop l i : find_frame stop l = Some i ->
  exists a f b, l = a ++ f :: b /\ length a = i.
Proof.
  revert i; induction l as [|f l IH]; intros i H; cbn in H; [discriminate|].
  destruct (stop f); [inversion H; subst; exists [], f, l; auto|].
  destruct (find_frame stop l) as [j|]; [|discriminate]. inversion H; subst.
  destruct (IH j eq_refl) as (a & g & b & -> & L). exists (f :: a), g, b. cbn. auto.
Qed.

Lemma shapes_wf_unwind sh p ks s0 : Forall wf_shape sh -> nth_error sh p = Some (apps ks s0) ->
  wf_shape (apps ks s0).
Proof. intros H N. rewrite Forall_forall in H. apply H. eapply nth_error_In; eauto. Qed.

Lemma with_rewind_goodat {A} W stop (body : M A) s : wf s -> good body ->
  find_frame stop (stk s) <> Some O -> goodat (with_rewind W stop body) s.
Proof.
  intros WF HG HF. unfold goodat, with_rewind.
  unfold bind at 1. unfold rewind. destruct (find_frame stop (stk s)) as [i|] eqn:Hi; [|apply stable_refl].
  destruct (find_frame_split _ _ _ Hi) as (a & f & b & Ea & La).
  destruct i as [|i]; [congruence|]. clear HF.
  assert (FS : firstn (S i) (stk s) = a).
  { rewrite Ea, <- La, firstn_app, Nat.sub_diag, firstn_all. apply app_nil_r. }
  assert (SS : skipn (S i) (stk s) = f :: b).
  { rewrite Ea, <- La, skipn_app, Nat.sub_diag, skipn_all. reflexivity. }
  rewrite FS, SS. set (rest := f :: b) in *.
  set (s1 := St rest (forms s) (paths s) (errs s)).
  pose proof (wf_stk _ WF) as WS. rewrite Ea in WS.
  assert (AN : rev a <> []) by (intros Z; apply (f_equal (@length frame)) in Z; rewrite rev_length, La in Z; discriminate).
  unfold bind at 1, set_stk at 1. fold s1.
  destruct (wfs_suffix a rest ltac:(discriminate) _ WS) as (sh' & _ & WR).
  destruct (wfs_lookup _ _ WR) as (c & Hc & PC).
  unfold bind at 1. rewrite (ctx_get_at s1 _ _ Hc).
  destruct PC as [->|[p ->]]; cbn [is_none_c].
  - unfold bind at 1, ret at 1. unfold ret at 1.
    assert (W1 : wf s1).
    { split; [|exact (wf_paths _ WF)]. cbn [s1 stk]. eapply unwind_none; eauto. }
    unfold closing. unfold ret at 1. pose proof (HG s1 W1) as G. unfold goodat in G.
    destruct (body s1) as [r s2]. cbn in G. destruct G as [GA (more & GB & GC) GF GE].
    unfold restore_frames. destruct (rev a) as [|f0 fr] eqn:Ra; [now elim AN|]. rewrite <- Ra.
    assert (Hc2 : lookup "src_path" (stk s2) = Some CNone) by (rewrite GA; exact Hc).
    unfold bind at 1. rewrite (ctx_get_at s2 _ _ Hc2). cbn [is_none_c]. unfold bind, ret. cbn [snd].
    rewrite rev_involutive, GA. cbn [s1 stk]. rewrite <- Ea.
    split; cbn [stk forms errs paths]; [reflexivity| |exact GF|exact GE]. exists more. auto.
  - destruct (unwind_path _ _ _ _ Hc WS) as (s0 & U1 & U2 & U3).
    assert (W0 : wf_shape s0) by (apply U2; eapply shapes_wf_unwind; [exact (wf_paths _ WF)|exact U1]).
    destruct (pops_run W p (src_frames (rev a)) s0 s1 Hc U1 W0) as (ps & P1 & P2).
    unfold bind at 1. rewrite P1. unfold ret at 1. cbn [s1 stk forms errs] in *.
    set (s1' := St rest (forms s) ps (errs s)).
    assert (S1' : shapes s1' = replace_nth p s0 (shapes s)) by exact P2.
    assert (Lp : (p < length (shapes s))%nat) by (apply nth_error_Some; congruence).
    assert (W1 : wf s1').
    { split.
      - rewrite S1'. exact U3.
      - rewrite S1'. apply Forall_replace; [exact W0|exact (wf_paths _ WF)]. }
    unfold closing. unfold ret at 1. pose proof (HG s1' W1) as G. unfold goodat in G.
    destruct (body s1') as [r s2]. cbn in G. destruct G as [GA (more & GB & GC) GF GE].
    unfold restore_frames. destruct (rev a) as [|f0 fr] eqn:Ra; [now elim AN|]. rewrite <- Ra in *.
    assert (Hc2 : lookup "src_path" (stk s2) = Some (CPath p)) by (rewrite GA; exact Hc).
    unfold bind at 1. rewrite (ctx_get_at s2 _ _ Hc2). cbn [is_none_c].
    destruct (appends_run W p (src_frames (rev a)) s0 s2 Hc2) as (ps2 & Q1 & Q2).
    { rewrite GB, S1', nth_error_app1 by (rewrite replace_nth_length; exact Lp).
      now apply nth_replace_eq. }
    unfold bind at 1. rewrite Q1. cbn [snd stk forms errs paths].
    rewrite rev_involutive, GA. cbn [s1' stk]. rewrite <- Ea.
    split; cbn [stk forms errs paths]; [reflexivity| |exact GF|exact GE].
    exists more. split; [|exact GC]. unfold shapes at 1. cbn [paths]. rewrite Q2, GB, S1'.
    rewrite replace_app by (rewrite replace_nth_length; exact Lp).
    now rewrite replace_twice, replace_same.
Qed.

(** ** Heap operations *)

Lemma good_new_form t : good (new_form t).
Proof.
  intros s _. unfold goodat, new_form. cbn. split; cbn; [reflexivity| | |].
  - exists []. now rewrite app_nil_r.
  - intros i t' l H. exists l. rewrite nth_error_app1; [exact H|]. apply nth_error_Some; congruence.
  - intros i m l H. exists []. now rewrite app_nil_r.
Qed.
Lemma good_new_errs m : good (new_errs m).
Proof.
  intros s _. unfold goodat, new_errs. cbn. split; cbn; [reflexivity| | |].
  - exists []. now rewrite app_nil_r.
  - eauto.
  - intros i m' l H. exists []. rewrite app_nil_r.
    rewrite nth_error_app1; [exact H|]. apply nth_error_Some; congruence.
Qed.
Lemma good_set_entries id l : good (set_entries id l).
Proof.
  intros s _. unfold goodat, set_entries. destruct (nth_error (forms s) id) as [[t l0]|] eqn:H;
    [|apply stable_refl]. cbn. split; cbn; [reflexivity| | |].
  - exists []. now rewrite app_nil_r.
  - intros i t' l' H'. destruct (Nat.eq_dec id i) as [<-|N].
    + rewrite H in H'. inversion H'; subst. exists l. apply nth_replace_eq. apply nth_error_Some; congruence.
    + exists l'. now rewrite nth_replace_neq.
  - intros i m l' H'. exists []. now rewrite app_nil_r.
Qed.
Lemma good_extend_errs eid es : good (extend_errs eid es).
Proof.
  intros s _. unfold goodat, extend_errs. destruct (nth_error (errs s) eid) as [[m l]|] eqn:H;
    [|apply stable_refl]. cbn. split; cbn; [reflexivity| |eauto|].
  - exists []. now rewrite app_nil_r.
  - intros i m' l' H'. destruct (Nat.eq_dec eid i) as [<-|N].
    + rewrite H in H'. inversion H'; subst. exists es. apply nth_replace_eq. apply nth_error_Some; congruence.
    + exists []. rewrite app_nil_r. now rewrite nth_replace_neq.
Qed.
Lemma good_form_entries id : good (form_entries id). Proof. apply good_get. Qed.
Lemma good_form_type id : good (form_type id). Proof. apply good_get. Qed.
Lemma good_errs_of id : good (errs_of id). Proof. apply good_get. Qed.
Lemma good_form_set id k v : good (form_set id k v).
Proof. apply good_bind; [apply good_form_entries|]. intros; apply good_set_entries. Qed.
Lemma good_call_errs eid es : good (call_errs eid es).
Proof.
  apply good_bind; [apply good_extend_errs|]. intros _. apply good_bind; [apply good_get|].
  intros [[[|] l]|]; try apply good_ret. apply good_raise.
Qed.
Lemma good_path_text W : good (path_text W).
Proof.
  apply good_bind; [apply good_ctx_get|]. intros []; try apply good_ret.
  apply good_bind; [|intros; apply good_ret]. apply good_on_path. now intros E e p.
Qed.
Lemma good_report W kd : good (report W kd).
Proof.
  apply good_bind; [apply good_ctx_get|]. intros []; try apply good_raise.
  apply good_bind; [apply good_ctx_get|]. intros []; try apply good_raise.
  apply good_bind; [apply good_path_text|]. intros; apply good_call_errs.
Qed.

Create HintDb good.
Ltac blk := solve [reflexivity].
Ltac gstep :=
  match goal with
  | |- good (bind _ _) => apply good_bind; [|intros]
  | |- good (catch _ _) => apply good_catch; [|intros]
  | |- good (if _ then _ else _) => apply good_if
  | |- good (match ?x with _ => _ end) => destruct x
  | |- good (with_ctx _ _ _) => apply with_ctx_good; [blk|]
  | |- good (with_reset _ _) => apply with_reset_good
  | |- good (ret _) => apply good_ret
  | |- good (raise _) => apply good_raise
  | |- good (lift _) => apply good_lift
  | |- good (get _) => apply good_get
  | |- good (let _ := _ in _) => cbv zeta
  | |- good (fun s => (_, s)) => apply good_pure
  | _ => solve [auto with good nocore]
  end.
#[global] Hint Resolve good_ctx_get_opt good_ctx_get good_cur_path good_new_form good_new_errs
  good_set_entries good_extend_errs good_form_entries good_form_type good_errs_of good_form_set
  good_call_errs good_path_text good_report : good.

Section Rec.
Variable W : world.
Variable rec : field -> val -> M val.
Hypothesis REC : forall f v, good (rec f v).

Lemma good_path_value pid : good (path_value W pid).
Proof. apply good_on_path. intros; apply preads_value. Qed.
Lemma good_path_exists pid : good (path_exists W pid).
Proof. apply good_on_path. intros; apply preads_exists. Qed.
Lemma good_path_is_null pid : good (path_is_null W pid).
Proof. apply good_on_path. intros; apply preads_is_null. Qed.
Lemma good_path_primitive t pid : good (path_primitive W t pid).
Proof. apply good_on_path. intros; apply preads_primitive. Qed.
Lemma good_path_sequence pid : good (path_sequence W pid).
Proof. apply good_on_path. intros; apply preads_sequence. Qed.
Lemma good_path_mapping pid : good (path_mapping W pid).
Proof. apply good_on_path. intros; apply preads_mapping. Qed.
Hint Resolve REC good_path_value good_path_exists good_path_is_null good_path_primitive
  good_path_sequence good_path_mapping : good.

Lemma good_finish f id value :
  good (if ignored value then raise (EAttr "form cannot map field")
        else form_set id (VStr (fname f)) value;; ret value).
Proof. repeat gstep. Qed.
Hint Resolve good_finish : good.

Lemma good_field_get f id : good (field_get W rec f id).
Proof.
  unfold field_get. apply good_bind; [apply good_form_entries|]. intros l.
  destruct (dict_get l (VStr (fname f))); [apply good_ret|].
  apply good_bind; [apply good_ctx_get_opt|]. intros c. cbv zeta.
  apply good_if; [repeat gstep|].
  intros s WF. unfold ctx_get_opt. unfold goodat, bind at 1, get at 1.
  destruct (match lookup "parent" (stk s) with Some (CForm i) => Nat.eqb i id | _ => false end) eqn:HP.
  - match goal with |- stable s (snd (?m s)) => enough (G : good m) by exact (G s WF) end. repeat gstep.
  - unfold catch.
    assert (G : goodat (with_rewind W (parent_is id) (rec f (VConst NONE))) s).
    { apply with_rewind_goodat; [exact WF|auto|]. intros HF.
      destruct (stk s) as [|fr rest] eqn:HS; [discriminate|]. cbn in HF, HP.
      unfold parent_is in HF. destruct (alookup fr "parent") as [cc|].
      - rewrite HP in HF. destruct (find_frame _ rest); discriminate.
      - destruct (find_frame _ rest); discriminate. }
    unfold goodat in G. destruct (with_rewind W (parent_is id) (rec f (VConst NONE)) s) as [r s']. cbn in G.
    eapply stable_trans; [exact G|].
    match goal with |- stable s' (snd (?m s')) => enough (G' : good m) by exact (G' s' (stable_wf _ _ WF G)) end.
    repeat gstep.
Qed.
Hint Resolve good_field_get : good.

Lemma good_form_getattr id a : good (form_getattr W rec id a).
Proof. unfold form_getattr. repeat gstep. Qed.
Lemma good_form_setattr id a v : good (form_setattr id a v).
Proof. unfold form_setattr. repeat gstep. Qed.
Lemma good_field_delete f id : good (field_delete f id).
Proof. unfold field_delete. repeat gstep. Qed.
Hint Resolve good_form_getattr good_form_setattr good_field_delete : good.
Lemma good_form_delattr id a : good (form_delattr id a).
Proof. unfold form_delattr. repeat gstep. Qed.
Hint Resolve good_form_delattr : good.

Lemma good_form_reset id tags fs : good (form_reset id tags fs).
Proof. induction fs; cbn [form_reset]; repeat gstep. Qed.
Lemma good_map_fields id tags fs : good (map_fields rec id tags fs).
Proof. induction fs; cbn [map_fields]; repeat gstep. Qed.
Hint Resolve good_form_reset good_map_fields : good.
Lemma good_form_unmapped id u : good (form_unmapped rec id u).
Proof. unfold form_unmapped. cbv zeta. destruct u; repeat gstep. Qed.
Hint Resolve good_form_unmapped : good.
Lemma good_form__map id tags u : good (form__map W rec id tags u).
Proof. unfold form__map. repeat gstep. Qed.
Hint Resolve good_form__map : good.
Lemma good_root_map id a tags u m : good (root_map W rec id a tags u m).
Proof. unfold root_map. repeat gstep. Qed.
Lemma good_nested_map id tags u m : good (nested_map W rec id tags u m).
Proof. unfold nested_map. repeat gstep. Qed.
Lemma good_effective_tags tags : good (effective_tags tags).
Proof. unfold effective_tags. repeat gstep. Qed.
Hint Resolve good_root_map good_nested_map good_effective_tags : good.
Lemma good_form_map id a tags reset u m : good (form_map W rec id a tags reset u m).
Proof. unfold form_map. repeat gstep. Qed.
Hint Resolve good_form_map : good.

Lemma good_run_pathop op : good (run_pathop W op).
Proof. unfold run_pathop. repeat gstep. Qed.
Lemma good_unit_val m : good m -> good (unit_val m).
Proof. intros H. unfold unit_val. repeat gstep. Qed.
Lemma good_item_of id k : good (item_of id k).
Proof. unfold item_of. repeat gstep. Qed.
Hint Resolve good_run_pathop good_unit_val good_item_of : good.

Lemma user_vars_ok vars : blk_ok (user_vars vars).
Proof.
  unfold blk_ok, user_vars. induction vars as [|[k v] vars IH]; [reflexivity|]. cbn [filter map fst].
  destruct (String.eqb k "src" || String.eqb k "src_path") eqn:H; cbn [negb]; [exact IH|].
  cbn [map alookup fst]. apply orb_false_iff in H. destruct H as [_ H]. rewrite H. exact IH.
Qed.

Lemma good_run p : good (run W rec p).
Proof.
  induction p; cbn [run]; try (repeat gstep; fail).
  - apply good_catch; [|auto]. apply with_ctx_good; [apply user_vars_ok|exact IHp].
Qed.
Hint Resolve good_run : good.
Lemma good_call_hook h args : good (call_hook W rec h args).
Proof. unfold call_hook. repeat gstep. Qed.
Hint Resolve good_call_hook : good.

Lemma good_rmui : good (report_missing_unless_ignored W).
Proof. unfold report_missing_unless_ignored. repeat gstep. Qed.
Hint Resolve good_rmui : good.
Lemma good_field_default f : good (field_default W rec f).
Proof. unfold field_default. repeat gstep. Qed.
Lemma good_field_munge f v : good (field_munge f v).
Proof. unfold field_munge. repeat gstep. Qed.
Lemma good_field_validate f v : good (field_validate W f v).
Proof. unfold field_validate. repeat gstep. Qed.
Lemma good_invalid_error x : good (invalid_error W x).
Proof. unfold invalid_error. repeat gstep. Qed.
Hint Resolve good_field_default good_field_munge good_field_validate good_invalid_error : good.
Lemma good_need_str v : good (need_str v).
Proof. unfold need_str. repeat gstep. Qed.
Lemma good_map_at k f : good (map_at W rec k f).
Proof. unfold map_at. repeat gstep. Qed.
Hint Resolve good_need_str good_map_at : good.
Lemma good_parse_decimal pid : good (parse_decimal W pid).
Proof. unfold parse_decimal. repeat gstep. Qed.
Lemma good_parse_date fmts pid : good (parse_date W fmts pid).
Proof. unfold parse_date. repeat gstep. Qed.
Lemma good_parse_time fmt pid : good (parse_time W fmt pid).
Proof. unfold parse_time. repeat gstep. Qed.
Lemma good_parse_datetime fmt pid : good (parse_datetime W fmt pid).
Proof. unfold parse_datetime. repeat gstep. Qed.
Lemma good_tuple_items fs : forall i acc, good (tuple_items W rec i fs acc).
Proof. induction fs; intros; cbn [tuple_items]; repeat gstep. Qed.
Lemma good_list_items n : forall i f acc, good (list_items W rec i n f acc).
Proof. induction n; intros; cbn [list_items]; repeat gstep. Qed.
Hint Resolve good_tuple_items good_list_items : good.
Lemma good_parse_tuple fs pid : good (parse_tuple W rec fs pid).
Proof. unfold parse_tuple. repeat gstep. Qed.
Lemma good_path_has_src pid : good (path_has_src pid).
Proof. apply good_get. Qed.
Hint Resolve good_path_has_src : good.
Lemma good_parse_list f allow pid : good (parse_list W rec f allow pid).
Proof. unfold parse_list. repeat gstep. Qed.
Lemma good_key_accepted kf k : good (key_accepted W rec kf k).
Proof. unfold key_accepted. repeat gstep. Qed.
Hint Resolve good_key_accepted : good.
Lemma good_dict_items keyf kf vf keys : forall acc, good (dict_items W rec keyf kf vf keys acc).
Proof. induction keys; intros; cbn [dict_items]; repeat gstep. Qed.
Hint Resolve good_dict_items : good.
Lemma good_parse_dict keyf kf vf pid : good (parse_dict W rec keyf kf vf pid).
Proof. unfold parse_dict. repeat gstep. Qed.
Lemma good_parse_code pid : good (parse_code W pid).
Proof. unfold parse_code. repeat gstep. Qed.
Lemma good_parse_uuid pid : good (parse_uuid W pid).
Proof. unfold parse_uuid, to_uuid. repeat gstep. Qed.
Lemma good_parse_form t reset u : good (parse_form W rec t reset u).
Proof. unfold parse_form. repeat gstep. Qed.
Hint Resolve good_parse_form : good.
Lemma good_types_probe probe tf v : good (types_probe W rec probe tf v).
Proof. unfold types_probe. repeat gstep. Qed.
Hint Resolve good_types_probe : good.
Lemma good_poly_type probe tf table pid : good (poly_type W rec probe tf table pid).
Proof. unfold poly_type. repeat gstep. Qed.
Hint Resolve good_poly_type : good.
Lemma good_parse_poly probe tf table reset u pid : good (parse_poly W rec probe tf table reset u pid).
Proof. unfold parse_poly. repeat gstep. Qed.
Lemma good_group_items l keys : forall n acc, good (group_items W rec l keys n acc).
Proof. induction keys; intros; cbn [group_items]; repeat gstep. Qed.
Hint Resolve good_group_items : good.
Lemma good_parse_group l pid : good (parse_group W rec l pid).
Proof. unfold parse_group. repeat gstep. Qed.
Hint Resolve good_parse_decimal good_parse_date good_parse_time good_parse_datetime good_parse_tuple
  good_parse_list good_parse_dict good_parse_code good_parse_uuid good_parse_poly good_parse_group : good.
Lemma good_parse_kind k pid : good (parse_kind W rec k pid).
Proof. unfold parse_kind. repeat gstep. Qed.
Hint Resolve good_parse_kind : good.
Lemma good_field_compute f : good (field_compute W rec f).
Proof. unfold field_compute. repeat gstep. Qed.
Lemma good_field_resolve f : good (field_resolve W rec f).
Proof. unfold field_resolve. repeat gstep. Qed.
Lemma good_field_after f v : good (field_after W rec f v).
Proof. unfold field_after. repeat gstep. Qed.
Hint Resolve good_field_compute good_field_resolve good_field_after : good.
Lemma good_field_body f v : good (field_body W rec f v).
Proof. unfold field_body. repeat gstep. Qed.
Hint Resolve good_field_body : good.
Lemma good_field__map f v : good (field__map W rec f v).
Proof. unfold field__map. repeat gstep. Qed.
Lemma good_set_parent v : good (set_parent v).
Proof. unfold set_parent. repeat gstep. Qed.
Hint Resolve good_field__map good_set_parent : good.
Lemma good_field_map_body f v : good (field_map_body W rec f v).
Proof. unfold field_map_body. repeat gstep. Qed.
End Rec.

Theorem good_field_map W fuel : forall f v, good (field_map W fuel f v).
Proof.
  induction fuel as [|n IH]; intros f v; cbn [field_map]; [apply good_raise|].
  now apply good_field_map_body.
Qed.
Theorem good_Form_map W fuel id a tags reset u m : good (Form_map W fuel id a tags reset u m).
Proof. apply good_form_map. apply good_field_map. Qed.

Lemma wf_init : wf init.
Proof. split; cbn; [|constructor]. split; [now left|now left]. Qed.
