(** * ViewProofs: a mapping sees five variables of the context (C109). *)
From Coq Require Import List Lia.
From Verif Require Import PyBase PyStr Source Field Context Fields SpecSrc SpecCtx SpecView Eval Refine Regime CfgRegime Balance CtxProofs.

Lemma alike_outer s s' : looks_alike s s' -> outer_of s = outer_of s'.
Proof.
  intros (_ & P & L). unfold outer_of. rewrite P.
  rewrite (L "ignore_default"), (L "ignore_missing"), (L "tags"), (L "form"), (L "field"); [reflexivity|..]; cbn; tauto.
Qed.
Lemma view_by W fuel src root id tags rs u m s s' : looks_alike s s' ->
  (let x := Form_map W fuel id (ASrc (SBase (BPlain src))) tags rs u m s in
   (fst x, forms (snd x)) = ev_map W fuel (outer_of s) src root id tags rs u m (forms s) /\ stk (snd x) = stk s) ->
  (let x := Form_map W fuel id (ASrc (SBase (BPlain src))) tags rs u m s' in
   (fst x, forms (snd x)) = ev_map W fuel (outer_of s') src root id tags rs u m (forms s') /\ stk (snd x) = stk s') ->
  let x := Form_map W fuel id (ASrc (SBase (BPlain src))) tags rs u m s in
  let y := Form_map W fuel id (ASrc (SBase (BPlain src))) tags rs u m s' in
  fst x = fst y /\ forms (snd x) = forms (snd y).
Proof.
  intros A [X _] [Y _]. rewrite (alike_outer s s' A), (proj1 A), <- Y in X. now injection X.
Qed.
Lemma C109_json_lem W fuel d strict loc id t l tags rs u m s s' :
  json_val d = true -> nth_error (forms s) id = Some (t, l) -> direct_form t -> direct_unm u -> mapping_context s -> mapping_context s' -> looks_alike s s' ->
  let x := Form_map W fuel id (ASrc (SBase (BPlain (SJson d strict loc)))) tags rs u m s in
  let y := Form_map W fuel id (ASrc (SBase (BPlain (SJson d strict loc)))) tags rs u m s' in
  fst x = fst y /\ forms (snd x) = forms (snd y).
Proof.
  intros J T D U C C' A. apply (view_by W fuel _ d); [exact A|now apply (C30_json_lem W fuel _ _ _ id t l)|].
  apply (C30_json_lem W fuel _ _ _ id t l); try assumption. now rewrite <- (proj1 A).
Qed.
Lemma C109_native_lem W fuel P d loc id t l tags rs u m s s' :
  plain_native (w_env W) P -> P d -> nth_error (forms s) id = Some (t, l) -> direct_form t -> direct_unm u -> mapping_context s -> mapping_context s' -> looks_alike s s' ->
  let x := Form_map W fuel id (ASrc (SBase (BPlain (SDefault d [] [] loc)))) tags rs u m s in
  let y := Form_map W fuel id (ASrc (SBase (BPlain (SDefault d [] [] loc)))) tags rs u m s' in
  fst x = fst y /\ forms (snd x) = forms (snd y).
Proof.
  intros PN Pd T D U C C' A. apply (view_by W fuel _ d); [exact A|now apply (C30_native_lem W fuel P _ _ id t l)|].
  apply (C30_native_lem W fuel P _ _ id t l); try assumption. now rewrite <- (proj1 A).
Qed.
Lemma C109_config_lem W fuel cfg sec d loc id t l tags rs u m s s' :
  config_given cfg sec d -> nth_error (forms s) id = Some (t, l) -> direct_form t -> direct_unm u -> mapping_context s -> mapping_context s' -> looks_alike s s' ->
  let x := Form_map W fuel id (ASrc (SBase (BPlain (SConfig cfg sec d loc)))) tags rs u m s in
  let y := Form_map W fuel id (ASrc (SBase (BPlain (SConfig cfg sec d loc)))) tags rs u m s' in
  fst x = fst y /\ forms (snd x) = forms (snd y).
Proof.
  intros G T D U C C' A. apply (view_by W fuel _ (config_start cfg sec d)); [exact A|now apply (C30_config_lem W fuel _ _ _ _ id t l)|].
  apply (C30_config_lem W fuel _ _ _ _ id t l); try assumption. now rewrite <- (proj1 A).
Qed.

(** ** Blocks *)
Lemma on_path_same {A} W pid op s : forms (snd (@on_path A W pid op s)) = forms s /\ length (paths (snd (@on_path A W pid op s))) = length (paths s).
Proof.
  unfold on_path. destruct (nth_error (paths s) pid); [|now split]. destruct (op (w_env W) (entries s) p). cbn. split; [reflexivity|]. apply replace_nth_length.
Qed.
Lemma cur_path_same s x s0 : cur_path s = (x, s0) -> s0 = s.
Proof.
  unfold cur_path, ctx_get, ctx_get_opt, bind, get, ret, raise. cbn. destruct (lookup "src_path" (stk s)) as [[]|]; cbn; congruence.
Qed.
Lemma push_unseen W kw s s1 : unseen kw -> push W kw s = (Ok tt, s1) -> looks_alike s s1.
Proof.
  intros [N S] Q. assert (F : forms s = forms s1 /\ length (paths s) = length (paths s1)).
  { unfold push in Q. destruct (alookup kw "src") as [c|] eqn:A; [|now inversion Q].
    assert (K : (pid <- cur_path; on_path W pid (fun _ _ p => (p_append (key_of_cval c) p, Ok tt));; push_frame kw) s = (Ok tt, s1)).
    { destruct c as [|v|k|x|n|n|n|f|x]; try exact Q. now destruct (S x). }
    clear Q. unfold bind at 1 in K. destruct (cur_path s) as [[pid|e] s0] eqn:CP; [|discriminate].
    assert (s0 = s) as -> by now apply (cur_path_same s (Ok pid)).
    unfold bind in K. destruct (on_path_same W pid (fun _ _ p => (p_append (key_of_cval c) p, Ok tt)) s) as [F P].
    destruct (on_path W pid _ s) as [[[]|e] s2]; [|discriminate]. inversion K. cbn in *. now split. }
  destruct F as [F P]. split; [exact F|]. split; [exact P|]. intros k I. rewrite (C02_inside_lem W kw s s1 k Q); [now rewrite (N k I)|].
  intros ->. cbn in I. repeat (destruct I as [I|I]; [discriminate I|]). exact I.
Qed.
Lemma looks_trans a b c : looks_alike a b -> looks_alike b c -> looks_alike a c.
Proof. intros (A1 & A2 & A3) (B1 & B2 & B3). split; [congruence|]. split; [congruence|]. intros k I. rewrite A3 by exact I. now apply B3. Qed.
Lemma C109_blocks_lem W blocks : forall s s1, open_all W blocks s = (Ok tt, s1) -> (forall kw, In kw blocks -> unseen kw) -> mapping_context s ->
  looks_alike s s1 /\ mapping_context s1.
Proof.
  induction blocks as [|kw blocks IH]; intros s s1 Q N C.
  - cbn in Q. inversion Q; subst. split; [now repeat split|exact C].
  - cbn in Q. unfold bind in Q. destruct (push W kw s) as [[[]|e] s'] eqn:HP; [|discriminate].
    assert (A := push_unseen W kw s s' (N kw (or_introl eq_refl)) HP).
    assert (C' : mapping_context s').
    { destruct C as ((c1 & C1) & (c2 & C2) & (c3 & C3)). repeat split; rewrite (C02_inside_lem W kw s s' _ HP) by discriminate;
        match goal with |- context [alookup kw ?k] => destruct (alookup kw k) end; eauto. }
    destruct (IH s' s1 Q) as [A1 C1]; [intros k I; apply N; now right|exact C'|]. split; [now apply (looks_trans s s')|exact C1].
Qed.
