(** * BoxLemmas: the lemmas behind the theorems of PropsBox, with their hypotheses in
    the order of the theorems. *)
From Verif Require Import PyBase PyStr Source Field Context Fields SpecCtx SpecField SpecBox Run FieldProofs BoxProofs.
From Coq Require Import Lia.
Open Scope Z_scope.

Lemma C31_list : forall W n f s eid m es pid p igd igm g lo hi a len q vs s1 t,
  mapping W s eid m es pid p igd igm -> plain_steps f ->
  f_kind f = KList g lo hi a -> p_str (w_env W) (place f p) = Ok t ->
  sequence_at W s f p len q ->
  items W n (indexed len g) (within f s pid q) vs s1 -> untouched f (VList (survivors vs)) ->
  long_enough lo (length (survivors vs)) -> short_enough hi (length (survivors vs)) ->
  ends W (S n) f s s1 (VList (survivors vs)).
Proof. intros. eapply C31_list_lem; eassumption. Qed.
Lemma C31_raise : forall W n f s eid m es pid p igd igm g lo hi a len q e s1 t,
  mapping W s eid m es pid p igd igm -> plain_steps f ->
  f_kind f = KList g lo hi a -> p_str (w_env W) (place f p) = Ok t ->
  sequence_at W s f p len q ->
  items_raise W n (indexed len g) (within f s pid q) e s1 ->
  if caught_by_compute e then rejects W (S n) f s s1 eid (invalid_at f pid (VioExn (spoken e)) t) else fails W (S n) f s s1 e.
Proof. intros. eapply C31_raise_lem; eassumption. Qed.
Lemma C31_no_list : forall W n f s eid m es pid p igd igm g lo hi x q t,
  mapping W s eid m es pid p igd igm -> plain_steps f ->
  f_kind f = KList g lo hi false -> p_str (w_env W) (place f p) = Ok t ->
  no_sequence_at W s f p (ESource x) q -> ~ of_mount q ->
  rejects W (S n) f s (within f s pid q) eid (invalid_at f pid (VioExn (ESource x)) t).
Proof. intros. eapply no_list_lem; eauto. Qed.
Lemma C31_lone : forall W n f s eid m es pid p igd igm g lo hi x q v s1 t,
  mapping W s eid m es pid p igd igm -> plain_steps f ->
  f_kind f = KList g lo hi true -> p_str (w_env W) (place f p) = Ok t ->
  no_sequence_at W s f p (ESource x) q -> ~ of_mount q ->
  field_map W n g NONEv (within f s pid q) = (Ok v, s1) -> ignored v = false -> untouched f (VList [v]) ->
  long_enough lo 1 -> short_enough hi 1 ->
  ends W (S n) f s s1 (VList [v]).
Proof. intros. eapply lone_lem; eauto. Qed.
Lemma C31_mount : forall W n f s eid m es pid p igd igm g lo hi a e q t,
  mapping W s eid m es pid p igd igm -> plain_steps f ->
  f_kind f = KList g lo hi a -> p_str (w_env W) (place f p) = Ok t ->
  no_sequence_at W s f p e q -> of_mount q ->
  exists msg, fails W (S n) f s (within f s pid q) (EAttr msg).
Proof. intros. eapply mount_list_lem; eauto. Qed.
Lemma C32_min : forall W n f s eid m es pid p igd igm g lo hi a len q vs s1 t k,
  mapping W s eid m es pid p igd igm -> plain_steps f ->
  f_kind f = KList g lo hi a -> p_str (w_env W) (place f p) = Ok t ->
  sequence_at W s f p len q ->
  items W n (indexed len g) (within f s pid q) vs s1 -> untouched f (VList (survivors vs)) ->
  lo = Some k -> Z.of_nat (length (survivors vs)) < k ->
  rejects W (S n) f s s1 eid (invalid_at f pid (VioMinItems k) t).
Proof. intros. eapply C32_min_lem; eassumption. Qed.
Lemma C32_max : forall W n f s eid m es pid p igd igm g lo hi a len q vs s1 t k,
  mapping W s eid m es pid p igd igm -> plain_steps f ->
  f_kind f = KList g lo hi a -> p_str (w_env W) (place f p) = Ok t ->
  sequence_at W s f p len q ->
  items W n (indexed len g) (within f s pid q) vs s1 -> untouched f (VList (survivors vs)) ->
  long_enough lo (length (survivors vs)) -> hi = Some k -> k < Z.of_nat (length (survivors vs)) ->
  rejects W (S n) f s s1 eid (invalid_at f pid (VioMaxItems k) t).
Proof. intros. eapply C32_max_lem; eassumption. Qed.
Lemma items_length W n l s vs s1 : items W n l s vs s1 -> length vs = length l.
Proof. induction 1; cbn [length]; congruence. Qed.
Lemma zipped_length : forall gs i, length (zipped i gs) = length gs.
Proof. induction gs as [|g gs IH]; intros i; cbn [zipped length]; [reflexivity|]. now rewrite IH. Qed.
Lemma survivors_all vs : Forall (fun v => ignored v = false) vs -> survivors vs = vs.
Proof. unfold survivors. induction 1 as [|v vs H _ IH]; cbn [filter]; [reflexivity|]. rewrite H. cbn [negb]. now rewrite IH. Qed.
Lemma C33_tuple : forall W n f s eid m es pid p igd igm gs q vs s1 t,
  mapping W s eid m es pid p igd igm -> plain_steps f ->
  f_kind f = KTuple gs -> p_str (w_env W) (place f p) = Ok t ->
  sequence_at W s f p (length gs) q ->
  items W n (zipped 0 gs) (within f s pid q) vs s1 -> untouched f (VTuple (survivors vs)) ->
  ends W (S n) f s s1 (VTuple (survivors vs)) /\
  (Forall (fun v => ignored v = false) vs -> survivors vs = vs /\ length vs = length gs).
Proof.
  intros. split; [eapply C33_tuple_lem; eassumption|]. intros F. split; [now apply survivors_all|].
  match goal with H : items _ _ _ _ _ _ |- _ => rewrite (items_length _ _ _ _ _ _ H) end. apply zipped_length.
Qed.
Lemma C33_length : forall W n f s eid es pid p igd igm gs q len t,
  mapping W s eid Collect es pid p igd igm -> plain_steps f ->
  f_kind f = KTuple gs -> p_str (w_env W) (place f p) = Ok t ->
  sequence_at W s f p len q -> len <> length gs ->
  yields W (S n) f NONEv s eid Collect es ERRORv [invalid_at f pid (VioItems (length gs)) t].
Proof. intros. eapply C33_length_lem; eauto. Qed.
Lemma C33_length_raise : forall W n f s eid es pid p igd igm gs q len t,
  mapping W s eid Raise es pid p igd igm -> plain_steps f ->
  f_kind f = KTuple gs -> p_str (w_env W) (place f p) = Ok t ->
  sequence_at W s f p len q -> len <> length gs ->
  let e1 := invalid_at f pid (VioItems (length gs)) t in
  let e2 := invalid_at f pid (VioExn (spoken (EForm (es ++ [e1])))) t in
  exists s', field_map W (S n) f NONEv s = (Exn (EForm (es ++ [e1; e2])), s') /\ stk s' = stk s /\ forms s' = forms s.
Proof. intros. eapply C33_length_raise_lem; eauto. Qed.
Lemma C34_dict : forall W n f s eid m es pid p igd igm keyf kf vf required mx keys q ps s1 t,
  mapping W s eid m es pid p igd igm -> plain_steps f ->
  f_kind f = KDict kf vf keyf required mx -> p_str (w_env W) (place f p) = Ok t ->
  mapping_at W s f p keys q -> pairs W n keyf kf vf keys (within f s pid q) ps s1 ->
  untouched f (VDict (dict_of ps)) -> has_required required (dict_of ps) -> few_enough mx (dict_of ps) ->
  ends W (S n) f s s1 (VDict (dict_of ps)).
Proof. intros. eapply C34_dict_lem; eassumption. Qed.
Lemma C34_required : forall W n f s eid m es pid p igd igm keyf kf vf required mx keys q ps s1 t,
  mapping W s eid m es pid p igd igm -> plain_steps f ->
  f_kind f = KDict kf vf keyf required mx -> p_str (w_env W) (place f p) = Ok t ->
  mapping_at W s f p keys q -> pairs W n keyf kf vf keys (within f s pid q) ps s1 ->
  untouched f (VDict (dict_of ps)) -> ~ has_required required (dict_of ps) -> lacks_strings required (dict_of ps) ->
  exists missing, (forall k, In k missing <-> lacks required (dict_of ps) k) /\
    rejects W (S n) f s s1 eid (invalid_at f pid (VioMissingKeys missing) t).
Proof. intros. eapply C34_required_lem; eassumption. Qed.
Lemma C34_crash : forall W n f s eid m es pid p igd igm keyf kf vf required mx keys q ps s1 t,
  mapping W s eid m es pid p igd igm -> plain_steps f ->
  f_kind f = KDict kf vf keyf required mx -> p_str (w_env W) (place f p) = Ok t ->
  mapping_at W s f p keys q -> pairs W n keyf kf vf keys (within f s pid q) ps s1 ->
  untouched f (VDict (dict_of ps)) -> ~ lacks_strings required (dict_of ps) ->
  fails W (S n) f s s1 (EType "expected str instance").
Proof. intros. eapply C34_crash_lem; eassumption. Qed.
Lemma C34_max : forall W n f s eid m es pid p igd igm keyf kf vf required mx keys q ps s1 t k,
  mapping W s eid m es pid p igd igm -> plain_steps f ->
  f_kind f = KDict kf vf keyf required mx -> p_str (w_env W) (place f p) = Ok t ->
  mapping_at W s f p keys q -> pairs W n keyf kf vf keys (within f s pid q) ps s1 ->
  untouched f (VDict (dict_of ps)) -> has_required required (dict_of ps) ->
  mx = Some k -> k <> 0 -> k < Z.of_nat (length (dict_of ps)) ->
  rejects W (S n) f s s1 eid (invalid_at f pid (VioMaxKeys k) t).
Proof. intros. eapply C34_max_lem; eassumption. Qed.
Lemma C35_group : forall W n f s eid m es pid p igd igm l keys q ts c s1 t,
  mapping W s eid m es pid p igd igm -> plain_steps f ->
  f_kind f = KGroup l -> p_str (w_env W) (place f p) = Ok t ->
  mapping_at W s f p keys q -> grouped W n l keys (within f s pid q) ts c s1 -> c <> O ->
  untouched f (VList ts) -> ends W (S n) f s s1 (VList ts).
Proof. intros. eapply C35_group_lem; eassumption. Qed.
Lemma C35_stops : forall W n f s eid m es pid p igd igm l pre k post q ts c s1 e s2 t,
  mapping W s eid m es pid p igd igm -> plain_steps f ->
  f_kind f = KGroup l -> p_str (w_env W) (place f p) = Ok t ->
  mapping_at W s f p (pre ++ k :: post) q -> grouped W n l pre (within f s pid q) ts c s1 -> stops W n l k s1 e s2 ->
  if caught_by_compute e then rejects W (S n) f s s2 eid (invalid_at f pid (VioExn (spoken e)) t) else fails W (S n) f s s2 e.
Proof. intros. eapply C35_stops_lem; eassumption. Qed.
Lemma C35_default : forall W n f s eid m es pid p igm l keys q ts s1 d,
  mapping W s eid m es pid p false igm -> plain_steps f ->
  f_kind f = KGroup l -> mapping_at W s f p keys q -> grouped W n l keys (within f s pid q) ts 0 s1 ->
  o_default (f_opts f) = DCall (PRet d) \/ (o_default (f_opts f) = DVal d /\ d <> VConst NOTSET) ->
  ends W (S n) f s s1 d.
Proof. intros. eapply C35_default_lem; eauto. Qed.

Lemma dict_set_new : forall d k v, Forall (fun a => py_eq (fst a) k = false) d -> dict_set d k v = d ++ [(k, v)].
Proof. induction d as [|[a b] d IH]; intros k v H; cbn [dict_set app]; [reflexivity|]. inversion H; subst. cbn [fst] in *. 
  match goal with X : py_eq a k = false |- _ => rewrite X end. now rewrite IH. Qed.
Lemma dict_of_distinct : forall ps, ForallOrdPairs (fun a b => py_eq (fst a) (fst b) = false) ps -> dict_of ps = ps.
Proof.
  intros ps H. unfold dict_of.
  assert (G : forall acc, Forall (fun b => Forall (fun a => py_eq (fst a) (fst b) = false) acc) ps ->
    fold_left (fun d kv => dict_set d (fst kv) (snd kv)) ps acc = acc ++ ps).
  { induction H as [|a ps Ha _ IH]; intros acc F; cbn [fold_left]; [now rewrite app_nil_r|].
    inversion F; subst. rewrite dict_set_new by assumption. rewrite IH.
    - rewrite <- app_assoc. now destruct a.
    - apply Forall_forall. intros b Hb. apply Forall_app. split.
      + rewrite Forall_forall in F. apply F. now right.
      + constructor; [|constructor]. rewrite Forall_forall in Ha. cbn [fst]. auto. }
  apply (G []). apply Forall_forall. intros b _. constructor.
Qed.
