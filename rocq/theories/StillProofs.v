(** * StillProofs: mapping changes no form but the one being mapped (C43, C44). *)
From Verif Require Import PyBase PyStr Source Field Context Fields SpecCtx SpecField SpecLocal SpecForm Balance Run LocalProofs.
From Coq Require Import Lia.

Definition kept (o : option nat) (s s' : st) : Prop :=
  (length (forms s) <= length (forms s'))%nat /\
  forall i x, nth_error (forms s) i = Some x ->
    exists x', nth_error (forms s') i = Some x' /\ fst x' = fst x /\ (o <> Some i -> x' = x).
Lemma kept_same o s s' : forms s' = forms s -> kept o s s'.
Proof. intros E. split; [now rewrite E|]. intros i x H. exists x. rewrite E. auto. Qed.
Lemma kept_trans o s1 s2 s3 : kept o s1 s2 -> kept o s2 s3 -> kept o s1 s3.
Proof.
  intros [L1 K1] [L2 K2]. split; [lia|]. intros i x H. destruct (K1 i x H) as (x' & H' & T' & E').
  destruct (K2 i x' H') as (x2 & H2 & T2 & E2). exists x2. split; [exact H2|]. split; [congruence|]. intros N. rewrite (E2 N). now apply E'.
Qed.
Lemma kept_none o s s' : kept None s s' -> kept o s s'.
Proof.
  intros [L K]. split; [exact L|]. intros i x H. destruct (K i x H) as (x' & H' & T' & E'). exists x'. split; [exact H'|].
  split; [exact T'|]. intros _. apply E'. discriminate.
Qed.
Definition kb {A} (o : option nat) (x : M A) : Prop := forall s, kept o s (snd (x s)).
Definition kbt {A} (id : nat) (t : formty) (x : M A) : Prop := forall s, typed id t s -> kept (Some id) s (snd (x s)).
Lemma typed_kept id t o s s' : kept o s s' -> typed id t s -> typed id t s'.
Proof. intros [_ K] (l & H). destruct (K id (t, l) H) as ([t' l'] & H' & T & _). cbn [fst] in T. subst t'. exists l'. exact H'. Qed.
Lemma kb_kbt {A} id t (x : M A) : kb None x -> kbt id t x.
Proof. intros H s _. apply kept_none, H. Qed.
Lemma kb_bind {A B} o (x : M A) (f : A -> M B) : kb o x -> (forall a, kb o (f a)) -> kb o (bind x f).
Proof.
  intros H K s. specialize (H s). unfold bind. destruct (x s) as [[a|e] s1]; cbn [snd] in *; [|exact H]. eapply kept_trans; [exact H|apply K].
Qed.
Lemma kb_catch {A B} o (x : M A) (f : res A -> M B) : kb o x -> (forall a, kb o (f a)) -> kb o (catch x f).
Proof. intros H K s. specialize (H s). unfold catch. destruct (x s) as [r s1]; cbn [snd] in *. eapply kept_trans; [exact H|apply K]. Qed.
Lemma kbt_bind {A B} id t (x : M A) (f : A -> M B) : kbt id t x -> (forall a, kbt id t (f a)) -> kbt id t (bind x f).
Proof.
  intros H K s T. specialize (H s T). unfold bind. destruct (x s) as [[a|e] s1]; cbn [snd] in *; [|exact H].
  eapply kept_trans; [exact H|apply K]. eapply typed_kept; eauto.
Qed.
Lemma kbt_form_type {A} id t (f : formty -> M A) : kbt id t (f t) -> kbt id t (bind (form_type id) f).
Proof. intros H s T. unfold bind, form_type, get. destruct T as (l & T). rewrite T. apply H. now exists l. Qed.
Lemma kb_if {A} o (b : bool) (x y : M A) : kb o x -> kb o y -> kb o (if b then x else y).
Proof. destruct b; auto. Qed.
Lemma kb_same {A} o (x : M A) : (forall s, forms (snd (x s)) = forms s) -> kb o x.
Proof. intros H s. now apply kept_same. Qed.
Lemma kb_new_form {A} t (f : nat -> M A) : (forall id, kbt id t (f id)) -> kb None (bind (new_form t) f).
Proof.
  intros H s. unfold bind, new_form. set (s1 := St _ _ _ _).
  assert (T : typed (length (forms s)) t s1) by (exists []; cbn [s1 forms]; now rewrite nth_error_app2, Nat.sub_diag by lia).
  destruct (H _ s1 T) as [L K]. split.
  - eapply Nat.le_trans; [|exact L]. cbn [s1 forms]. rewrite app_length. lia.
  - intros i x N. assert (Li : (i < length (forms s))%nat) by (apply nth_error_Some; congruence).
    destruct (K i x) as (x' & N' & T' & E'); [cbn [s1 forms]; now rewrite nth_error_app1 by exact Li|].
    exists x'. split; [exact N'|]. split; [exact T'|]. intros _. apply E'. intros Q. injection Q as Q. lia.
Qed.
Lemma kb_on_path {A} o W pid (op : env -> entries_of -> path -> path * res A) : kb o (on_path W pid op).
Proof.
  apply kb_same. intros s. unfold on_path. destruct (nth_error (paths s) pid) as [p|]; [|reflexivity].
  destruct (op (w_env W) (entries s) p) as [p' r]. reflexivity.
Qed.
Lemma kb_ctx_get_opt o k : kb o (ctx_get_opt k).
Proof. now apply kb_same. Qed.
Lemma kb_ctx_get o k : kb o (ctx_get k).
Proof. apply kb_same. intros s. unfold ctx_get, ctx_get_opt, bind, get. now destruct (lookup k (stk s)). Qed.
Lemma kb_cur_path o : kb o cur_path.
Proof. apply kb_bind; [apply kb_ctx_get|]. intros []; now apply kb_same. Qed.
Lemma kb_set_entries id l : kb (Some id) (set_entries id l).
Proof.
  intros s. unfold set_entries. destruct (nth_error (forms s) id) as [[t0 l0]|] eqn:N; [|now apply kept_same].
  cbn [snd]. split; cbn [forms]; [now rewrite replace_nth_length|]. intros i x H. destruct (Nat.eq_dec id i) as [->|D].
  - rewrite nth_replace_eq by (apply nth_error_Some; congruence). rewrite N in H. injection H as <-. eexists. split; [reflexivity|].
    split; [reflexivity|congruence].
  - rewrite nth_replace_neq by exact D. exists x. auto.
Qed.
Lemma kb_form_set id k v : kb (Some id) (form_set id k v).
Proof. apply kb_bind; [now apply kb_same|intros; apply kb_set_entries]. Qed.
Lemma kb_extend o e es : kb o (extend_errs e es).
Proof. apply kb_same. intros s. unfold extend_errs. now destruct (nth_error (errs s) e) as [[]|]. Qed.
Lemma kb_report o W kd : kb o (report W kd).
Proof.
  unfold report. apply kb_bind; [apply kb_ctx_get|]. intros []; try now apply kb_same.
  apply kb_bind; [apply kb_ctx_get|]. intros []; try now apply kb_same.
  apply kb_bind.
  - unfold path_text. apply kb_bind; [apply kb_ctx_get|]. intros []; try now apply kb_same. apply kb_bind; [apply kb_on_path|intros; now apply kb_same].
  - intros tl. unfold call_errs. apply kb_bind; [apply kb_extend|intros]. apply kb_bind; [now apply kb_same|]. intros [[[] ?]|]; now apply kb_same.
Qed.
Lemma forms_restore W s : forms (snd (restore W s)) = forms s.
Proof.
  unfold restore. destruct (stk s) as [|f rest]; [reflexivity|]. unfold bind, set_stk.
  destruct (has_key "src" f && negb (has_key "src_path" f)); [|reflexivity].
  assert (K : kb None (pid <- cur_path; on_path W pid (fun _ _ p => p_pop p))) by (apply kb_bind; [apply kb_cur_path|intros; apply kb_on_path]).
  unfold bind, cur_path, ctx_get, ctx_get_opt, bind, get in *. cbn [stk].
  destruct (lookup "src_path" rest) as [[]|]; cbn [ret raise]; try reflexivity.
  unfold on_path. cbn [paths]. destruct (nth_error (paths s) pid) as [p|]; [|reflexivity]. destruct (p_pop p). reflexivity.
Qed.
Lemma forms_push W kw s : forms (snd (push W kw s)) = forms s.
Proof.
  unfold push. destruct (alookup kw "src") as [c|]; [|reflexivity].
  assert (K : forall key, forms (snd ((pid <- cur_path; on_path W pid (fun _ _ p => (p_append key p, Ok tt)) ;; push_frame kw) s)) = forms s).
  { intros key. unfold bind, cur_path, ctx_get, ctx_get_opt, bind, get. destruct (lookup "src_path" (stk s)) as [[]|]; cbn [ret raise]; try reflexivity.
    unfold on_path. destruct (nth_error (paths s) pid) as [p|]; reflexivity. }
  destruct c; try apply K. unfold bind. destruct (source_path (w_env W) (entries s) s0); reflexivity.
Qed.
Lemma kb_closing {A} o op cl (body : M A) : (forall s, forms (snd (op s)) = forms s) -> (forall s, forms (snd (cl s)) = forms s) ->
  kb o body -> kb o (closing op cl body).
Proof.
  intros HO HC H s. unfold closing. specialize (HO s). destruct (op s) as [[u|e] s1]; cbn [snd] in *; [|now apply kept_same].
  specialize (H s1). destruct (body s1) as [r s2]. cbn [snd] in H. specialize (HC s2). destruct (cl s2) as [[u2|e] s3]; cbn [snd] in *;
    (eapply kept_trans; [apply kept_same; exact HO|]; eapply kept_trans; [exact H|now apply kept_same]).
Qed.
Lemma kb_block {A} o W kw (body : M A) : kb o body -> kb o (with_ctx W kw body).
Proof. intros H. apply kb_closing; [apply forms_push|apply forms_restore|exact H]. Qed.
Lemma kbt_block {A} id t W kw (body : M A) : kbt id t body -> kbt id t (with_ctx W kw body).
Proof.
  intros H s T. unfold with_ctx, closing. pose proof (forms_push W kw s) as HO. destruct (push W kw s) as [[u|e] s1]; cbn [snd] in *; [|now apply kept_same].
  assert (T1 : typed id t s1) by (unfold typed; now rewrite HO). specialize (H s1 T1). destruct (body s1) as [r s2]. cbn [snd] in H.
  pose proof (forms_restore W s2) as HC. destruct (restore W s2) as [[u2|e] s3]; cbn [snd] in *;
    (eapply kept_trans; [apply kept_same; exact HO|]; eapply kept_trans; [exact H|now apply kept_same]).
Qed.
Lemma kb_reset {A} o W (body : M A) : kb o body -> kb o (with_reset W body).
Proof. intros H. apply kb_closing; [reflexivity|apply forms_restore|exact H]. Qed.

Create HintDb kb.
#[global] Hint Resolve kb_ctx_get_opt kb_ctx_get kb_cur_path kb_set_entries kb_form_set kb_report kb_on_path kb_extend kb_block kb_reset : kb.
Ltac ksame := apply kb_same; intros; reflexivity.
Ltac kstep :=
  match goal with
  | |- kb _ (bind _ _) => apply kb_bind; [|intros]
  | |- kb _ (catch _ _) => apply kb_catch; [|intros]
  | |- kb _ (if _ then _ else _) => apply kb_if
  | |- kb _ (match ?x with _ => _ end) => destruct x
  | |- kb _ (ret _) => ksame
  | |- kb _ (raise _) => ksame
  | |- kb _ (lift _) => ksame
  | |- kb _ (get _) => ksame
  | |- kb _ (form_entries _) => ksame
  | |- kb _ (form_type _) => ksame
  | |- kb _ (errs_of _) => ksame
  | |- kb _ (new_errs _) => ksame
  | |- kb _ (path_has_src _) => ksame
  | |- kb _ (let _ := _ in _) => cbv zeta
  | |- kb _ (fun s => (_, s)) => ksame
  | _ => solve [auto with kb nocore]
  end.

Section Rec.
Variable W : world.
Variable C : string -> Prop.
Hypothesis CLS : still_classes C W.
Notation still := (still C). Notation still_prog := (still_prog C). Notation still_form := (still_form C). Notation still_unm := (still_unm C).
Notation still_kind := (still_kind C).
Variable rec : field -> val -> M val.
Hypothesis REC : forall f v, still f -> kb None (rec f v).

Lemma kb_path_value o pid : kb o (path_value W pid). Proof. apply kb_on_path. Qed.
Lemma kb_path_exists o pid : kb o (path_exists W pid). Proof. apply kb_on_path. Qed.
Lemma kb_path_is_null o pid : kb o (path_is_null W pid). Proof. apply kb_on_path. Qed.
Lemma kb_path_primitive o t pid : kb o (path_primitive W t pid). Proof. apply kb_on_path. Qed.
Lemma kb_path_sequence o pid : kb o (path_sequence W pid). Proof. apply kb_on_path. Qed.
Lemma kb_path_mapping o pid : kb o (path_mapping W pid). Proof. apply kb_on_path. Qed.
Hint Resolve kb_path_value kb_path_exists kb_path_is_null kb_path_primitive kb_path_sequence kb_path_mapping : kb.
Lemma kb_REC o f v : still f -> kb o (rec f v).
Proof. intros S s. apply kept_none. now apply REC. Qed.
Lemma kb_field_delete f id : kb (Some id) (field_delete f id).
Proof. unfold field_delete. repeat kstep. Qed.
Hint Resolve kb_field_delete : kb.
Lemma kb_form_reset id tags fs : kb (Some id) (form_reset id tags fs).
Proof. induction fs; cbn [form_reset]; repeat kstep. Qed.
Lemma kb_effective_tags o tags : kb o (effective_tags tags).
Proof. unfold effective_tags. repeat kstep. Qed.
Hint Resolve kb_form_reset kb_effective_tags : kb.
Lemma kb_map_fields id tags fs : (forall f, In f fs -> still f) -> kb (Some id) (map_fields rec id tags fs).
Proof.
  induction fs as [|f fs IH]; intros H; cbn [map_fields]; [ksame|]. apply kb_bind; [|intros; apply IH; intros; apply H; now right].
  assert (L : still f) by (apply H; now left). pose proof (kb_REC (Some id) f (VConst NONE) L). repeat kstep.
Qed.
Lemma still_not_in_form id : forall t args, still_prog (hk_fun (not_in_form id) t args).
Proof. intros t [|a l]; cbn; constructor. intros [|]; constructor. Qed.
Lemma still_plain : still plain_string /\ still plain_field.
Proof. split; constructor; try constructor; intros ? H; cbn in H; try discriminate; injection H as <-; intros ? ?; discriminate. Qed.
Lemma still_unmapped id kf vf : still kf -> still vf -> still (unmapped_dict id kf vf).
Proof.
  intros A B. constructor; try reflexivity; try (intros ? H; cbn in H; try discriminate; try (injection H as <-; intros ? ?; discriminate)).
  constructor; auto. intros h H. injection H as <-. apply still_not_in_form.
Qed.
Lemma kb_form_unmapped o id u : still_unm u -> kb o (form_unmapped rec id u).
Proof.
  intros H. destruct still_plain as [P1 P2]. unfold form_unmapped. cbv zeta.
  inversion H; subst; try ksame;
    (apply kb_bind; [apply kb_REC; now apply still_unmapped|intros; ksame]).
Qed.
Lemma kb_kbt_same {A} id t (x : M A) : kb (Some id) x -> kbt id t x.
Proof. intros H s _. apply H. Qed.
Lemma kbt_form__map id t tags u : still_form t -> still_unm u -> kbt id t (form__map W rec id tags u).
Proof.
  intros LT LU. inversion LT as [n fs Hf E]; subst. unfold form__map.
  apply kbt_bind; [apply kb_kbt, kb_cur_path|intros pid].
  apply kbt_bind; [apply kb_kbt, kb_path_mapping|intros _].
  apply kbt_form_type. apply kb_kbt_same. apply kb_bind; [apply kb_block; now apply kb_map_fields|intros _].
  apply kb_bind; [now apply kb_form_unmapped|]. intros o. repeat kstep.
Qed.
Lemma kbt_form_map id t a tags rs u m : still_form t -> still_unm u -> kbt id t (form_map W rec id a tags rs u m).
Proof.
  intros LT LU. unfold form_map.
  apply kbt_bind; [apply kb_kbt, kb_effective_tags|intros tg].
  apply kbt_form_type.
  apply kbt_bind; [apply kb_kbt_same; repeat kstep|intros _].
  apply kbt_bind; [apply kb_kbt, kb_ctx_get|intros c].
  apply kbt_bind; [|intros e; apply kb_kbt; repeat kstep].
  destruct (is_anone a && negb (is_none_c c)).
  - unfold nested_map. apply kbt_bind; [apply kb_kbt; ksame|intros e]. apply kbt_bind; [apply kbt_block; now apply kbt_form__map|intros _].
    apply kb_kbt. repeat kstep.
  - unfold root_map. apply kbt_form_type. apply kbt_bind; [apply kb_kbt; ksame|intros src]. apply kbt_bind; [apply kb_kbt; ksame|intros e].
    apply kbt_bind; [apply kbt_block; now apply kbt_form__map|intros _]. apply kb_kbt; ksame.
Qed.
Lemma kb_run_pathop o op : kb o (run_pathop W op).
Proof. unfold run_pathop. repeat kstep. Qed.
Lemma kb_unit_val o m : kb o m -> kb o (unit_val m).
Proof. intros H. unfold unit_val. apply kb_bind; [exact H|intros; ksame]. Qed.
Lemma kb_item_of o id k : kb o (item_of id k).
Proof. unfold item_of. repeat kstep. Qed.
Hint Resolve kb_run_pathop kb_unit_val kb_item_of : kb.
Lemma kb_run p : still_prog p -> kb None (run W rec p).
Proof.
  induction p; intros L; inversion L; subst; cbn [run].
  - ksame.
  - ksame.
  - apply kb_catch; [repeat kstep|auto].
  - apply kb_catch; [apply kb_item_of|auto].
  - apply kb_catch; [apply kb_run_pathop|auto].
  - apply kb_catch; [auto with kb|auto].
  - apply kb_catch; [auto with kb|auto].
  - apply kb_catch; [apply kb_block; auto|auto].
  - apply kb_catch; [apply kb_block; auto|auto].
  - apply kb_catch; [apply kb_reset; auto|auto].
  - apply kb_catch; [apply kb_new_form; intros id|auto].
    apply kbt_bind; [now apply kbt_form_map|intros; apply kb_kbt; ksame].
Qed.
Lemma kb_call_hook h args : (forall t a, still_prog (hk_fun h t a)) -> kb None (call_hook W rec h args).
Proof.
  intros H. unfold call_hook. apply kb_bind; [repeat kstep|intros; now apply kb_run].
Qed.
Lemma kb_rmui : kb None (report_missing_unless_ignored W).
Proof. unfold report_missing_unless_ignored. repeat kstep. Qed.
Hint Resolve kb_rmui : kb.
Lemma kb_field_default f : still f -> kb None (field_default W rec f).
Proof.
  intros L. destruct L as [o k A D1 D2 HC HR HP HM HF HV HK]. unfold field_default. apply kb_bind; [apply kb_ctx_get|intros c].
  cbn [f_opts]. apply kb_if; [apply kb_rmui|]. destruct (o_default o) as [[h|]|v|p].
  - apply kb_call_hook. exact (D1 _ eq_refl h eq_refl).
  - apply kb_rmui.
  - repeat kstep.
  - apply kb_run. now apply D2.
Qed.
Lemma kb_field_munge f v : kb None (field_munge f v).
Proof. unfold field_munge. repeat kstep. Qed.
Lemma kb_field_validate f v : kb None (field_validate W f v).
Proof. unfold field_validate. repeat kstep. Qed.
Lemma kb_invalid_error x : kb None (invalid_error W x).
Proof. unfold invalid_error. repeat kstep. Qed.
Lemma kb_need_str v : kb None (need_str v).
Proof. unfold need_str. repeat kstep. Qed.
Hint Resolve kb_field_munge kb_field_validate kb_invalid_error kb_need_str : kb.
Lemma kb_map_at k f : still f -> kb None (map_at W rec k f).
Proof. intros L. unfold map_at. apply kb_block; auto. Qed.
Hint Resolve kb_map_at : kb.
Lemma kb_parse_decimal pid : kb None (parse_decimal W pid).
Proof. unfold parse_decimal. repeat kstep. Qed.
Lemma kb_parse_date fmts pid : kb None (parse_date W fmts pid).
Proof. unfold parse_date. repeat kstep. Qed.
Lemma kb_parse_time fmt pid : kb None (parse_time W fmt pid).
Proof. unfold parse_time. repeat kstep. Qed.
Lemma kb_parse_datetime fmt pid : kb None (parse_datetime W fmt pid).
Proof. unfold parse_datetime. repeat kstep. Qed.
Lemma kb_parse_code pid : kb None (parse_code W pid).
Proof. unfold parse_code. repeat kstep. Qed.
Lemma kb_parse_uuid pid : kb None (parse_uuid W pid).
Proof. unfold parse_uuid, to_uuid. repeat kstep. Qed.
Lemma kb_tuple_items fs : (forall f, In f fs -> still f) -> forall i acc, kb None (tuple_items W rec i fs acc).
Proof.
  induction fs as [|f fs IH]; intros H i acc; cbn [tuple_items]; [ksame|].
  apply kb_bind; [apply kb_map_at, H; now left|intros; apply IH; intros; apply H; now right].
Qed.
Lemma kb_list_items n f : still f -> forall i acc, kb None (list_items W rec i n f acc).
Proof.
  intros L. induction n as [|n IH]; intros i acc; cbn [list_items]; [ksame|].
  apply kb_bind; [now apply kb_map_at|intros; apply IH].
Qed.
Lemma kb_dict_items keyf kf vf : hook_ok still_prog keyf -> still kf -> still vf -> forall keys acc, kb None (dict_items W rec keyf kf vf keys acc).
Proof.
  intros HK LK LV. induction keys as [|k keys IH]; intros acc; cbn [dict_items]; [ksame|].
  apply kb_bind; [|intros b].
  { unfold key_accepted. destruct keyf as [h|]; [|ksame]. apply kb_bind; [apply kb_call_hook; exact (HK h eq_refl)|intros; ksame]. }
  apply kb_if; [apply IH|]. apply kb_bind; [now apply kb_map_at|intros v]. apply kb_if; [apply IH|].
  apply kb_bind; [now apply REC|intros k']. apply kb_if; [apply IH|]. apply kb_if; [apply IH|ksame].
Qed.
Lemma kb_group_items l : (forall m f, In (m, f) l -> still f) -> forall keys c acc, kb None (group_items W rec l keys c acc).
Proof.
  intros H. induction keys as [|k keys IH]; intros c acc; cbn [group_items]; [ksame|].
  unfold lift. intros s. unfold bind at 1. destruct (group_match W l k) as [[[f cap]|]|e] eqn:GM; [|apply IH|now apply kept_same].
  destruct (match_in W _ _ _ _ GM) as (m & I).
  enough (L : kb None (v <- map_at W rec (key_of_val k) f; group_items W rec l keys (S c) (if ignored v then acc else acc ++ [VTuple [k; cap; v]]))) by exact (L s).
  apply kb_bind; [apply kb_map_at; eauto|intros; apply IH].
Qed.
Lemma kb_parse_form t rs u : still_form t -> still_unm u -> kb None (parse_form W rec t rs u).
Proof.
  intros LT LU. unfold parse_form. apply kb_new_form. intros id. apply kbt_bind; [now apply kbt_form_map|].
  intros es. apply kb_kbt. repeat kstep.
Qed.
Lemma kb_repeat o n (x : M unit) : kb o x -> kb o (repeat_m n x).
Proof. intros H. induction n as [|n IH]; cbn [repeat_m]; [ksame|]. apply kb_bind; auto. Qed.
Lemma kb_rewind o stop : kb o (rewind W stop).
Proof.
  intros s. unfold rewind. destruct (find_frame stop (stk s)) as [i|]; [|now apply kept_same]. cbv zeta.
  match goal with |- kept _ _ (snd (?x s)) => enough (L : kb o x) by exact (L s) end.
  apply kb_bind; [ksame|intros _]. apply kb_bind; [apply kb_ctx_get|intros c]. apply kb_bind; [|intros; ksame].
  apply kb_if; [ksame|]. apply kb_repeat. apply kb_bind; [apply kb_cur_path|intros; apply kb_on_path].
Qed.
Lemma kb_append_all o l : kb o (append_all W l).
Proof. induction l as [|c l IH]; cbn [append_all]; [ksame|]. apply kb_bind; [apply kb_cur_path|intros]. apply kb_bind; [apply kb_on_path|intros; exact IH]. Qed.
Lemma kb_restore_frames o l : kb o (restore_frames W l).
Proof.
  unfold restore_frames. destruct l; [ksame|]. apply kb_bind; [apply kb_ctx_get|intros c].
  apply kb_bind; [apply kb_if; [ksame|apply kb_append_all]|intros; ksame].
Qed.
Lemma kb_closing_any {A} o op cl (body : M A) : kb o op -> kb o cl -> kb o body -> kb o (closing op cl body).
Proof.
  intros HO HC H s. unfold closing. specialize (HO s). destruct (op s) as [[u|e] s1]; cbn [snd] in *; [|exact HO].
  specialize (H s1). destruct (body s1) as [r s2]. cbn [snd] in H. specialize (HC s2). destruct (cl s2) as [[u2|e] s3]; cbn [snd] in *;
    (eapply kept_trans; [exact HO|]; eapply kept_trans; [exact H|exact HC]).
Qed.
Lemma kb_with_rewind {A} o stop (body : M A) : kb o body -> kb o (with_rewind W stop body).
Proof. intros H. unfold with_rewind. apply kb_bind; [apply kb_rewind|intros l]. apply kb_closing_any; [ksame|apply kb_restore_frames|exact H]. Qed.
Lemma kb_field_get f id : still f -> kb (Some id) (field_get W rec f id).
Proof.
  intros L. pose proof (kb_REC (Some id) f (VConst NONE) L) as R. unfold field_get.
  apply kb_bind; [ksame|intros l]. destruct (dict_get l (VStr (fname f))); [ksame|]. apply kb_bind; [apply kb_ctx_get_opt|intros c]. cbv zeta.
  assert (FIN : forall v, kb (Some id) (if ignored v then raise (EAttr "form cannot map field") else form_set id (VStr (fname f)) v;; ret v)).
  { intros v. repeat kstep. }
  apply kb_if.
  - apply kb_bind; [ksame|intros t]. apply kb_bind; [repeat kstep|intros src]. apply kb_bind; [ksame|intros eid].
    apply kb_bind; [now apply kb_block|exact FIN].
  - apply kb_bind; [apply kb_ctx_get_opt|intros p]. apply kb_if; [apply kb_bind; [exact R|exact FIN]|].
    apply kb_catch; [now apply kb_with_rewind|]. intros [v|[]]; try ksame. apply kb_bind; [now apply kb_block|exact FIN].
Qed.
Lemma kb_types_probe probe tf v : still_form probe -> still tf -> kb None (types_probe W rec probe tf v).
Proof.
  intros LP LF. unfold types_probe. apply kb_new_form. intros id. apply kbt_bind; [apply kbt_form_map; [exact LP|constructor]|].
  intros [|e es]; [|apply kb_kbt; ksame]. intros s _. now apply kb_field_get.
Qed.
Lemma kb_poly_type probe tf table pid : still_form probe -> still tf -> kb None (poly_type W rec probe tf table pid).
Proof.
  intros LP LF. unfold poly_type. apply kb_bind; [apply kb_path_value|intros v]. apply kb_catch; [now apply kb_types_probe|intros r].
  repeat kstep.
Qed.
Lemma table_class (table : list (val * string)) i v : dict_get (map (fun ic => (fst ic, VStr (snd ic))) table) i = Some v -> exists j c, In (j, c) table /\ v = VStr c.
Proof.
  unfold dict_get. induction table as [|[j c] table IH]; cbn [map find fst snd]; [discriminate|]. destruct (py_eq j i) eqn:Q.
  - cbn [option_map snd]. intros H. injection H as <-. exists j, c. split; [now left|reflexivity].
  - intros H. destruct (IH H) as (j' & c' & I & E). exists j', c'. split; [now right|exact E].
Qed.
Lemma poly_type_class probe tf table pid s t s' : poly_type W rec probe tf table pid s = (Ok (inl t), s') -> exists i c, In (i, c) table /\ w_class W c = Some t.
Proof.
  unfold poly_type, bind, catch. destruct (path_value W pid s) as [[v|e] s1]; [|discriminate].
  destruct (types_probe W rec probe tf v s1) as [[w|e] s2].
  - destruct (is_None w); [discriminate|]. destruct (negb (hashable w)); [discriminate|].
    destruct (dict_get _ w) as [x|] eqn:G.
    + destruct (table_class _ _ _ G) as (j & c & I & ->). destruct (w_class W c) as [t'|] eqn:Q; [|discriminate].
      intros H. injection H as <- _. eauto.
    + destruct (report W _ s2) as [[u|e] s3]; discriminate.
  - destruct (is_value_error e); [|discriminate]. destruct (report W _ s2) as [[u|e'] s3]; discriminate.
Qed.
Lemma kb_parse_poly probe tf table rs u pid : still_form probe -> still tf -> still_unm u -> (forall i c, In (i, c) table -> C c) ->
  kb None (parse_poly W rec probe tf table rs u pid).
Proof.
  intros LP LF LU LC s. pose proof (kb_poly_type probe tf table pid LP LF s) as K. unfold parse_poly, bind.
  destruct (poly_type W rec probe tf table pid s) as [[[t|v]|e] s1] eqn:Q; cbn [snd] in K; try exact K.
  destruct (poly_type_class _ _ _ _ _ _ _ Q) as (i & c & I & E). eapply kept_trans; [exact K|]. apply kb_parse_form; [|exact LU].
  exact (CLS c t (LC i c I) E).
Qed.
Hint Resolve kb_parse_decimal kb_parse_date kb_parse_time kb_parse_datetime kb_parse_code kb_parse_uuid : kb.
Lemma kb_parse_kind k pid : still_kind k -> kb None (parse_kind W rec k pid).
Proof.
  intros H. unfold parse_kind. inversion H; subst; try solve [auto with kb nocore].
  - unfold parse_tuple. apply kb_bind; [apply kb_path_sequence|intros n]. apply kb_if; [|apply kb_invalid_error].
    apply kb_bind; [now apply kb_tuple_items|intros; ksame].
  - unfold parse_list. apply kb_catch; [apply kb_path_sequence|intros [n|e]].
    + apply kb_bind; [now apply kb_list_items|intros; ksame].
    + apply kb_bind; [ksame|intros b]. apply kb_if; [ksame|]. destruct e; try ksame.
      apply kb_if; [|ksame]. apply kb_bind; [now apply REC|intros; ksame].
  - unfold parse_dict. apply kb_bind; [apply kb_path_mapping|intros vw].
    apply kb_bind; [ksame|intros keys]. apply kb_bind; [now apply kb_dict_items|intros; ksame].
  - now apply kb_parse_form.
  - now apply kb_parse_poly.
  - unfold parse_group. apply kb_bind; [apply kb_path_mapping|intros vw].
    apply kb_bind; [ksame|intros keys]. now apply kb_group_items.
Qed.
Lemma kb_field_map_body f v : still f -> kb None (field_map_body W rec f v).
Proof.
  intros L. pose proof (kb_field_default f L) as LD. destruct L as [o k A D1 D2 HC HR HP HM HF HV HK]. unfold field_map_body.
  assert (LA : forall w, kb None (field_after W rec (MkField o k) w)).
  { intros w. unfold field_after. cbn [f_opts]. apply kb_bind; [apply kb_field_munge|intros w1].
    apply kb_bind.
    { destruct (o_munge o) as [h|]; [apply kb_if; [ksame|apply kb_call_hook; exact (HM h eq_refl)]|ksame]. }
    intros w2. apply kb_if; [exact LD|]. apply kb_if; [ksame|]. apply kb_if; [exact LD|].
    apply kb_bind.
    { destruct (o_filter o) as [h|]; [|ksame]. apply kb_bind; [apply kb_call_hook; exact (HF h eq_refl)|intros; ksame]. }
    intros ok. apply kb_if; [exact LD|]. apply kb_bind; [apply kb_field_validate|intros ok2]. apply kb_if; [ksame|].
    apply kb_bind.
    { destruct (o_validate o) as [h|]; [|ksame]. apply kb_bind; [apply kb_call_hook; exact (HV h eq_refl)|intros; ksame]. }
    intros ok3. repeat kstep. }
  assert (LC : kb None (field_compute W rec (MkField o k))).
  { unfold field_compute. cbn [f_opts f_kind]. apply kb_bind; [apply kb_cur_path|intros pid].
    apply kb_bind; [apply kb_path_exists|intros ex]. apply kb_if; [ksame|].
    apply kb_bind; [apply kb_path_is_null|intros nl]. apply kb_if; [ksame|].
    apply kb_catch.
    - destruct (o_parse o) as [h|]; [apply kb_call_hook; exact (HP h eq_refl)|now apply kb_parse_kind].
    - intros [w|e]; [ksame|]. apply kb_if; [apply kb_invalid_error|ksame]. }
  assert (LB : kb None (field_body W rec (MkField o k) v)).
  { unfold field_body. apply kb_if; [|apply LA]. cbn [f_opts]. apply kb_bind.
    - destruct (o_compute o) as [h|]; [apply kb_call_hook; exact (HC h eq_refl)|exact LC].
    - intros w. apply kb_if; [|apply kb_if; [ksame|apply LA]].
      destruct (o_default o) as [[h|]|d|pp]; try exact LD. apply kb_call_hook. exact (D1 _ eq_refl h eq_refl). }
  apply kb_bind.
  - apply kb_block. unfold field__map. apply kb_bind.
    + apply kb_if; [|ksame]. unfold field_resolve. cbn [f_opts f_kind]. destruct (o_resolve o) as [h|].
      * apply kb_bind; [apply kb_call_hook; exact (HR h eq_refl)|intros; ksame].
      * destruct k; ksame.
    + intros [key|]; [|exact LB]. apply kb_block; exact LB.
  - intros w. cbn [f_opts]. rewrite A. cbn [andb]. repeat kstep.
Qed.
End Rec.

Lemma kb_field_map W C n : still_classes C W -> forall f v, still C f -> kb None (field_map W n f v).
Proof.
  intros CLS. induction n as [|n IH]; intros f v L; cbn [field_map]; [ksame|].
  now apply (kb_field_map_body W C CLS (field_map W n) IH).
Qed.
