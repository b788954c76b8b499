(** * Make74: fields with a hook that [constant], [format], [capture] or [pattern] registers (C74-C77). *)
From Verif Require Import PyBase PyStr Source Field Context Fields Build SpecCtx SpecField FieldVios SpecBox SpecBuild SrcPath Run FieldProofs FieldLemmas MakeProofs Make73 SpecAttr AttrProofs.
From Coq Require Import Lia.
Open Scope Z_scope.

Lemma fits_violation W ents f w : fits (w_env W) f w -> field_violation (w_env W) ents f w = Ok None.
Proof.
  intros [N|c x K OK|lo hi z q B N Lo Hi|z U NN].
  - unfold field_violation, vio_null. rewrite N. reflexivity.
  - destruct (string_cases (w_env W) f c x ents K) as [(V & _)|(viol & _ & _ & NO)]; [exact V|contradiction].
  - exact (FieldVios.within W f lo hi z q B N ents Lo Hi).
  - unfold field_violation. destruct (vio_null f z) as [x|] eqn:V.
    + exfalso. unfold vio_null in V. destruct z; try discriminate. contradiction.
    + unfold vio_kind. destruct z; try reflexivity; destruct (f_kind f); try reflexivity; contradiction.
Qed.
Section Sets.
Variables (W : world) (n : nat) (name : string) (b b' : bfield).
Variables (s : st) (eid : nat) (m : mode) (es : list err) (pid : nat) (p : path) (igd igm : bool) (t : string).
Hypothesis MP : mapping W s eid m es pid p igd igm.
Hypothesis HF : hook_free (attach_as name b).
Notation f := (attach_as name b').
Hypothesis SRC : b_src b' = b_src b.
Hypothesis KIND : b_kind b' = b_kind b.
Hypothesis T : p_str (w_env W) (place f p) = Ok t.
Notation sp := (spot f NONEv p).
Notation s1 := (entered f NONEv s pid p).
Notation read := (after_read f NONEv s pid p).
Lemma spot_place : sp = place f p.
Proof. reflexivity. Qed.
(** a compute hook whose value stays *)
Lemma set_compute_yields h v w : b_opts b' = set_compute (Some h) (b_opts b) ->
  call_hook W (field_map W n) h [] s1 = (Ok v, s1) -> settles (w_env W) f v w ->
  yields W (S n) f NONEv s eid m es w [].
Proof.
  intros HO H (G & L & Tr & Gw & I & FT).
  assert (Q : quiet f /\ o_compute (f_opts f) = Some h /\ o_munge (f_opts f) = None).
  { destruct HF as [[]]. destruct b as [bs o k], b' as [bs' o' k']. cbn [b_src b_opts b_kind] in *. subst. destruct bs; cbn in *; repeat split; assumption. }
  destruct Q as (Q & HC & HM). rewrite <- spot_place in T.
  pose proof (computed_quiet W n f NONEv s pid p h v HC eq_refl H G) as B.
  rewrite (after_quiet W n f NONEv s eid m es pid p igd igm MP Q v w w sp t T L) in B.
  - rewrite Gw in B. assert (N : is_NONE w = false) by (destruct w; try reflexivity; discriminate). rewrite N in B.
    exact (checked_yields W n f NONEv s eid m es pid p igd igm MP Q w sp t None I (fits_violation W (entries s) f w FT) B).
  - now apply translated_is.
  - now rewrite HM.
Qed.
End Sets.
(** ** C74: constants *)
Lemma C74_lem W n name b v w s eid m es pid p igd igm t :
  mapping W s eid m es pid p igd igm -> hook_free (attach_as name b) ->
  exists b', constant v b = Ok b' /\
    let f := attach_as name b' in
    (p_str (w_env W) (place f p) = Ok t -> settles (w_env W) f v w -> yields W (S n) f NONEv s eid m es w []).
Proof.
  intros MP HF. unfold constant, register.
  assert (C : o_compute (b_opts b) = None). { destruct HF as [[]]. destruct b as [bs o k]. destruct bs; assumption. }
  rewrite C. cbn [bindr]. eexists. split; [reflexivity|]. intros T ST.
  eapply (set_compute_yields W n name b _ s eid m es pid p igd igm t MP HF); [reflexivity|reflexivity|exact T|reflexivity| |exact ST].
  reflexivity.
Qed.
Lemma C74_again_lem v w b b' : constant v b = Ok b' -> constant w b' = Exn (EType "takes a different number of arguments").
Proof.
  unfold constant. intros H. apply bindr_ok in H. destruct H as (h & H & [= <-]). unfold register in H.
  destruct (o_compute (b_opts b)); [discriminate|]. injection H as <-. destruct b as [bs [] k]. reflexivity.
Qed.
Lemma C74_type_lem W n name x s eid m es pid p igd igm t :
  mapping W s eid m es pid p igd igm ->
  exists b, type_constant (VStr x) = Ok b /\
    (p_str (w_env W) (place (attach_as name b) p) = Ok t -> yields W (S n) (attach_as name b) NONEv s eid m es (VStr x) []).
Proof.
  intros MP. eexists. split; [reflexivity|]. intros T.
  set (b0 := BF false (MkOpts None None true (DVal (VStr x)) [] [] [] false None None None None None None) (KString (MkStrc None None None [] [VStr x]))).
  assert (HF : hook_free (attach_as name b0)) by (repeat split; cbn; eauto).
  destruct (C74_lem W n name b0 (VStr x) (VStr x) s eid m es pid p igd igm t MP HF) as (b' & C & Y). injection C as <-.
  apply Y; [exact T|]. split; [reflexivity|]. split; [left; reflexivity|]. split; [right; reflexivity|]. split; [reflexivity|]. split; [reflexivity|].
  eapply fits_string; [reflexivity|]. split; [left; reflexivity|]. split; [intros k; discriminate|]. split; [intros k; discriminate|]. split; [intros k; discriminate|].
  right. exists (VStr x). split; [apply String.eqb_refl|]. left. now left.
Qed.
(** On an attached field: the other hooks, the place and the options stay. *)
Lemma C74_attached_lem W n g v w s eid m es pid p igd igm t name :
  mapping W s eid m es pid p igd igm -> quiet g -> o_munge (f_opts g) = None ->
  let f := attach_as name (attached_constant v g) in
  p_str (w_env W) (place f p) = Ok t -> settles (w_env W) f v w -> yields W (S n) f NONEv s eid m es w [].
Proof.
  intros MP Q HM f T (G & L & Tr & Gw & I & FT). destruct g as [o k]. cbn in HM. destruct o as [a1 a2 a3 a4 a5 a6 a7 a8 a9 a10 a11 a12 a13 a14]. destruct Q as [Q1 Q2 Q3 Q4]. cbn in HM, Q1, Q2, Q3, Q4.
  assert (Q : quiet f) by (split; assumption).
  assert (HC : o_compute (f_opts f) = Some (constant_hook v)) by reflexivity.
  pose proof (computed_quiet W n f NONEv s pid p _ v HC eq_refl eq_refl G) as B.
  rewrite (after_quiet W n f NONEv s eid m es pid p igd igm MP Q v w w (spot f NONEv p) t T L) in B.
  - rewrite Gw in B. assert (N : is_NONE w = false) by (destruct w; try reflexivity; discriminate). rewrite N in B.
    exact (checked_yields W n f NONEv s eid m es pid p igd igm MP Q w _ t None I (fits_violation W (entries s) f w FT) B).
  - now apply translated_is.
  - cbn. rewrite HM. reflexivity.
Qed.

(** ** C75: format *)
Lemma split_head a x : ~ In "."%char (list_ascii_of_string a) -> split_on dot (a ++ String "."%char x)%string = a :: split_on dot x.
Proof.
  intros N. induction a as [|h a IH]; [reflexivity|]. cbn [append split_on]. destruct (Ascii.eqb h dot) eqn:Q.
  - apply Ascii.eqb_eq in Q. subst h. exfalso. apply N. now left.
  - rewrite IH; [reflexivity|]. intros I. apply N. now right.
Qed.
Lemma split_one a : ~ In "."%char (list_ascii_of_string a) -> split_on dot a = [a].
Proof.
  intros N. induction a as [|h a IH]; [reflexivity|]. cbn [split_on]. destruct (Ascii.eqb h dot) eqn:Q.
  - apply Ascii.eqb_eq in Q. subst h. exfalso. apply N. now left.
  - rewrite IH; [reflexivity|]. intros I. apply N. now right.
Qed.
Lemma split_cons a rest : plain_names (a :: rest) -> split_on dot (dotted (a :: rest)) = a :: rest.
Proof.
  revert a. induction rest as [|c rest IH]; intros a [_ N]; [apply split_one, N; now left|].
  change (dotted (a :: c :: rest)) with (a ++ String "."%char (dotted (c :: rest)))%string. rewrite split_head by (apply N; now left).
  rewrite IH; [reflexivity|]. split; [discriminate|]. intros x X. apply N. now right.
Qed.
Lemma split_dotted names : plain_names names -> split_on dot (dotted names) = names.
Proof. destruct names as [|a rest]; [intros [X _]; congruence|apply split_cons]. Qed.
Lemma attrs_forms E s s' v names w : forms s' = forms s -> attrs E s v names w -> attrs E s' v names w.
Proof.
  intros F A. induction A as [v|v nm u rest w FV AT A IH|id t l nm f v rest w FI IN NM DG A IH]; [constructor|now apply (at_value E s' v nm u)|].
  eapply at_form; try eassumption. now rewrite F.
Qed.
Lemma all_forms E s s' form kw values : forms s' = forms s -> all_read E s form kw values -> all_read E s' form kw values.
Proof.
  intros F A. induction A as [|k x kw values (H & names & B & C & D) _ IH]; constructor; [|exact IH].
  split; [exact H|]. exists names. split; [exact B|]. split; [exact C|]. exact (attrs_forms _ _ _ _ _ _ F D).
Qed.
Section Format.
Variables (W : world) (rec : field -> val -> M val).
Notation E := (w_env W).
Lemma get_present s id t l nm f v : nth_error (forms s) id = Some (t, l) -> In f (ft_fields t) -> o_name (f_opts f) = Some nm ->
  dict_get l (VStr nm) = Some v -> form_getattr W rec id nm s = (Ok v, s).
Proof.
  intros FI IN NM DG. unfold form_getattr, form_type, bind, get. rewrite FI. unfold find_field.
  destruct (find (name_is nm) (ft_fields t)) as [g|] eqn:FF.
  - apply find_some in FF. destruct FF as [_ FF]. unfold name_is in FF. destruct (f_name g) as [x|] eqn:NG; [|discriminate]. apply String.eqb_eq in FF. subst x.
    unfold field_get, form_entries, bind, get, fname, entries. rewrite FI, NG, DG. reflexivity.
  - exfalso. apply (find_none _ _ FF f) in IN. unfold name_is, f_name in IN. rewrite NM, String.eqb_refl in IN. discriminate.
Qed.
Lemma getattrs_value v nm u rest k : foreign v -> e_attr E v nm = Some u -> getattrs E v (nm :: rest) k = getattrs E u rest k.
Proof. intros F A. destruct v; try contradiction; cbn [getattrs py_getattr]; now rewrite A. Qed.
Lemma getattrs_run s form names v k : attrs E s form names v -> run W rec (getattrs E form names k) s = run W rec (k (Ok v)) s.
Proof.
  induction 1 as [v|v nm u rest w FV AT A IH|id t l nm f v rest w FI IN NM DG A IH]; [reflexivity|now rewrite (getattrs_value v nm u rest k FV AT)|]. cbn [getattrs run]. unfold catch.
  rewrite (get_present s id t l nm f v FI IN NM DG). exact IH.
Qed.
Lemma format_run s form kw values : all_read E s form kw values -> forall acc fmt,
  run W rec (format_values E form kw acc fmt) s = (e_format E fmt (acc ++ values), s).
Proof.
  induction 1 as [|[k d] [x v] kw values (A & names & B & PN & AT) _ IH]; intros acc fmt.
  - cbn [format_values]. rewrite app_nil_r. destruct (e_format E fmt acc); reflexivity.
  - cbn [fst snd] in *. subst x d. cbn [format_values]. rewrite (split_dotted _ PN), (getattrs_run _ _ _ _ _ AT). rewrite IH, <- app_assoc. reflexivity.
Qed.
(** one that is not there *)
Lemma getattrs_miss s form names id t l nm rest k : attrs E s form names (VForm id) -> nth_error (forms s) id = Some (t, l) ->
  (forall f, In f (ft_fields t) -> o_name (f_opts f) <> Some nm) -> no_attribute E nm ->
  run W rec (getattrs E form (names ++ nm :: rest) k) s = run W rec (k (Exn (EAttr nm))) s.
Proof.
  intros A FI NF NA. remember (VForm id) as v eqn:Q. induction A as [v|v nm' u' rest' w FV AT A IH|id' t' l' nm' f v rest' w FI' IN NM DG A IH].
  2:{ cbn [app]. rewrite (getattrs_value v nm' u' _ k FV AT). exact (IH Q). }
  - subst v. cbn [app getattrs run]. unfold catch. rewrite (getattr_unknown W rec s id t l nm FI NF), (unknown_is _ id nm NA). reflexivity.
  - cbn [app getattrs run]. unfold catch. rewrite (get_present s id' t' l' nm' f v FI' IN NM DG). exact (IH Q).
Qed.
Lemma format_miss s form kw values : all_read E s form kw values -> forall acc fmt k names id t l nm rest more,
  attrs E s form names (VForm id) -> nth_error (forms s) id = Some (t, l) -> (forall f, In f (ft_fields t) -> o_name (f_opts f) <> Some nm) -> no_attribute E nm ->
  plain_names (names ++ nm :: rest) ->
  run W rec (format_values E form (kw ++ (k, dotted (names ++ nm :: rest)) :: more) acc fmt) s = run W rec (invalid_attribute (EAttr nm)) s.
Proof.
  induction 1 as [|[k d] [x v] kw values (A & nms & B & PN & AT) _ IH]; intros acc fmt k0 names id t l nm rest more A0 FI NF NA PN0.
  - cbn [app format_values]. rewrite (split_dotted _ PN0), (getattrs_miss s form names id t l nm rest _ A0 FI NF NA). reflexivity.
  - cbn [fst snd app] in *. subst x d. cbn [format_values]. rewrite (split_dotted _ PN), (getattrs_run _ _ _ _ _ AT). eapply IH; eassumption.
Qed.
End Format.

(** ** C75: the field *)
Lemma C75_lem W n name b fmt kw values id x w s eid m es pid p igd igm t :
  mapping W s eid m es pid p igd igm -> lookup "form" (stk s) = Some (CForm id) -> hook_free (attach_as name b) ->
  all_read (w_env W) s (VForm id) kw values -> e_format (w_env W) fmt values = Ok x ->
  exists b', string_format (w_env W) fmt kw b = Ok b' /\
    let f := attach_as name b' in
    (p_str (w_env W) (place f p) = Ok t -> settles (w_env W) f x w -> yields W (S n) f NONEv s eid m es w []).
Proof.
  intros MP FO HF AR FM. unfold string_format, register.
  assert (C : o_compute (b_opts b) = None). { destruct HF as [[]]. destruct b as [bs o k]. destruct bs; assumption. }
  rewrite C. cbn [bindr]. eexists. split; [reflexivity|]. intros T ST.
  eapply (set_compute_yields W n name b _ s eid m es pid p igd igm t MP HF); [reflexivity|reflexivity|exact T|reflexivity| |exact ST].
  unfold call_hook, format_hook, bind. cbn [hk_attached hk_fun ret run]. unfold catch, bind, ctx_get, ctx_get_opt, bind, get.
  rewrite entered_lookup by discriminate. rewrite FO. cbn [ret]. rewrite (format_run W _ _ _ kw values); [|eapply all_forms; [|exact AR]; reflexivity]. cbn [app]. now rewrite FM.
Qed.
(** the hook reports an error *)
Lemma hook_reports W n f h x s eid m es pid p igd igm t : mapping W s eid m es pid p igd igm -> quiet f -> o_compute (f_opts f) = Some h ->
  p_str (w_env W) (place f p) = Ok t ->
  call_hook W (field_map W n) h [] (entered f NONEv s pid p) = run W (field_map W n) (invalid_attribute x) (entered f NONEv s pid p) ->
  yields W (S n) f NONEv s eid m es ERRORv [invalid_at f pid (VioExn x) t].
Proof.
  intros MP Q HC T H. apply (yields_run W n f NONEv s eid m es pid p igd igm MP Q) with (q := spot f NONEv p).
  unfold field_body. change (is_NONE NONEv) with true. cbv iota. rewrite HC. unfold bind at 1. rewrite H.
  unfold invalid_attribute. cbn [run]. unfold catch, unit_val, bind. rewrite (s1_is f NONEv s pid p).
  change (place f p) with (spot f NONEv p) in T. rewrite (ar_report W f NONEv s eid m es pid p igd igm MP (Invalid (VioExn x)) (spot f NONEv p) t T). unfold out, invalid_at. destruct m; reflexivity.
Qed.
Lemma C75_miss_lem W n name b fmt kw values id k names id' ty l nm rest more s eid m es pid p igd igm t :
  mapping W s eid m es pid p igd igm -> lookup "form" (stk s) = Some (CForm id) -> hook_free (attach_as name b) ->
  all_read (w_env W) s (VForm id) kw values -> plain_names (names ++ nm :: rest) ->
  attrs (w_env W) s (VForm id) names (VForm id') -> nth_error (forms s) id' = Some (ty, l) -> (forall g, In g (ft_fields ty) -> o_name (f_opts g) <> Some nm) -> no_attribute (w_env W) nm ->
  exists b', string_format (w_env W) fmt (kw ++ (k, dotted (names ++ nm :: rest)) :: more) b = Ok b' /\
    let f := attach_as name b' in
    (p_str (w_env W) (place f p) = Ok t -> yields W (S n) f NONEv s eid m es ERRORv [invalid_at f pid (VioExn (EAttr nm)) t]).
Proof.
  intros MP FO HF AR PN A FI NF NA. unfold string_format, register.
  assert (C : o_compute (b_opts b) = None). { destruct HF as [[]]. destruct b as [bs o kk]. destruct bs; assumption. }
  rewrite C. cbn [bindr]. eexists. split; [reflexivity|]. intros T.
  eapply (hook_reports W n _ _ (EAttr nm)); [exact MP| |destruct b as [[] o kk]; reflexivity|exact T|].
  - destruct HF as [[]]. destruct b as [bs o kk]. destruct bs; cbn in *; split; assumption.
  - unfold call_hook, format_hook, bind. cbn [hk_attached hk_fun ret run]. unfold catch at 1, bind, ctx_get, ctx_get_opt, bind, get.
    rewrite entered_lookup by discriminate. rewrite FO. cbn [ret]. eapply format_miss; [eapply all_forms; [|exact AR]; reflexivity|eapply attrs_forms; [|exact A]; reflexivity|exact FI|exact NF|exact NA|exact PN].
Qed.

(** an attribute Python does not find in a value *)
Lemma getattrs_lack W rec s form names v nm rest k : attrs (w_env W) s form names v -> foreign v -> e_attr (w_env W) v nm = None ->
  run W rec (getattrs (w_env W) form (names ++ nm :: rest) k) s = run W rec (k (Exn (EAttr nm))) s.
Proof.
  intros A F AT. induction A as [v|v nm' u' rest' w FV AV A IH|id' t' l' nm' f v rest' w FI' IN NM DG A IH].
  - cbn [app]. destruct v; try contradiction; cbn [getattrs py_getattr]; now rewrite AT.
  - cbn [app]. rewrite (getattrs_value W v nm' u' _ k FV AV). exact (IH F AT).
  - cbn [app getattrs run]. unfold catch. rewrite (get_present W rec s id' t' l' nm' f v FI' IN NM DG). exact (IH F AT).
Qed.
Lemma format_lack W rec s form kw values : all_read (w_env W) s form kw values -> forall acc fmt k names v nm rest more,
  attrs (w_env W) s form names v -> foreign v -> e_attr (w_env W) v nm = None -> plain_names (names ++ nm :: rest) ->
  run W rec (format_values (w_env W) form (kw ++ (k, dotted (names ++ nm :: rest)) :: more) acc fmt) s = run W rec (invalid_attribute (EAttr nm)) s.
Proof.
  induction 1 as [|[k d] [x v] kw values (A & nms & B & PN & AT) _ IH]; intros acc fmt k0 names v0 nm rest more A0 FV NA PN0.
  - cbn [app format_values]. rewrite (split_dotted _ PN0), (getattrs_lack W rec s form names v0 nm rest _ A0 FV NA). reflexivity.
  - cbn [fst snd app] in *. subst x d. cbn [format_values]. rewrite (split_dotted _ PN), (getattrs_run _ _ _ _ _ _ _ AT). eapply IH; eassumption.
Qed.
Lemma C75_lack_lem W n name b fmt kw values id k names v nm rest more s eid m es pid p igd igm t :
  mapping W s eid m es pid p igd igm -> lookup "form" (stk s) = Some (CForm id) -> hook_free (attach_as name b) ->
  all_read (w_env W) s (VForm id) kw values -> plain_names (names ++ nm :: rest) ->
  attrs (w_env W) s (VForm id) names v -> foreign v -> e_attr (w_env W) v nm = None ->
  exists b', string_format (w_env W) fmt (kw ++ (k, dotted (names ++ nm :: rest)) :: more) b = Ok b' /\
    let f := attach_as name b' in
    (p_str (w_env W) (place f p) = Ok t -> yields W (S n) f NONEv s eid m es ERRORv [invalid_at f pid (VioExn (EAttr nm)) t]).
Proof.
  intros MP FO HF AR PN A FV NA. unfold string_format, register.
  assert (C : o_compute (b_opts b) = None). { destruct HF as [[]]. destruct b as [bs o kk]. destruct bs; assumption. }
  rewrite C. cbn [bindr]. eexists. split; [reflexivity|]. intros T.
  eapply (hook_reports W n _ _ (EAttr nm)); [exact MP| |destruct b as [[] o kk]; reflexivity|exact T|].
  - destruct HF as [[]]. destruct b as [bs o kk]. destruct bs; cbn in *; split; assumption.
  - unfold call_hook, format_hook, bind. cbn [hk_attached hk_fun ret run]. unfold catch at 1, bind, ctx_get, ctx_get_opt, bind, get.
    rewrite entered_lookup by discriminate. rewrite FO. cbn [ret]. eapply format_lack; [eapply all_forms; [|exact AR]; reflexivity|eapply attrs_forms; [|exact A]; reflexivity|exact FV|exact NA|exact PN].
Qed.

(** what [str.format] raises, or an attribute that cannot be read *)
Lemma C75_raises_lem W n name b fmt kw values id e s eid m es pid p igd igm :
  mapping W s eid m es pid p igd igm -> lookup "form" (stk s) = Some (CForm id) -> hook_free (attach_as name b) ->
  all_read (w_env W) s (VForm id) kw values -> e_format (w_env W) fmt values = Exn e ->
  exists b', string_format (w_env W) fmt kw b = Ok b' /\
    exists s', field_map W (S n) (attach_as name b') NONEv s = (Exn e, s') /\ stk s' = stk s /\ forms s' = forms s /\ errs s' = errs s.
Proof.
  intros MP FO HF AR FM. unfold string_format, register.
  assert (C : o_compute (b_opts b) = None). { destruct HF as [[]]. destruct b as [bs o k]. destruct bs; assumption. }
  rewrite C. cbn [bindr]. eexists. split; [reflexivity|]. match goal with |- context [attach_as name ?x] => set (b' := x) end.
  assert (Q : quiet (attach_as name b')).
  { destruct HF as [[]]. subst b'. destruct b as [bs o kk]. destruct bs; cbn in *; split; assumption. }
  apply (raises_run W n (attach_as name b') NONEv s eid m es pid p igd igm MP Q) with (q := spot (attach_as name b') NONEv p).
  rewrite <- s1_is. unfold field_body. change (is_NONE NONEv) with true. cbv iota.
  assert (HC : o_compute (f_opts (attach_as name b')) = Some (format_hook (w_env W) fmt kw)) by (subst b'; destruct b as [[] o kk]; reflexivity).
  rewrite HC. unfold bind at 1. unfold call_hook, format_hook, bind. cbn [hk_attached hk_fun ret run]. unfold catch, bind, ctx_get, ctx_get_opt, bind, get.
  rewrite entered_lookup by discriminate. rewrite FO. cbn [ret]. rewrite (format_run W _ _ _ kw values); [|eapply all_forms; [|exact AR]; reflexivity]. cbn [app]. now rewrite FM.
Qed.
Lemma getattrs_raise W rec s form names id nm e s2 rest k : attrs (w_env W) s form names (VForm id) ->
  form_getattr W rec id nm s = (Exn e, s2) ->
  run W rec (getattrs (w_env W) form (names ++ nm :: rest) k) s = run W rec (k (Exn e)) s2.
Proof.
  intros A G. remember (VForm id) as v eqn:Q. induction A as [v|v nm' u' rest' w FV AT A IH|id' t' l' nm' f v rest' w FI' IN NM DG A IH].
  2:{ cbn [app]. rewrite (getattrs_value W v nm' u' _ k FV AT). exact (IH Q). }
  - subst v. cbn [app getattrs run]. unfold catch. now rewrite G.
  - cbn [app getattrs run]. unfold catch. rewrite (get_present W rec s id' t' l' nm' f v FI' IN NM DG). exact (IH Q).
Qed.
Lemma C75_attribute_lem W rec fmt kw values id k names id' nm rest more e s s2 :
  lookup "form" (stk s) = Some (CForm id) -> all_read (w_env W) s (VForm id) kw values -> plain_names (names ++ nm :: rest) ->
  attrs (w_env W) s (VForm id) names (VForm id') -> form_getattr W rec id' nm s = (Exn e, s2) -> (forall x, e <> EAttr x) ->
  call_hook W rec (format_hook (w_env W) fmt (kw ++ (k, dotted (names ++ nm :: rest)) :: more)) [] s = (Exn e, s2).
Proof.
  intros FO AR PN A G NA. unfold call_hook, format_hook, bind. cbn [hk_attached hk_fun ret run]. unfold catch at 1, bind, ctx_get, ctx_get_opt, bind, get.
  rewrite FO. cbn [ret]. generalize (@nil (string * val)) as acc. induction AR as [|[x d] [y v] kw values (X & nms & B & PN' & AT) _ IH]; intros acc.
  - cbn [app format_values]. rewrite (split_dotted _ PN), (getattrs_raise W rec s _ names id' nm e s2 rest _ A G).
    destruct e; try reflexivity. exfalso. eapply NA. reflexivity.
  - cbn [fst snd app] in *. subst y d. cbn [format_values]. rewrite (split_dotted _ PN'), (getattrs_run _ _ _ _ _ _ _ AT). apply IH.
Qed.

(** ** C76: capture *)
Section Capture.
Variables (W : world) (n : nat) (name : string) (b : bfield) (pattern : string) (ask : option string).
Variables (s : st) (eid : nat) (m : mode) (es : list err) (pid : nat) (p : path) (igd igm : bool) (t : string) (arg v u : val).
Hypothesis MP : mapping W s eid m es pid p igd igm.
Hypothesis HF : hook_free (attach_as name b).
Definition b2 : bfield := BF (b_src b) (set_munge (Some (capture_hook (w_env W) pattern ask (Some name))) (b_opts b)) (b_kind b).
Notation f := (attach_as name b2).
Hypothesis T : p_str (w_env W) (spot f arg p) = Ok t.
Hypothesis O : obtains W s f p arg v.
Hypothesis G : ignored v = false.
Hypothesis L : lookable f v.
Hypothesis Tr : translated f v u.
Hypothesis Gu : ignored u = false.
Lemma capture_makes : string_capture (w_env W) pattern ask (Some name) b = Ok b2.
Proof.
  unfold string_capture, register.
  assert (C : o_munge (b_opts b) = None). { destruct HF as [[]]. destruct b as [bs o k]. destruct bs; assumption. }
  rewrite C. reflexivity.
Qed.
Lemma cap_quiet : quiet f /\ o_compute (f_opts f) = None /\ o_parse (f_opts f) = None /\ o_munge (f_opts f) = Some (capture_hook (w_env W) pattern ask (Some name)).
Proof.
  destruct HF as [[]]. unfold b2. destruct b as [bs o k]. destruct bs; cbn in *; repeat split; assumption.
Qed.
Lemma cap_default : (exists d, o_default (f_opts f) = DVal d) \/ o_default (f_opts f) = DUnset None.
Proof. destruct HF as [[? ? D]]. unfold b2. destruct b as [bs o k]. destruct bs; exact D. Qed.
Lemma cap_body w : capture_value (w_env W) pattern ask (Some name) u = PRet w ->
  exists q, p_str (w_env W) q = Ok t /\
  field_body W (field_map W n) f arg (entered f arg s pid p) =
  (if is_NONE w then field_default W (field_map W n) f (after_read f arg s pid p q)
   else if ignored w then (Ok w, after_read f arg s pid p q) else checked W n f arg s eid m es pid p w q t).
Proof.
  intros H. destruct cap_quiet as (Q & HC & HP & HM). destruct (obtains_quiet W n f arg s eid m es pid p igd igm MP v t HC HP T O G) as (q & Tq & B).
  exists q. split; [exact Tq|]. rewrite B. apply (after_quiet W n f arg s eid m es pid p igd igm MP Q v u w q t Tq L); [now apply translated_is|].
  rewrite HM. split; [exact Gu|]. unfold call_hook, capture_hook, bind. cbn [hk_attached hk_fun ret]. rewrite H. reflexivity.
Qed.
Lemma cap_found w : capture_value (w_env W) pattern ask (Some name) u = PRet w -> ignored w = false -> py_in w (o_ignores (f_opts f)) = false -> fits (w_env W) f w ->
  yields W (S n) f arg s eid m es w [].
Proof.
  intros H Gw I F. destruct (cap_body w H) as (q & Tq & B). rewrite Gw in B. assert (N : is_NONE w = false) by (destruct w; try reflexivity; discriminate). rewrite N in B.
  destruct cap_quiet as (Q & _).
  exact (checked_yields W n f arg s eid m es pid p igd igm MP Q w q t None I (fits_violation W (entries s) f w F) B).
Qed.
Lemma cap_lost : capture_value (w_env W) pattern ask (Some name) u = PRet (VConst NONE) ->
  (igd = true \/ required f -> yields W (S n) f arg s eid m es NOTSETv (if igm then [] else [missing_at f pid t])) /\
  (forall d, igd = false -> o_default (f_opts f) = DVal d -> d <> VConst NOTSET -> yields W (S n) f arg s eid m es d []).
Proof.
  intros H. destruct (cap_body _ H) as (q & Tq & B). cbn [is_NONE] in B. destruct cap_quiet as (Q & _).
  exact (default_yields W n f arg s eid m es pid p igd igm MP Q q t Tq cap_default B).
Qed.
Lemma cap_type : (forall x, u <> VStr x) -> exists s', field_map W (S n) f arg s = (Exn (EType "expected string or bytes-like object"), s') /\ stk s' = stk s /\ forms s' = forms s /\ errs s' = errs s.
Proof.
  intros NS. destruct cap_quiet as (Q & HC & HP & HM). destruct (obtains_quiet W n f arg s eid m es pid p igd igm MP v t HC HP T O G) as (q & Tq & B).
  apply (raises_run W n f arg s eid m es pid p igd igm MP Q) with (q := q). rewrite B. unfold field_after. unfold bind at 1. rewrite (munge_run f v _ L), (translated_is f v u Tr). unfold bind at 1.
  rewrite HM, Gu. unfold call_hook, capture_hook, bind. cbn [hk_attached hk_fun ret].
  assert (C : capture_value (w_env W) pattern ask (Some name) u = PRaise (EType "expected string or bytes-like object")).
  { destruct u; try reflexivity. exfalso. now apply (NS s0). }
  rewrite C. reflexivity.
Qed.
End Capture.
Lemma group_has groups k v : has_group groups k v -> group_of groups (Some k) = Some v.
Proof.
  intros (pre & post & k' & -> & PE & NP). unfold group_of. induction pre as [|x pre IH]; cbn [app find].
  - cbn [fst]. rewrite PE. reflexivity.
  - rewrite (NP x (or_introl eq_refl)). apply IH. intros y Y. apply NP. now right.
Qed.
Lemma group_lacks groups k : lacks_group groups k -> group_of groups (Some k) = None.
Proof.
  intros NG. unfold group_of. destruct (find _ groups) as [x|] eqn:F; [|reflexivity]. apply find_some in F. destruct F as [I F]. rewrite (NG x I) in F. discriminate.
Qed.
Lemma C76_lem W n name b pattern ask s eid m es pid p igd igm t arg v u :
  mapping W s eid m es pid p igd igm -> hook_free (attach_as name b) ->
  exists b', string_capture (w_env W) pattern ask (Some name) b = Ok b' /\
  let f := attach_as name b' in
  (obtains W s f p arg v -> ignored v = false -> lookable f v -> translated f v u -> p_str (w_env W) (spot f arg p) = Ok t ->
   (forall x groups w, u = VStr x -> e_re (w_env W) pattern x = Some groups -> captured groups ask name w ->
      ignored w = false -> py_in w (o_ignores (f_opts f)) = false -> fits (w_env W) f w -> yields W (S n) f arg s eid m es w []) /\
   (forall x, u = VStr x -> (e_re (w_env W) pattern x = None \/ exists groups, e_re (w_env W) pattern x = Some groups /\ lacks_group groups (KStr (asked ask name)) /\ lacks_group groups (KInt 1)) ->
      (igd = true \/ required f -> yields W (S n) f arg s eid m es NOTSETv (if igm then [] else [missing_at f pid t])) /\
      (forall d, igd = false -> o_default (f_opts f) = DVal d -> d <> VConst NOTSET -> yields W (S n) f arg s eid m es d [])) /\
   (ignored u = false -> (forall x, u <> VStr x) ->
      exists s', field_map W (S n) f arg s = (Exn (EType "expected string or bytes-like object"), s') /\ stk s' = stk s /\ forms s' = forms s /\ errs s' = errs s)).
Proof.
  intros MP HF. exists (b2 W name b pattern ask). split; [now apply capture_makes|]. intros f O G L Tr T.
  assert (AK : (match ask with Some "" | None => Some name | k => k end) = Some (asked ask name)).
  { destruct ask as [a|]; [|reflexivity]. unfold asked. destruct a; reflexivity. }
  repeat split.
  - intros x groups w -> RE CP Gw I F. eapply cap_found; try eassumption; [reflexivity|]. unfold capture_value. rewrite RE, AK.
    cbn [name_key]. destruct CP as [w H|w NG H].
    + rewrite (group_has _ _ _ H). reflexivity.
    + rewrite (group_lacks _ _ NG), (group_has _ _ _ H). reflexivity.
  - intros R. eapply (proj1 (cap_lost W n name b pattern ask s eid m es pid p igd igm t arg v u MP HF T O G L Tr _ _)). exact R.
  - intros d. eapply (proj2 (cap_lost W n name b pattern ask s eid m es pid p igd igm t arg v u MP HF T O G L Tr _ _)).
  - intros Gu NS. eapply cap_type; eassumption.
  Unshelve. all: subst u; try reflexivity; unfold capture_value;
    (match goal with H : _ \/ _ |- _ => destruct H as [->|(groups & -> & N1 & N2)]; [reflexivity|]; rewrite AK; cbn [name_key]; rewrite (group_lacks _ _ N1), (group_lacks _ _ N2); reflexivity end).
Qed.
