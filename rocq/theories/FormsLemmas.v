(** * The constructor, [has], lazy reads and error texts. *)
From Coq Require Import Lia.
From Verif Require Import PyBase PyStr Source Field Context Fields Forms SpecForms Balance FormProofs ObjProofs LeafProofs.

(** ** Filtering, stated with the wanted fields *)
Lemma C52_leaves_lem n tags inv id s out : closed_heap s -> distinct_names s -> (id < length (forms s))%nat ->
  flat n s [] id = Ok out -> Forall (fun x => formless (snd x)) out ->
  exists d s' keep, form_filter n tags inv id s = (Ok d, s') /\ preserved s s' /\ (length (forms s) <= d)%nat /\
    (forall fs, keep fs = true <-> Forall (wanted tags inv) fs) /\
    flat n s' [] d = Ok (map (fun x => (fst x, as_list (snd x))) (filter (fun x => keep (fst x)) out)).
Proof.
  intros CL DN ID F FL. destruct (C52_deep_lem tags inv n id s out CL DN ID F FL) as (d & s' & E & P & L & R).
  exists d, s', (forallb (hitb tags inv)). split; [exact E|]. split; [exact P|]. split; [exact L|]. split; [|exact R].
  intros fs. rewrite forallb_forall, Forall_forall. split; intros H x I; apply hitb_wanted; now apply H.
Qed.

(** ** Construction *)
Lemma set_entries_new t l s : (id <- new_form t; set_entries id l;; ret id) s =
  (Ok (length (forms s)), St (stk s) (forms s ++ [(t, l)]) (paths s) (errs s)).
Proof.
  unfold bind, new_form, set_entries. cbn [forms stk paths errs]. rewrite nth_last. cbn [ret]. unfold ret. now rewrite replace_last.
Qed.
Lemma form_init_run W rec t first more kw s :
  let id := length (forms s) in
  let s1 := St (stk s) (forms s ++ [(t, init_entries first more kw)]) (paths s) (errs s) in
  form_init W rec t first more kw s =
  match init_source t first kw with
  | None => (Ok id, s1)
  | Some src => match form_map W rec id (ASrc src) [] false UIgnore Collect s1 with
                | (Ok [], s2) => (Ok id, s2)
                | (Ok es, s2) => (Exn (EForm es), s2)
                | (Exn e, s2) => (Exn e, s2)
                end
  end.
Proof.
  intros id s1. unfold form_init. unfold bind at 1. unfold new_form. unfold bind at 1. unfold set_entries. cbn [forms stk paths errs].
  rewrite nth_last, replace_last. fold s1. fold id. destruct (init_source t first kw) as [src|]; [|reflexivity].
  unfold bind. destruct (form_map W rec id (ASrc src) [] false UIgnore Collect s1) as [[[|e es]|e] s2]; reflexivity.
Qed.

Lemma bind_cong {A B} (m m' : M A) (k k' : A -> M B) s : m s = m' s ->
  (forall a s1, m s = (Ok a, s1) -> k a s1 = k' a s1) -> bind m k s = bind m' k' s.
Proof. intros E K. unfold bind. rewrite <- E. destruct (m s) as [[a|e] s1]; [now apply K|reflexivity]. Qed.

(** What [map] does with a value equals what it does with the source made from it. *)
Lemma form_map_src W rec id t l a src tags reset u m s : nth_error (forms s) id = Some (t, l) ->
  is_anone a = false -> root_source t a = Ok src ->
  form_map W rec id a tags reset u m s = form_map W rec id (ASrc src) tags reset u m s.
Proof.
  intros N A R. unfold form_map. apply bind_cong; [reflexivity|]. intros tg s1 ET.
  assert (S1 : s1 = s). { destruct (effective_run tags s) as (tg' & E & _). rewrite E in ET. now injection ET. } subst s1.
  apply bind_cong; [reflexivity|]. intros t' s1 FT. rewrite (form_type_run _ _ _ _ N) in FT. injection FT as <- <-.
  assert (RS : exists r s2 l', (if reset then form_reset id tg (ft_fields t) else ret tt) s = (r, s2) /\ nth_error (forms s2) id = Some (t, l')).
  { destruct reset; [|exists (Ok tt), s, l; split; [reflexivity|exact N]]. generalize (ft_fields t). intros fs. clear - N. revert s l N.
    induction fs as [|f fs IH]; intros s l N; cbn [form_reset].
    - exists (Ok tt), s, l. split; [reflexivity|exact N].
    - unfold bind. destruct (selected tg f).
      + destruct (field_delete_run f id s t l N) as (s' & E & _ & _ & _ & _ & N'). rewrite E. now apply IH with (filter (fun kv => negb (py_eq (fst kv) (VStr (fname f)))) l).
      + cbn [ret]. now apply IH with l. }
  apply bind_cong; [reflexivity|]. intros [] s2 RS2. destruct RS as (r & s2' & l' & E & N2). rewrite RS2 in E. injection E as <- <-.
  apply bind_cong; [reflexivity|]. intros c s3 CG.
  assert (S3 : s3 = s2). { unfold ctx_get, ctx_get_opt, bind, get in CG. destruct (lookup "src" (stk s2)); [|discriminate]. now injection CG. } subst s3.
  rewrite A. cbn [is_anone andb]. apply bind_cong; [|reflexivity].
  unfold root_map. apply bind_cong; [reflexivity|]. intros t' s3 FT. rewrite (form_type_run _ _ _ _ N2) in FT. injection FT as <- <-.
  now rewrite R.
Qed.

Definition container (v : val) : bool :=
  match v with VDict _ | VForm _ | VList _ | VTuple _ => true | _ => false end.
Lemma C42_lem W fuel t a more kw s :
  match a with ASrc _ => True | AVal v => container v = true | ANone => False end ->
  let id := length (forms s) in
  let s1 := St (stk s) (forms s ++ [(t, dict_update (dict_update [] more) (kw_dict kw))]) (paths s) (errs s) in
  form_init W (field_map W fuel) t (Some a) more kw s =
  match Form_map W fuel id a [] false UIgnore Collect s1 with
  | (Ok [], s2) => (Ok id, s2)
  | (Ok es, s2) => (Exn (EForm es), s2)
  | (Exn e, s2) => (Exn e, s2)
  end.
Proof.
  intros C id s1. rewrite form_init_run. cbn [init_source init_entries]. fold id. fold s1. unfold Form_map.
  destruct a as [|v|src]; [destruct C| |reflexivity].
  assert (N : nth_error (forms s1) id = Some (t, dict_update (dict_update [] more) (kw_dict kw))) by apply nth_last.
  assert (R : root_source t (AVal v) = Ok (first_source t (AVal v))) by (destruct v; try discriminate; reflexivity).
  assert (A : is_anone (AVal v) = false) by (destruct v; try discriminate; reflexivity).
  now rewrite (form_map_src W (field_map W fuel) id t _ (AVal v) _ [] false UIgnore Collect s1 N A R).
Qed.

Lemma C42_keywords_lem W fuel t more kw s : kw <> [] ->
  form_init W (field_map W fuel) t None more kw s =
  form_init W (field_map W fuel) t (Some (AVal (VDict (kw_dict kw)))) [] [] s.
Proof. intros K. destruct kw as [|kv kw]; [contradiction|]. rewrite !form_init_run. reflexivity. Qed.

Lemma C42_empty_lem W fuel t s :
  form_init W (field_map W fuel) t None [] [] s = (Ok (length (forms s)), St (stk s) (forms s ++ [(t, [])]) (paths s) (errs s)).
Proof. now rewrite form_init_run. Qed.

(** ** Lazy reads *)
Lemma finish_run id f v t l s : nth_error (forms s) id = Some (t, l) ->
  forall w s', (if ignored v then raise (EAttr "form cannot map field") else form_set id (VStr (fname f)) v;; ret v) s = (Ok w, s') ->
  ignored w = false /\ dict_get (entries s' id) (VStr (fname f)) = Some w.
Proof.
  intros N w s' H. destruct (ignored v) eqn:I; [discriminate|]. unfold bind in H. rewrite (form_set_run _ _ _ _ _ _ N) in H.
  injection H as <- <-. split; [exact I|]. rewrite (entries_at _ _ _ _ (hset_at _ _ t _ _ _ N)), dict_get_set.
  assert (Q : py_eq (VStr (fname f)) (VStr (fname f)) = true) by now apply str_py_eq. now rewrite Q.
Qed.
Lemma bind_ok_inv {A B} (m : M A) (k : A -> M B) s b s' : bind m k s = (Ok b, s') ->
  exists a s1, m s = (Ok a, s1) /\ k a s1 = (Ok b, s').
Proof. unfold bind. destruct (m s) as [[a|e] s1]; [eauto|discriminate]. Qed.
Lemma finish_gen id f v s w s' :
  (if ignored v then raise (EAttr "form cannot map field") else form_set id (VStr (fname f)) v;; ret v) s = (Ok w, s') ->
  ignored w = false /\ ((exists x, nth_error (forms s') id = Some x) -> dict_get (entries s' id) (VStr (fname f)) = Some w).
Proof.
  intros H. destruct (nth_error (forms s) id) as [[t l]|] eqn:N.
  - destruct (finish_run id f v t l s N w s' H) as [I D]. auto.
  - destruct (ignored v) eqn:I; [discriminate|]. unfold form_set, form_entries, bind, get, set_entries in H. rewrite N in H.
    injection H as <- <-. split; [exact I|]. intros (x & X). congruence.
Qed.
(** Outside a mapping, or inside the form's own, the value read is proper and stored. *)
Lemma C49_lem W fuel f id s v s' :
  dict_get (entries s id) (VStr (fname f)) = None ->
  (match lookup "form" (stk s) with None => true | Some c => is_none_c c end = true \/
   lookup "parent" (stk s) = Some (CForm id)) ->
  field_get W (field_map W fuel) f id s = (Ok v, s') ->
  (forall c, v <> VConst c) /\
  ((exists x, nth_error (forms s') id = Some x) -> dict_get (entries s' id) (VStr (fname f)) = Some v).
Proof.
  intros D C H.
  assert (G : ignored v = false /\ ((exists x, nth_error (forms s') id = Some x) -> dict_get (entries s' id) (VStr (fname f)) = Some v)).
  { unfold field_get in H. apply bind_ok_inv in H. destruct H as (l & s1 & E1 & H). unfold form_entries, get in E1. injection E1 as <- <-.
    rewrite D in H. apply bind_ok_inv in H. destruct H as (c & s2 & E2 & H). unfold ctx_get_opt, get in E2. injection E2 as <- <-.
    destruct (match lookup "form" (stk s) with Some c => is_none_c c | None => true end) eqn:Q.
    - apply bind_ok_inv in H. destruct H as (t & s3 & _ & H). apply bind_ok_inv in H. destruct H as (src & s4 & _ & H).
      apply bind_ok_inv in H. destruct H as (eid & s5 & _ & H). apply bind_ok_inv in H. destruct H as (w & s6 & _ & H).
      exact (finish_gen _ _ _ _ _ _ H).
    - destruct C as [C|C]; [congruence|]. apply bind_ok_inv in H. destruct H as (p & s3 & E3 & H). unfold ctx_get_opt, get in E3. injection E3 as <- <-.
      rewrite C, Nat.eqb_refl in H. apply bind_ok_inv in H. destruct H as (w & s6 & _ & H). exact (finish_gen _ _ _ _ _ _ H). }
  destruct G as [G1 G2]. split; [|exact G2]. intros c ->. discriminate.
Qed.

(** ** Error texts *)
Lemma split_here a b : one_line a -> text_lines (a ++ String newline b) = a :: text_lines b.
Proof.
  unfold text_lines, one_line. induction a as [|c a IH]; intros N; cbn [append split_on].
  - now rewrite Ascii.eqb_refl.
  - cbn [chars In] in N. destruct (Ascii.eqb_spec c newline) as [->|D]; [exfalso; apply N; now left|].
    rewrite IH by tauto. reflexivity.
Qed.
Lemma split_last a : one_line a -> text_lines a = [a].
Proof.
  unfold text_lines, one_line. induction a as [|c a IH]; intros N; cbn [split_on]; [reflexivity|].
  cbn [chars In] in N. destruct (Ascii.eqb_spec c newline) as [->|D]; [exfalso; apply N; now left|]. rewrite IH by tauto. reflexivity.
Qed.
Lemma app_str_assoc a b c : ((a ++ b) ++ c = a ++ (b ++ c))%string.
Proof. induction a as [|x a IH]; [reflexivity|]. cbn [append]. now rewrite IH. Qed.
Lemma one_line_app a b : one_line a -> one_line b -> one_line (a ++ b).
Proof.
  unfold one_line. intros A B I. induction a as [|x a IH]; [exact (B I)|]. cbn [append chars In] in *. destruct I as [->|I]; [apply A; now left|].
  apply IH; [|exact I]. intros J. apply A. now right.
Qed.
Lemma join_lines l b : l <> [] -> Forall one_line l -> 
  text_lines ("* " ++ str_join bullet l ++ String newline b) = map (fun x => "* " ++ x)%string l ++ text_lines b.
Proof.
  intros N F. destruct l as [|a l]; [contradiction|]. clear N. revert a F. induction l as [|c l IH]; intros a F; inversion F as [|? ? F1 F2]; subst.
  - cbn [str_join map app]. rewrite <- app_str_assoc. apply split_here. apply one_line_app; [|exact F1]. unfold one_line. cbn. intuition discriminate.
  - change (str_join bullet (a :: c :: l)) with (a ++ bullet ++ str_join bullet (c :: l))%string. unfold bullet at 1. cbn [append] in *.
    change (String "*" (String " " ((a ++ String newline (String "*" (String " " (str_join bullet (c :: l))))) ++ String newline b)))
      with ("* " ++ ((a ++ String newline ("* " ++ str_join bullet (c :: l))) ++ String newline b))%string.
    rewrite app_str_assoc. cbn [append]. change (String "*" (String " " (a ++ ?x)))%string with (("* " ++ a) ++ x)%string.
    rewrite split_here; [|apply one_line_app; [unfold one_line; cbn; intuition discriminate|exact F1]].
    rewrite IH by exact F2. reflexivity.
Qed.
Lemma C64_lem es : es <> [] -> Forall (fun e => one_line (fst e) /\ one_line (snd e)) es ->
  text_lines (form_error_message es) = ("" :: map (fun e => "* " ++ fst e ++ ": " ++ snd e) es ++ [""])%string.
Proof.
  intros N F. unfold form_error_message.
  change (text_lines (bullet ++ str_join bullet (map (fun e : string * string => fst e ++ ": " ++ snd e) es) ++ String newline ""))%string
    with (text_lines ("" ++ String newline ("* " ++ str_join bullet (map (fun e : string * string => fst e ++ ": " ++ snd e) es) ++ String newline "")))%string.
  rewrite split_here by (intros []). f_equal. rewrite join_lines.
  - rewrite map_map. reflexivity.
  - destruct es; [contradiction|discriminate].
  - apply Forall_map. eapply Forall_impl; [|exact F]. intros e [A B]. apply one_line_app; [exact A|]. apply one_line_app; [|exact B].
    unfold one_line. cbn. intuition discriminate.
Qed.

Lemma split_some c s : split_on c s <> [].
Proof. destruct s as [|x s]; cbn [split_on]; [discriminate|]. destruct (Ascii.eqb x c); [discriminate|]. destruct (split_on c s); discriminate. Qed.
Lemma split_app a b : text_lines (a ++ String newline b) = text_lines a ++ text_lines b.
Proof.
  unfold text_lines. induction a as [|x a IH]; cbn [append split_on].
  - now rewrite Ascii.eqb_refl.
  - rewrite IH. destruct (Ascii.eqb x newline); [reflexivity|]. pose proof (split_some newline a) as N.
    destruct (split_on newline a) as [|h t]; [contradiction|]. reflexivity.
Qed.
Lemma join_lines_all l b : l <> [] ->
  text_lines ("* " ++ str_join bullet l ++ String newline b) = flat_map (fun x => text_lines ("* " ++ x)) l ++ text_lines b.
Proof.
  intros N. destruct l as [|a l]; [contradiction|]. clear N. revert a. induction l as [|c l IH]; intros a.
  - cbn [str_join flat_map app]. rewrite <- app_str_assoc, split_app, app_nil_r. reflexivity.
  - change (str_join bullet (a :: c :: l)) with (a ++ bullet ++ str_join bullet (c :: l))%string.
    change (bullet ++ str_join bullet (c :: l))%string with (String newline ("* " ++ str_join bullet (c :: l)))%string.
    rewrite app_str_assoc.
    change (String newline ("* " ++ str_join bullet (c :: l)) ++ String newline b)%string
      with (String newline ("* " ++ str_join bullet (c :: l) ++ String newline b))%string.
    rewrite <- app_str_assoc, split_app, IH. change (flat_map ?f (a :: c :: l)) with (f a ++ flat_map f (c :: l)). now rewrite app_assoc.
Qed.
Lemma C64_all_lem es : es <> [] ->
  text_lines (form_error_message es) = "" :: flat_map (fun e => text_lines ("* " ++ fst e ++ ": " ++ snd e)) es ++ [""].
Proof.
  intros N. unfold form_error_message.
  change (text_lines (bullet ++ str_join bullet (map (fun e : string * string => fst e ++ ": " ++ snd e)%string es) ++ String newline ""))%string
    with (text_lines ("" ++ String newline ("* " ++ str_join bullet (map (fun e : string * string => fst e ++ ": " ++ snd e)%string es) ++ String newline "")))%string.
  rewrite split_app. cbn [text_lines split_on app]. f_equal. rewrite join_lines_all.
  - f_equal. induction es as [|e es IH]; [reflexivity|]. cbn [map flat_map]. f_equal. destruct es; [reflexivity|]. apply IH. discriminate.
  - destruct es; [contradiction|discriminate].
Qed.
