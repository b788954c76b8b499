(** * MoreProofs: names in the context, configuration files (C83-C85). *)
From Verif Require Import PyBase PyStr Source Field Context More SpecCtx SpecMount SpecMore CtxProofs MountProofs.
From Coq Require Import Lia.

(** ** C83 *)
Lemma existsb_in k l : existsb (String.eqb k) l = false <-> ~ In k l.
Proof.
  split.
  - intros X Y. assert (Z : existsb (String.eqb k) l = true); [|congruence]. apply existsb_exists. exists k. split; [exact Y|apply String.eqb_refl].
  - intros X. destruct (existsb (String.eqb k) l) eqn:Y; [|reflexivity]. apply existsb_exists in Y. destruct Y as (x & I & Q). apply String.eqb_eq in Q. subst x. contradiction.
Qed.
Lemma dict_names E k : In k (dict_attributes E) <-> dict_method (py3 E) k.
Proof.
  unfold dict_attributes. split.
  - intros H. apply in_app_or in H. destruct H as [H|H].
    + apply dm_all. cbn in *. tauto.
    + destruct (py3 E); [destruct H|]. apply dm_two. cbn in *. tauto.
  - intros H. apply in_or_app. inversion H as [b k0 I Q1 Q2|k0 I Q1 Q2]; [left|right]; subst; cbn in I |- *; tauto.
Qed.
Lemma context_names k : In k context_attributes <-> context_method k.
Proof. unfold context_attributes, context_method. cbn. tauto. Qed.
Lemma existsb_yes k l : existsb (String.eqb k) l = true <-> In k l.
Proof.
  rewrite existsb_exists. split; [intros (x & I & Q); apply String.eqb_eq in Q; now subst|]. intros I. exists k. split; [exact I|apply String.eqb_refl].
Qed.
Lemma C83_methods_lem E k s : dict_method (py3 E) k -> values_for E k s = repeat (Method k) (length (stk s)).
Proof.
  intros H. apply dict_names, existsb_yes in H. unfold values_for. rewrite <- (rev_length (stk s)).
  induction (rev (stk s)) as [|f l IH]; [reflexivity|]. cbn [flat_map length repeat]. unfold frame_attr at 1. rewrite H. cbn [app]. now f_equal.
Qed.
Lemma C83_context_lem k s : context_method k -> ctx_attr k s = Some (Method k).
Proof. intros H. apply context_names, existsb_yes in H. unfold ctx_attr. now rewrite H. Qed.
Lemma values_free E k s : free_name E k -> values_for E k s = map Entry (given_by k (rev (stk s))).
Proof.
  intros F. unfold values_for. assert (F' : ~ In k (dict_attributes E)) by (rewrite dict_names; exact F). apply existsb_in in F'. clear F. rename F' into F. induction (rev (stk s)) as [|f l IH]; [reflexivity|]. cbn [flat_map given_by].
  unfold frame_attr at 1. rewrite F. rewrite IH. destruct (alookup f k); reflexivity.
Qed.
Lemma given_app k a b : given_by k (a ++ b) = given_by k a ++ given_by k b.
Proof. induction a as [|f a IH]; [reflexivity|]. cbn [app given_by]. rewrite IH. destruct (alookup f k); reflexivity. Qed.
Lemma push_given W kw s s' k : push W kw s = (Ok tt, s') -> k <> "src_path" ->
  given_by k (rev (stk s')) = given_by k (rev (stk s)) ++ given_by k [kw].
Proof.
  intros H NK. destruct (push_stack _ _ _ _ H) as (f & -> & A0). pose proof (A0 k NK) as A.
  cbn [rev]. rewrite given_app. cbn [given_by]. now rewrite A.
Qed.
Lemma open_given W blocks : forall s s' k, open_all W blocks s = (Ok tt, s') -> k <> "src_path" ->
  given_by k (rev (stk s')) = given_by k (rev (stk s)) ++ given_by k blocks.
Proof.
  induction blocks as [|kw rest IH]; intros s s' k H NK; cbn [open_all] in H.
  - injection H as <-. cbn [given_by]. now rewrite app_nil_r.
  - unfold bind in H. destruct (push W kw s) as [[[]|e] s1] eqn:P; [|discriminate]. rewrite (IH _ _ _ H NK), (push_given _ _ _ _ _ P NK), <- app_assoc.
    f_equal. change (kw :: rest) with ([kw] ++ rest). now rewrite given_app.
Qed.
Lemma C83_values_lem W blocks s s' k : free_name (w_env W) k -> k <> "src_path" -> open_all W blocks s = (Ok tt, s') ->
  values_for (w_env W) k s' = values_for (w_env W) k s ++ map Entry (given_by k blocks).
Proof. intros F NK H. rewrite !(values_free _ _ _ F), (open_given _ _ _ _ _ H NK), map_app. reflexivity. Qed.
Lemma lookup_given k l : lookup k l = match rev (given_by k (rev l)) with c :: _ => Some c | [] => None end.
Proof.
  induction l as [|f l IH]; [reflexivity|]. cbn [lookup rev]. rewrite given_app, rev_app_distr. cbn [given_by]. destruct (alookup f k); [reflexivity|exact IH].
Qed.
Lemma C83_last_lem E k s : free_name E k -> free_in_context k ->
  match ctx_attr k s with
  | Some a => exists l, values_for E k s = l ++ [a]
  | None => values_for E k s = []
  end.
Proof.
  intros F C. rewrite (values_free _ _ _ F). unfold ctx_attr. assert (C' : ~ In k context_attributes) by (rewrite context_names; exact C). apply existsb_in in C'. rewrite C', lookup_given.
  destruct (rev (given_by k (rev (stk s)))) as [|c l] eqn:R; cbn [option_map].
  - rewrite <- (rev_involutive (given_by k (rev (stk s)))), R. reflexivity.
  - exists (map Entry (rev l)). rewrite <- (rev_involutive (given_by k (rev (stk s)))), R. cbn [rev]. now rewrite map_app.
Qed.

(** ** C85 *)
Lemma chars_of l : chars (of_chars l) = l.
Proof. induction l as [|c l IH]; [reflexivity|]. cbn [of_chars chars]. now rewrite IH. Qed.
Lemma same_iff a b : same_chars a b = true <-> a = b.
Proof.
  unfold same_chars. rewrite String.eqb_eq. split; [|now intros ->]. intros H. rewrite <- (chars_of a), H. apply chars_of.
Qed.
Lemma starts_iff x l : starts_with x l = true <-> exists r, l = x ++ r.
Proof.
  revert l. induction x as [|a x IH]; intros l; cbn [starts_with app]; [split; eauto|].
  destruct l as [|b l]; [split; [discriminate|intros (r & H); discriminate]|]. rewrite andb_true_iff, Ascii.eqb_eq, IH. split.
  - intros (-> & r & ->). eauto.
  - intros (r & [= -> ->]). eauto.
Qed.
Lemma drop_spaces a l : spaces a -> drop_space (a ++ l) = drop_space l.
Proof.
  induction a as [|c a IH]; intros S; [reflexivity|]. cbn [app drop_space]. rewrite (S c) by now left. apply IH. intros d D. apply S. now right.
Qed.
Lemma drop_split l : exists a, spaces a /\ l = a ++ drop_space l /\ match drop_space l with c :: _ => is_space c = false | [] => True end.
Proof.
  induction l as [|c l (a & S & E & N)]; [exists []; repeat split; intros c []|]. cbn [drop_space]. destruct (is_space c) eqn:Q.
  - exists (c :: a). split; [intros d [<-|D]; auto|]. split; [cbn [app]; now rewrite <- E|exact N].
  - exists []. split; [intros d []|]. split; [reflexivity|exact Q].
Qed.
Lemma spaces_rev a : spaces a -> spaces (rev a).
Proof. intros S c C. apply S. now apply in_rev. Qed.
Lemma rev_split (l a m : list ascii) : rev l = a ++ m -> l = rev m ++ rev a.
Proof. intros H. rewrite <- (rev_involutive l), H. apply rev_app_distr. Qed.
Lemma strip_around x l : solid x -> (strip_chars l = x <-> around x l).
Proof.
  intros ((c & r & X & NC) & (d & q & X2 & ND)). split.
  - intros H. unfold strip_chars in H. destruct (drop_split l) as (a & SA & EA & _). destruct (drop_split (rev (drop_space l))) as (b & SB & EB & _).
    exists a, (rev b). split; [exact SA|]. split; [now apply spaces_rev|]. rewrite EA at 1. f_equal.
    pose proof (rev_split _ _ _ EB) as E2. rewrite H in E2. exact E2.
  - intros (a & b & SA & SB & ->). unfold strip_chars. rewrite (drop_spaces a _ SA).
    assert (D1 : drop_space (x ++ b) = x ++ b) by (rewrite X; cbn [app drop_space]; now rewrite NC). rewrite D1, rev_app_distr, (drop_spaces _ _ (spaces_rev _ SB)).
    assert (D2 : drop_space (rev x) = rev x) by (rewrite X2, rev_app_distr; cbn [rev app drop_space]; now rewrite ND). rewrite D2. apply rev_involutive.
Qed.
Lemma starts_leads x l : solid x -> (starts_with x (strip_chars l) = true <-> leads x l).
Proof.
  intros ((c & r & X & NC) & (d & q & X2 & ND)). rewrite starts_iff. unfold strip_chars.
  destruct (drop_split l) as (a & SA & EA & HA). destruct (drop_split (rev (drop_space l))) as (b & SB & EB & HB).
  assert (EL : drop_space l = rev (drop_space (rev (drop_space l))) ++ rev b).
  { exact (rev_split _ _ _ EB). }
  split.
  - intros (t & H). exists a, (t ++ rev b). split; [exact SA|]. rewrite EA at 1. f_equal. rewrite H in EL. rewrite EL. now rewrite <- app_assoc.
  - intros (a2 & t & S2 & E2). assert (DL : drop_space l = x ++ t).
    { rewrite E2, (drop_spaces _ _ S2). rewrite X. cbn [app drop_space]. now rewrite NC. }
    rewrite DL, rev_app_distr.
    destruct (drop_split (rev t)) as (b2 & SB2 & EB2 & _).
    assert (Y : drop_space (rev t ++ rev x) = match drop_space (rev t) with [] => rev x | _ => drop_space (rev t) ++ rev x end).
    { assert (RX : drop_space (rev x) = rev x) by (rewrite X2, rev_app_distr; cbn [rev app drop_space]; now rewrite ND).
      clear -RX. induction (rev t) as [|e u IH]; [exact RX|]. cbn [app drop_space]. destruct (is_space e); [exact IH|reflexivity]. }
    rewrite Y. destruct (drop_space (rev t)) as [|e u] eqn:DT.
    + exists []. rewrite rev_involutive. now rewrite app_nil_r.
    + exists (rev (e :: u)). now rewrite rev_app_distr, rev_involutive.
Qed.
Lemma chars_app a b : chars (a ++ b) = (chars a ++ chars b)%list.
Proof. induction a as [|c a IH]; [reflexivity|]. cbn [String.append chars app]. now rewrite IH. Qed.
Lemma header_is section : section_header (Some section) = header_of section.
Proof. unfold section_header, header_of. rewrite !chars_app. reflexivity. Qed.
Lemma header_solid section : solid (header_of section).
Proof.
  split.
  - exists "["%char. eexists. split; reflexivity.
  - exists "]"%char, (["["%char] ++ chars section). split; [unfold header_of; now rewrite app_assoc|reflexivity].
Qed.
Lemma lines_of ls : Forall a_line ls -> file_lines (concat ls) = ls.
Proof.
  induction 1 as [|l ls (x & -> & NX) H IH]; [reflexivity|]. cbn [concat]. revert NX. induction x as [|c x IHx]; intros NX; cbn [app file_lines].
  - rewrite Ascii.eqb_refl. now rewrite IH.
  - destruct (Ascii.eqb c newline_char) eqn:Q; [apply Ascii.eqb_eq in Q; subst c; exfalso; apply NX; now left|].
    cbn [app] in IHx. rewrite IHx by (intros I; apply NX; now right). reflexivity.
Qed.
Lemma after_at p pre l rest : (forall x, In x pre -> p x = false) -> p l = true -> after_line p (pre ++ l :: rest) = rest.
Proof.
  induction pre as [|x pre IH]; intros N P; cbn [app after_line]; [now rewrite P|]. rewrite (N x) by now left. apply IH; [|exact P]. intros y Y. apply N. now right.
Qed.
Lemma after_none p l : (forall x, In x l -> p x = false) -> after_line p l = [].
Proof. induction l as [|x l IH]; intros N; [reflexivity|]. cbn [after_line]. rewrite (N x) by now left. apply IH. intros y Y. apply N. now right. Qed.
Lemma value_of body rest : Forall indented body -> Forall a_line rest -> match rest with l :: _ => ~ indented l | [] => True end -> value_lines (body ++ rest) = body.
Proof.
  intros B R N. induction B as [|l body (c & r & -> & S) B IH]; cbn [app].
  - destruct rest as [|l rest]; [reflexivity|]. cbn [value_lines]. inversion R as [|? ? (x & E & _)]; subst. destruct (x ++ [newline_char]) as [|c r] eqn:Q; [destruct x; discriminate|].
    destruct (is_space c) eqn:S; [|reflexivity]. exfalso. apply N. exists c, r. auto.
  - cbn [value_lines]. rewrite S, IH. reflexivity.
Qed.
Lemma not_true b : (b = true -> False) -> b = false.
Proof. destruct b; [intros H; now destruct (H eq_refl)|reflexivity]. Qed.
Lemma C85_below_lem dedent section option file body : solid (chars option) -> lines_below section option file body ->
  as_raw dedent (Some section) option (of_chars (concat file)) = dedent (of_chars (concat body)).
Proof.
  intros SO [(pre & h & mid & o & rest & E & AL & AH & NH & LO & NO & IB & NR)]. unfold as_raw. rewrite chars_of, (lines_of _ AL), header_is, E.
  rewrite after_at; [|intros l L; apply not_true; intros X; apply same_iff, (strip_around _ _ (header_solid section)) in X; exact (NH l L X)|apply same_iff, (strip_around _ _ (header_solid section)); exact AH].
  rewrite after_at; [|intros l L; apply not_true; intros X; apply (starts_leads _ _ SO) in X; exact (NO l L X)|apply (starts_leads _ _ SO); exact LO].
  rewrite value_of; [reflexivity|exact IB| |exact NR]. rewrite E in AL. apply Forall_app in AL. destruct AL as [_ AL]. inversion AL as [|? ? _ AL2]; subst. apply Forall_app in AL2.
  destruct AL2 as [_ AL2]. inversion AL2 as [|? ? _ AL3]; subst. now apply Forall_app in AL3.
Qed.
Lemma C85_nowhere_lem dedent section option file : Forall a_line file ->
  (forall l, In l file -> ~ around (header_of (match section with Some s => s | None => "None" end)) l) ->
  as_raw dedent section option (of_chars (concat file)) = dedent "".
Proof.
  intros AL N. unfold as_raw. rewrite chars_of, (lines_of _ AL).
  assert (H : section_header section = header_of (match section with Some s => s | None => "None" end)).
  { destruct section as [s|]; [apply header_is|]. exact (header_is "None"). }
  rewrite H, (after_none _ file); [reflexivity|]. intros l L. apply not_true. intros X. apply same_iff, (strip_around _ _ (header_solid _)) in X. exact (N l L X).
Qed.
Lemma C85_raw_lem dedent E ents file t p q v cfg section d loc option body : pp_primitive E ents t p = (q, Ok (VStr v)) ->
  pp_src p = SConfig cfg (Some section) d loc -> (exists ks, pp_keys p = ks ++ [KStr option]) ->
  solid (chars option) -> lines_below section option file body ->
  raw_primitive dedent E ents true (of_chars (concat file)) t p =
    (q, Ok (VStr (if has_char newline_char v then dedent (of_chars (concat body)) else v))).
Proof.
  intros P SR (ks & K) SO LB. unfold raw_primitive. rewrite P, SR, K, rev_app_distr. cbn [rev app andb first_str].
  destruct (has_char newline_char v); [|reflexivity]. now rewrite (C85_below_lem _ _ _ _ _ SO LB).
Qed.
Lemma C85_else_lem dedent E ents keep file t p q r : pp_primitive E ents t p = (q, r) ->
  (keep = false \/ (forall v, r = Ok (VStr v) -> has_char newline_char v = false)) ->
  raw_primitive dedent E ents keep file t p = (q, r).
Proof.
  intros P H. unfold raw_primitive. rewrite P. f_equal. destruct r as [[]|]; try reflexivity. destruct H as [->|H]; [reflexivity|]. rewrite (H _ eq_refl), andb_false_r. reflexivity.
Qed.

(** ** C84 *)
Lemma C84_text_lem x section location d keep_space keep_case : exists m,
  ConfigSource_init (CfgText x) section location d keep_space keep_case = Exn (EAttr m) \/
  (keep_space = true /\ location = None /\ ConfigSource_init (CfgText x) section location d keep_space keep_case = Exn (EValue m)).
Proof. unfold ConfigSource_init. destruct keep_space, location, keep_case; cbn [andb]; eexists; eauto. Qed.
Lemma C84_none_lem E ents cfg loc sec opts : alookup cfg sec = Some opts ->
  exists p q m, ConfigSource_init (CfgParser cfg) None loc VNone false false = Ok (SConfig cfg None VNone loc, false) /\
    psource_path (SConfig cfg None VNone loc) = Ok p /\ pp_value E ents (pp_append (KStr sec) p) = (q, Exn (EAttr m)).
Proof.
  intros H. eexists. eexists. eexists. split; [reflexivity|]. split; [reflexivity|]. unfold pp_value, pp_append. cbn. now rewrite H.
Qed.
Lemma C84_reads_lem E ents cfg loc sec opts d o : alookup cfg sec = Some opts ->
  exists p q v, ConfigSource_init (CfgParser cfg) None loc (VDict d) false false = Ok (SConfig cfg None (VDict d) loc, false) /\
    psource_path (SConfig cfg None (VDict d) loc) = Ok p /\
    pp_value E ents (pp_append (KStr o) (pp_append (KStr sec) p)) = (q, Ok v) /\
    config_value opts (match dict_get d (VStr sec) with Some y => y | None => VNone end) o v.
Proof.
  intros H. destruct (section_value opts (match dict_get d (VStr sec) with Some y => y | None => VNone end) o) as (v & SV & CV).
  eexists. eexists. exists v. split; [reflexivity|]. split; [reflexivity|]. split; [|exact CV].
  unfold pp_value, pp_append. cbn [pp_parts pp_src pp_root app rev last_cached pk pc length skipn firstn walk_parts psource_resolve config_resolve py_getitem Nat.sub cfgroot_getitem].
  rewrite H. cbn [or_NONE is_NONE config_resolve py_getitem]. rewrite SV. destruct (is_NONE v); reflexivity.
Qed.

(** ** C90 *)
Definition brk (c : ascii) : bool := Ascii.eqb c newline || Ascii.eqb c (ascii_of_nat 13).
Lemma brk_iff c : brk c = true <-> a_break c.
Proof. unfold brk, a_break. rewrite Bool.orb_true_iff, !Ascii.eqb_eq. reflexivity. Qed.
Fixpoint cut_lines (l : list ascii) : list (list ascii) :=
  match l with
  | [] => [[]]
  | c :: r => if brk c then [] :: cut_lines r else match cut_lines r with [] => [[c]] | x :: xs => (c :: x) :: xs end
  end.
Lemma split_some sep s : exists w ws, split_on sep s = w :: ws.
Proof. destruct s as [|c s]; cbn; [eauto|]. destruct (Ascii.eqb c sep); [eauto|]. destruct (split_on sep s); eauto. Qed.
Lemma lines_cut s : lines s = map of_chars (cut_lines (chars s)).
Proof.
  induction s as [|c s IH]; [reflexivity|]. unfold lines in *. cbn [chars cut_lines split_on]. unfold brk. destruct (Ascii.eqb c newline) eqn:N; cbn [orb].
  - cbn [flat_map split_on app map of_chars]. now rewrite IH.
  - destruct (split_some newline s) as (w & ws & Q). rewrite Q in *. cbn [flat_map split_on] in *. destruct (Ascii.eqb c (ascii_of_nat 13)).
    + cbn [map of_chars app]. now rewrite IH.
    + destruct (split_some (ascii_of_nat 13) w) as (x & xs & Q'). rewrite Q' in *. cbn [app] in IH |- *.
      destruct (cut_lines (chars s)) as [|y ys]; [discriminate|]. cbn [map of_chars] in IH |- *. injection IH as -> ->. reflexivity.
Qed.
Lemma cut_plain x r : (forall c, In c x -> ~ a_break c) -> cut_lines (x ++ r) = match cut_lines r with [] => [x] | y :: ys => (x ++ y) :: ys end.
Proof.
  assert (NE : forall r, cut_lines r <> []) by (intros [|c r0]; cbn; [discriminate|]; destruct (brk c); [discriminate|]; destruct (cut_lines r0); discriminate).
  induction x as [|c x IH]; intros F; cbn [app cut_lines].
  - destruct (cut_lines r) as [|y ys] eqn:Q; [now apply NE in Q|reflexivity].
  - assert (B : brk c = false). { destruct (brk c) eqn:B; [|reflexivity]. exfalso. apply (F c (or_introl eq_refl)). now apply brk_iff. }
    rewrite B, IH by (intros d I; apply F; now right). destruct (cut_lines r); reflexivity.
Qed.
Lemma broken_cut l ps : broken l ps -> cut_lines l = ps.
Proof.
  induction 1 as [x F|x c r ps F B R IH].
  - rewrite <- (app_nil_r x), cut_plain by exact F. cbn. now rewrite app_nil_r.
  - rewrite cut_plain by exact F. cbn [cut_lines]. apply brk_iff in B. rewrite B, IH. now rewrite app_nil_r.
Qed.
Lemma strip_blank p : spaces p -> strip_chars p = [].
Proof.
  intros S. unfold strip_chars. rewrite <- (app_nil_r p), (drop_spaces p []) by exact S. reflexivity.
Qed.
Lemma stripped_lines ps xs : stripped ps xs -> filter (fun l => negb (String.eqb l "")) (map strip (map of_chars ps)) = map of_chars xs.
Proof.
  induction 1 as [|p ps xs S R IH|p x ps xs A S R IH]; [reflexivity| |]; cbn [map filter]; unfold strip at 1; rewrite chars_of.
  - rewrite (strip_blank p S). cbn [of_chars]. exact IH.
  - apply (strip_around x p S) in A. rewrite A. destruct S as [(c & r & -> & _) _]. cbn [of_chars]. change (String.eqb (String c (of_chars r)) "") with false. cbn [negb map of_chars]. rewrite IH. f_equal. unfold strip. now rewrite chars_of, A.
Qed.
Lemma lines_items E v ps xs : has_char newline v = true -> broken (chars v) ps -> stripped ps xs -> cfg_sequence E v = Ok (map of_chars xs).
Proof.
  intros N B S. unfold cfg_sequence. rewrite N, lines_cut, (broken_cut _ _ B). f_equal. now apply stripped_lines.
Qed.
(** A path that was read stands on the value. *)
Definition stands (q : ppath) (v : val) : Prop :=
  (pp_parts q = [] /\ pp_root q = v) \/ exists l k, pp_parts q = l ++ [Part k (Some v)] /\ (forall x, k <> KRaw x).
Lemma walk_ends R : forall ps cur ps' v, walk_parts R cur ps = (ps', Ok v) -> is_NONE v = false -> (forall p x, In p ps -> pk p <> KRaw x) ->
  (ps' = [] /\ v = cur) \/ exists l k, ps' = l ++ [Part k (Some v)] /\ (forall x, k <> KRaw x).
Proof.
  induction ps as [|p ps IH]; intros cur ps' v H N NR; cbn [walk_parts] in H; [injection H as <- <-; auto|].
  destruct (R cur (pk p)) as [w|e]; [|discriminate]. destruct (is_NONE w) eqn:Nw; [injection H as <- <-; congruence|].
  destruct (walk_parts R w ps) as [rest r] eqn:Q. injection H as <- ->. right. destruct (IH w rest v Q N) as [[-> ->]|(l & k & -> & K)].
  - intros p0 x I. apply NR. now right.
  - exists [], (pk p). split; [reflexivity|]. intros x. apply NR. now left.
  - exists (Part (pk p) (Some w) :: l), k. now split.
Qed.
Lemma cached_at ps : forall n v, last_cached ps = Ok (Some (n, v)) -> exists a k b, ps = a ++ Part k (Some v) :: b /\ length a = n /\ (forall x, k <> KRaw x) /\ (forall p x, In p a -> pk p <> KRaw x).
Proof.
  induction ps as [|[k c] ps IH]; intros n v H; [discriminate|]. cbn [last_cached pk pc] in H.
  assert (NR : forall x, k <> KRaw x) by (intros x ->; discriminate).
  assert (H' : match c with Some v => Ok (Some (O, v)) | None => match last_cached ps with Ok (Some (n, v)) => Ok (Some (S n, v)) | r => r end end = Ok (Some (n, v))) by (destruct k; [exact H|exact H|discriminate]).
  destruct c as [w|]; [injection H' as <- <-; exists [], k, ps; repeat split; auto; now intros p x []|].
  destruct (last_cached ps) as [[[m w]|]|e]; try discriminate. injection H' as <- <-. destruct (IH m w eq_refl) as (a & k' & b & -> & L & K & NA).
  exists (Part k None :: a), k', b. repeat split; auto; [cbn; now rewrite L|]. intros p x [<-|I]; [apply NR|now apply NA].
Qed.
Lemma cached_none ps : last_cached ps = Ok None -> forall p x, In p ps -> pk p <> KRaw x.
Proof.
  induction ps as [|[k c] ps IH]; intros H p x I; [destruct I|]. cbn [last_cached pk pc] in H.
  assert (NR : k <> KRaw x) by (intros ->; discriminate).
  assert (H' : match c with Some v => Ok (Some (O, v)) | None => match last_cached ps with Ok (Some (n, v)) => Ok (Some (S n, v)) | r => r end end = Ok None) by (destruct k; [exact H|exact H|discriminate]).
  destruct c; [discriminate|]. destruct I as [<-|I]; [exact NR|]. apply IH; [|exact I]. destruct (last_cached ps) as [[[m w]|]|e]; [discriminate|reflexivity|discriminate].
Qed.
Lemma value_stands E ents p q v : pp_value E ents p = (q, Ok v) -> is_NONE v = false -> stands q v /\ pp_src q = pp_src p /\ pp_keys q = pp_keys p.
Proof.
  intros H N. assert (KS : forall R ps cur ps' r, walk_parts R cur ps = (ps', r) -> map pk ps' = map pk ps).
  { induction ps as [|x ps IH]; intros cur ps' r W; cbn [walk_parts] in W; [now injection W as <- _|].
    destruct (R cur (pk x)) as [w|e]; [|now injection W as <- _]. destruct (is_NONE w); [now injection W as <- _|].
    destruct (walk_parts R w ps) as [rest r'] eqn:Q. injection W as <- _. cbn. f_equal. eapply IH; eauto. }
  unfold pp_value in H. destruct (last_cached (rev (pp_parts p))) as [o|e] eqn:C; [|discriminate].
  destruct o as [[n c]|].
  - destruct (cached_at _ _ _ C) as (a & k & b & Q & L & K & NA).
    assert (QP : pp_parts p = (rev b ++ [Part k (Some c)]) ++ rev a).
    { rewrite <- (rev_involutive (pp_parts p)), Q, rev_app_distr. cbn [rev]. reflexivity. }
    assert (I : (length (pp_parts p) - n)%nat = length (rev b ++ [Part k (Some c)])) by (rewrite QP, !app_length, !rev_length; cbn [length]; lia).
    cbv zeta in H. rewrite I in H. set (R := psource_resolve E ents (pp_src p) (pp_keys p)) in H. rewrite QP in H. rewrite skipn_app, skipn_all, Nat.sub_diag, firstn_app, firstn_all, Nat.sub_diag in H. cbn [skipn app firstn] in H. rewrite app_nil_r in H.
    destruct (walk_parts _ c (rev a)) as [rest r] eqn:W. injection H as <- ->. cbn [pp_src pp_parts pp_root pp_keys]. split; [|split; [reflexivity|]].
    + right. destruct (walk_ends _ _ _ _ _ W N) as [[-> ->]|(l & k' & -> & K')].
      * intros p0 x Ia. apply NA. now apply in_rev.
      * exists (rev b), k. rewrite app_nil_r. auto.
      * exists ((rev b ++ [Part k (Some c)]) ++ l), k'. split; [now rewrite !app_assoc|exact K'].
    + unfold pp_keys. cbn [pp_parts]. rewrite QP, !map_app, (KS _ _ _ _ _ W). reflexivity.
  - rewrite Nat.sub_diag in H. cbn [skipn firstn app] in H. destruct (walk_parts _ (pp_root p) (pp_parts p)) as [rest r] eqn:W. injection H as <- ->.
    cbn [pp_src pp_parts pp_root]. split; [|split; [reflexivity|]].
    + destruct (walk_ends _ _ _ _ _ W N) as [[-> ->]|X]; [|left; auto|right; exact X].
      intros p0 x I. apply (cached_none _ C). now apply in_rev in I.
    + unfold pp_keys. cbn [pp_parts]. now rewrite (KS _ _ _ _ _ W).
Qed.
Lemma stands_below E ents q v k : stands q v -> (forall x, k <> KRaw x) ->
  snd (pp_value E ents (pp_append k q)) = psource_resolve E ents (pp_src q) (pp_keys q ++ [k]) v k.
Proof.
  intros ST NR. unfold pp_value, pp_append. cbn [pp_parts pp_src pp_root]. rewrite rev_app_distr. cbn [rev app last_cached pk pc].
  assert (C : last_cached (Part k None :: rev (pp_parts q)) = match last_cached (rev (pp_parts q)) with Ok (Some (n, v)) => Ok (Some (S n, v)) | r => r end)
    by (destruct k; [reflexivity|reflexivity|now destruct (NR v0)]).
  cbn [last_cached pk pc] in C. rewrite C. clear C.
  assert (KQ : forall a b, pp_keys (Source.PPath a b (pp_parts q ++ [Part k None])) = pp_keys q ++ [k]) by (intros; unfold pp_keys; cbn [pp_parts]; now rewrite map_app).
  destruct ST as [[P RT]|(l & k' & P & K')].
  - rewrite P. cbn [rev last_cached length app Nat.sub skipn firstn walk_parts pk]. rewrite RT.
    replace (pp_keys (Source.PPath (pp_src q) v [Part k None])) with (pp_keys q ++ [k]) by (unfold pp_keys; cbn [pp_parts]; now rewrite P).
    destruct (psource_resolve E ents (pp_src q) (pp_keys q ++ [k]) v k) as [w|e]; [|reflexivity]. now destruct (is_NONE w).
  - rewrite KQ. rewrite P. rewrite rev_app_distr. cbn [rev app last_cached pk pc].
    assert (C : last_cached (Part k' (Some v) :: rev l) = Ok (Some (O, v))) by (destruct k'; [reflexivity|reflexivity|now destruct (K' v0)]).
    cbn [last_cached pk pc] in C. rewrite C. cbn beta iota. rewrite app_length. cbn [length]. replace (length (l ++ [Part k' (Some v)]) + 1 - 1)%nat with (length (l ++ [Part k' (Some v)])) by lia.
    rewrite skipn_app, skipn_all, Nat.sub_diag. cbn [skipn app walk_parts pk].
    destruct (psource_resolve E ents (pp_src q) (pp_keys q ++ [k]) v k) as [w|e]; [|reflexivity]. now destruct (is_NONE w).
Qed.
Lemma C90_list_lem E ents p q v cfg section d loc its : pp_value E ents p = (q, Ok (VStr v)) -> pp_src p = SConfig cfg section d loc ->
  cfg_sequence E v = Ok its ->
  pp_sequence E ents p = (q, Ok (length its)) /\
  forall i : nat, snd (pp_value E ents (pp_append (KInt (Z.of_nat i)) q)) = Ok (match nth_error its i with Some x => VStr x | None => VConst NONE end).
Proof.
  intros V SR C. destruct (value_stands _ _ _ _ _ V eq_refl) as (ST & SQ & _). split.
  - unfold pp_sequence. rewrite V, SR. cbn [psource_sequence]. now rewrite C.
  - intros i. rewrite (stands_below E ents q _ (KInt (Z.of_nat i)) ST) by discriminate. rewrite SQ, SR. cbn [psource_resolve config_resolve]. rewrite C. cbn [py_getitem].
    unfold py_index. rewrite map_length. replace (Z.of_nat i <? 0) with false by (symmetry; apply Z.ltb_ge; lia). rewrite Z.ltb_antisym.
    replace (0 <=? Z.of_nat i) with true by (symmetry; apply Z.leb_le; lia). cbn [negb orb]. rewrite Nat2Z.id, nth_error_map.
    destruct (nth_error its i) as [x|] eqn:Q; cbn [option_map].
    + assert (L : (i < length its)%nat) by (apply nth_error_Some; congruence).
      destruct (Z.leb_spec (Z.of_nat (length its)) (Z.of_nat i)); [lia|]. reflexivity.
    + destruct (Z.of_nat (length its) <=? Z.of_nat i); reflexivity.
Qed.
Lemma C90_bad_lem E ents p q v cfg section d loc e : pp_value E ents p = (q, Ok (VStr v)) -> pp_src p = SConfig cfg section d loc ->
  cfg_sequence E v = Exn e ->
  pp_sequence E ents p = (q, Exn e) /\
  (is_lookup_or_type e = false -> forall k, (forall x, k <> KRaw x) -> snd (pp_value E ents (pp_append k q)) = Exn e).
Proof.
  intros V SR C. destruct (value_stands _ _ _ _ _ V eq_refl) as (ST & SQ & _). split.
  - unfold pp_sequence. rewrite V, SR. cbn [psource_sequence]. now rewrite C.
  - intros LT k NR. rewrite (stands_below E ents q _ k ST NR). rewrite SQ, SR. cbn [psource_resolve config_resolve]. rewrite C. cbn [or_NONE]. now rewrite LT.
Qed.
Lemma C90_lines_lem E ents p q v cfg section d loc ps xs : pp_value E ents p = (q, Ok (VStr v)) -> pp_src p = SConfig cfg section d loc ->
  In newline_char (chars v) -> broken (chars v) ps -> stripped ps xs ->
  pp_sequence E ents p = (q, Ok (length xs)) /\
  forall i : nat, snd (pp_value E ents (pp_append (KInt (Z.of_nat i)) q)) = Ok (match nth_error xs i with Some x => VStr (of_chars x) | None => VConst NONE end).
Proof.
  intros V SR N B S. assert (NL : has_char newline v = true) by (unfold has_char; apply existsb_exists; exists newline_char; split; [exact N|apply Ascii.eqb_refl]).
  destruct (C90_list_lem E ents p q v cfg section d loc _ V SR (lines_items E v ps xs NL B S)) as [A1 A2]. rewrite map_length in A1. split; [exact A1|].
  intros i. rewrite A2, nth_error_map. now destruct (nth_error xs i).
Qed.
Lemma C90_words_lem E ents p q v cfg section d loc : pp_value E ents p = (q, Ok (VStr v)) -> pp_src p = SConfig cfg section d loc ->
  ~ In newline_char (chars v) ->
  match e_shlex E v with
  | Ok ws => pp_sequence E ents p = (q, Ok (length ws)) /\
      forall i : nat, snd (pp_value E ents (pp_append (KInt (Z.of_nat i)) q)) = Ok (match nth_error ws i with Some x => VStr x | None => VConst NONE end)
  | Exn e => pp_sequence E ents p = (q, Exn e) /\
      (is_lookup_or_type e = false -> forall k, (forall x, k <> KRaw x) -> snd (pp_value E ents (pp_append k q)) = Exn e)
  end.
Proof.
  intros V SR N. assert (C : cfg_sequence E v = e_shlex E v).
  { unfold cfg_sequence. replace (has_char newline v) with false; [reflexivity|]. symmetry. apply not_true. intros H. unfold has_char in H. apply existsb_exists in H.
    destruct H as (c & I & Q). apply Ascii.eqb_eq in Q. subst c. exact (N I). }
  destruct (e_shlex E v) as [ws|e] eqn:Q; [now apply (C90_list_lem E ents p q v cfg section d loc)|now apply (C90_bad_lem E ents p q v cfg section d loc)].
Qed.
