(** * BoxProofs: containers (C31-C36). *)
From Verif Require Import PyBase PyStr Source Field Context Fields SpecCtx SpecField SpecBox Shape Reads Balance CtxProofs Run FieldProofs FieldLemmas.
From Coq Require Import Lia.
Open Scope Z_scope.

Lemma good_stable {A} (x : M A) s r s2 : good x -> wf s -> x s = (r, s2) -> stable s s2.
Proof. intros G H E. pose proof (G s H) as K. unfold goodat in K. now rewrite E in K. Qed.
Lemma parse_stable W n k pid s r s2 : wf s -> parse_kind W (field_map W n) k pid s = (r, s2) -> stable s s2.
Proof. apply good_stable. apply good_parse_kind. intros. apply good_field_map. Qed.

Section Box.
Variables (W : world) (n : nat) (f : field).
Variables (s : st) (eid : nat) (m : mode) (es : list err) (pid : nat) (p : path) (igd igm : bool).
Hypothesis MP : mapping W s eid m es pid p igd igm.
Hypothesis PS : plain_steps f.
Let E := w_env W.
Let inq (q : path) : st := after_read f NONEv s pid p q.

Lemma within_is q : within f s pid q = inq q.
Proof. reflexivity. Qed.

(** A state reached from inside the field. *)
Record later_in (s2 : st) (es2 : list err) : Prop := {
  li_lookup : forall k, lookup k (stk s2) = lookup k (stk (inq (place f p)));
  li_path : exists q, nth_error (paths s2) pid = Some q /\ p_str E q = p_str E (place f p);
  li_errs : nth_error (errs s2) eid = Some (m, es2)
}.
Lemma in_wf : wf (inq (place f p)).
Proof. exact (proj1 (field_run W n f NONEv s eid m es pid p igd igm MP (ps_resolve _ PS) (ps_parent _ PS))). Qed.
Lemma in_shape_wf q : pshape q = pshape (place f p) -> wf (inq q).
Proof.
  intros H. destruct in_wf as [A B]. assert (S : shapes (inq q) = shapes (inq (place f p))).
  { unfold shapes, inq, after_read. cbn [paths]. now rewrite !map_replace, H. }
  split; rewrite S; [exact A|exact B].
Qed.
Lemma stable_later q s2 : pshape q = pshape (place f p) -> stable (inq q) s2 -> exists more, later_in s2 (es ++ more).
Proof.
  intros H [A (mo & B & _) _ C]. destruct (C eid m es (mp_errs _ _ _ _ _ _ _ _ _ MP)) as (more & C'). exists more. split.
  - intros k. rewrite A. reflexivity.
  - assert (N : nth_error (shapes s2) pid = Some (pshape (place f p))).
    { rewrite B. rewrite nth_error_app1.
      - unfold shapes, inq, after_read. cbn [paths]. rewrite map_replace, nth_replace_eq; [now rewrite H|]. rewrite map_length. exact (pid_lt W s eid m es pid p igd igm MP).
      - unfold shapes, inq, after_read. cbn [paths]. rewrite map_length, replace_nth_length. exact (pid_lt W s eid m es pid p igd igm MP). }
    unfold shapes in N. rewrite nth_error_map in N. destruct (nth_error (paths s2) pid) as [q2|]; [|discriminate].
    injection N as N. exists q2. split; [reflexivity|]. now apply pshape_text.
  - exact C'.
Qed.
Lemma in_lookup k : k <> "src" -> k <> "field" -> k <> "parent" -> lookup k (stk (inq (place f p))) = lookup k (stk s).
Proof. apply entered_lookup. Qed.
Lemma later_report s2 es2 kd t : later_in s2 es2 -> p_str E (place f p) = Ok t ->
  report W kd s2 = (match m with Raise => Exn (EForm (es2 ++ [MkErr kd t (f_name f) (Some pid)])) | Collect => Ok tt end,
                    St (stk s2) (forms s2) (paths s2) (replace_nth eid (m, es2 ++ [MkErr kd t (f_name f) (Some pid)]) (errs s2))).
Proof.
  intros [A (q & B & C) D] T. apply (report_run W kd s2 eid m es2 f pid q t); auto.
  - rewrite A, in_lookup by discriminate. exact (mp_eid _ _ _ _ _ _ _ _ _ MP).
  - rewrite A. apply entered_field.
  - rewrite A, in_lookup by discriminate. exact (mp_pid _ _ _ _ _ _ _ _ _ MP).
  - unfold E in *. now rewrite C.
Qed.

Lemma present_shape q : present_at W s f p q -> pshape q = pshape (place f p).
Proof.
  intros (q1 & X1 & X2). pose proof (preads_exists E (entries s) (place f p)) as A. pose proof (preads_is_null E (entries s) q1) as B.
  unfold E in *. rewrite X1 in A. rewrite X2 in B. cbn [fst] in *. congruence.
Qed.

Lemma box_body q r s2 : present_at W s f p q -> parse_kind W (field_map W n) (f_kind f) pid (inq q) = (r, s2) ->
  field_body W (field_map W n) f NONEv (inq (place f p)) =
  match r with
  | Ok v => (if is_NONE v then
               match o_default (f_opts f) with
               | DUnset (Some h) => call_hook W (field_map W n) h []
               | _ => field_default W (field_map W n) f
               end
             else if ignored v then ret v
             else field_after W (field_map W n) f v) s2
  | Exn e => if caught_by_compute e then invalid_error W (VioExn (spoken e)) s2 else (Exn e, s2)
  end.
Proof.
  intros (q1 & X1 & X2) P. unfold field_body. change (is_NONE NONEv) with true. cbv beta iota. rewrite (ps_compute _ PS).
  rewrite bind_run.
  assert (C : field_compute W (field_map W n) f (inq (place f p)) =
     match r with Ok v => (Ok v, s2) | Exn e => if caught_by_compute e then invalid_error W (VioExn (spoken e)) s2 else (Exn e, s2) end).
  { unfold field_compute, bind, inq. rewrite (ar_cur W f NONEv s eid m es pid p igd igm MP).
    unfold path_exists. rewrite (ar_on W f NONEv s eid m es pid p igd igm MP p_exists _ _ _ X1). cbn [negb].
    unfold path_is_null. rewrite (ar_on W f NONEv s eid m es pid p igd igm MP p_is_null _ _ _ X2).
    unfold catch. rewrite (ps_parse _ PS). unfold inq in P. rewrite P. destruct r as [v|e]; [reflexivity|].
    destruct (caught_by_compute e); reflexivity. }
  rewrite C. destruct r as [v|e]; [reflexivity|]. destruct (caught_by_compute e); [|reflexivity].
  unfold invalid_error. rewrite bind_run. destruct (report W (Invalid (VioExn (spoken e))) s2) as [[u|e'] s3]; reflexivity.
Qed.
Lemma box_after v s2 es2 t : later_in s2 es2 -> p_str E (place f p) = Ok t -> untouched f v -> ignored v = false ->
  field_after W (field_map W n) f v s2 =
  match field_violation E (entries s2) f v with
  | Exn e => (Exn e, s2)
  | Ok None => (Ok v, s2)
  | Ok (Some x) => (match m with Raise => Exn (EForm (es2 ++ [invalid_at f pid x t])) | Collect => Ok ERRORv end,
                    St (stk s2) (forms s2) (paths s2) (replace_nth eid (m, es2 ++ [invalid_at f pid x t]) (errs s2)))
  end.
Proof.
  intros L T (U1 & U2 & U3) G. unfold field_after. rewrite bind_run.
  rewrite (munge_run f v s2 U1). unfold translation. rewrite U2. rewrite bind_run, (ps_munge _ PS), ret_run.
  assert (N : is_NONE v = false) by (destruct v; try reflexivity; discriminate). rewrite N, G.
  unfold field_filter. rewrite U3. cbn [negb]. rewrite (ps_filter _ PS), bind_run, ret_run. cbn [negb].
  rewrite bind_run. unfold field_validate. rewrite bind_run. fold E.
  destruct (field_violation E (entries s2) f v) as [[x|]|e]; [| |reflexivity].
  - rewrite bind_run, (later_report s2 es2 (Invalid x) t L T). destruct m; reflexivity.
  - rewrite ret_run. cbn [negb]. rewrite (ps_validate _ PS), bind_run, ret_run. reflexivity.
Qed.

Lemma box_finish (b : res val * st) :
  field_body W (field_map W n) f NONEv (inq (place f p)) = b ->
  exists s', field_map W (S n) f NONEv s = (fst b, s') /\ stk s' = stk s /\ forms s' = forms (snd b) /\ errs s' = errs (snd b).
Proof.
  intros B. destruct (field_run W n f NONEv s eid m es pid p igd igm MP (ps_resolve _ PS) (ps_parent _ PS)) as (_ & s' & A1 & A2 & A3 & A4).
  change (entered f NONEv s pid p) with (inq (place f p)) in *. rewrite B in *. exists s'. auto.
Qed.

(** The container has parsed to [v]: accepted, or rejected with one error. *)
Lemma box_ok q v s2 : present_at W s f p q -> parse_kind W (field_map W n) (f_kind f) pid (inq q) = (Ok v, s2) ->
  ignored v = false -> untouched f v -> forall t, p_str E (place f p) = Ok t ->
  match field_violation E (entries s2) f v with
  | Ok None => ends W (S n) f s s2 v
  | Ok (Some x) => rejects W (S n) f s s2 eid (invalid_at f pid x t)
  | Exn e => fails W (S n) f s s2 e
  end.
Proof.
  intros X P G U t T.
  pose proof (parse_stable W n _ pid _ _ _ (in_shape_wf q (present_shape q X)) P) as ST.
  destruct (stable_later q s2 (present_shape q X) ST) as (more & L).
  pose proof (box_body q _ _ X P) as B. cbv beta iota in B. assert (N : is_NONE v = false) by (destruct v; try reflexivity; discriminate).
  rewrite N, G in B. rewrite (box_after v s2 _ t L T U G) in B. pose proof (li_errs _ _ L) as LE.
  destruct (box_finish _ B) as (s' & A1 & A2 & A3 & A4).
  destruct (field_violation E (entries s2) f v) as [[x|]|e]; cbn [fst snd forms errs] in *.
  - exists m, (es ++ more), s'. auto.
  - exists s'. auto.
  - exists s'. auto.
Qed.
Lemma box_exn q e s2 : present_at W s f p q -> parse_kind W (field_map W n) (f_kind f) pid (inq q) = (Exn e, s2) ->
  forall t, p_str E (place f p) = Ok t ->
  if caught_by_compute e then rejects W (S n) f s s2 eid (invalid_at f pid (VioExn (spoken e)) t) else fails W (S n) f s s2 e.
Proof.
  intros X P t T.
  pose proof (parse_stable W n _ pid _ _ _ (in_shape_wf q (present_shape q X)) P) as ST.
  destruct (stable_later q s2 (present_shape q X) ST) as (more & L).
  pose proof (box_body q _ _ X P) as B. cbv beta iota in B. pose proof (li_errs _ _ L) as LE.
  destruct (caught_by_compute e).
  - unfold invalid_error in B. rewrite bind_run, (later_report s2 _ (Invalid (VioExn (spoken e))) t L T) in B.
    destruct (box_finish _ B) as (s' & A1 & A2 & A3 & A4).
    exists m, (es ++ more), s'. unfold invalid_at in *. split; [exact LE|]. generalize dependent A4. generalize dependent A3. rewrite A1.
    case m; cbn [fst snd forms errs ret]; auto.
  - destruct (box_finish _ B) as (s' & A1 & A2 & A3 & A4). exists s'. auto.
Qed.
(** The container rejected its data itself.  In raise mode reporting raises, and the
    field catches that as well. *)
Lemma box_error q s2 x t : present_at W s f p q -> p_str E (place f p) = Ok t -> stable (inq q) s2 ->
  parse_kind W (field_map W n) (f_kind f) pid (inq q) = invalid_error W x s2 ->
  match m with
  | Collect => rejects W (S n) f s s2 eid (invalid_at f pid x t)
  | Raise => exists es2 s', nth_error (errs s2) eid = Some (Raise, es2) /\
      let e1 := invalid_at f pid x t in
      let e2 := invalid_at f pid (VioExn (spoken (EForm (es2 ++ [e1])))) t in
      field_map W (S n) f NONEv s = (Exn (EForm ((es2 ++ [e1]) ++ [e2])), s') /\ stk s' = stk s /\ forms s' = forms s2 /\
      errs s' = replace_nth eid (Raise, (es2 ++ [e1]) ++ [e2]) (errs s2)
  end.
Proof.
  intros X T ST P. destruct (stable_later q s2 (present_shape q X) ST) as (more & L).
  pose proof (li_errs _ _ L) as LE. unfold invalid_error in P. rewrite bind_run, (later_report s2 _ (Invalid x) t L T) in P.
  set (mm := m) in P, LE |- *. assert (Hm : m = mm) by reflexivity. clearbody mm. destruct mm.
  - cbv beta iota in P. rewrite ret_run in P. pose proof (box_body q _ _ X P) as B. cbv beta iota in B. cbn [ERRORv is_NONE ignored] in B.
    destruct (box_finish _ B) as (s' & A1 & A2 & A3 & A4). exists Collect, (es ++ more), s'. auto.
  - cbv beta iota in P. pose proof (box_exn q _ _ X P t T) as B. cbn [caught_by_compute] in B.
    destruct B as (m' & es' & s' & B1 & B2 & B3 & B4 & B5). cbn [errs forms] in *.
    assert (Le : (eid < length (errs s2))%nat) by (apply nth_error_Some; congruence).
    rewrite nth_replace_eq in B1 by exact Le. injection B1 as <- <-.
    exists (es ++ more), s'. rewrite replace_twice in B5. auto.
Qed.
End Box.

(** ** Items *)
Lemma survivors_cons v vs acc : keep v acc ++ survivors vs = acc ++ survivors (v :: vs).
Proof. unfold keep, survivors. cbn [filter]. destruct (ignored v); cbn [negb]; [reflexivity|]. now rewrite <- app_assoc. Qed.
Lemma list_items_ok W n g : forall len i acc s vs s1,
  items W n (map (fun j => (KInt (Z.of_nat j), g)) (seq i len)) s vs s1 ->
  list_items W (field_map W n) (Z.of_nat i) len g acc s = (Ok (acc ++ survivors vs), s1).
Proof.
  induction len as [|len IH]; intros i acc s vs s1 H; cbn [seq map] in H; inversion H; subst; cbn [list_items].
  - cbn. now rewrite app_nil_r.
  - rewrite bind_run. unfold map_at. match goal with X : with_ctx _ _ _ _ = _ |- _ => rewrite X end.
    replace (Z.of_nat i + 1) with (Z.of_nat (S i)) by lia. erewrite IH by eassumption. now rewrite survivors_cons.
Qed.
Lemma list_items_exn W n g : forall len i acc s e s1,
  items_raise W n (map (fun j => (KInt (Z.of_nat j), g)) (seq i len)) s e s1 ->
  list_items W (field_map W n) (Z.of_nat i) len g acc s = (Exn e, s1).
Proof.
  induction len as [|len IH]; intros i acc s e s1 H; cbn [seq map] in H; inversion H; subst; cbn [list_items];
    rewrite bind_run; unfold map_at; match goal with X : with_ctx _ _ _ _ = _ |- _ => rewrite X end.
  - reflexivity.
  - replace (Z.of_nat i + 1) with (Z.of_nat (S i)) by lia. erewrite IH by eassumption. reflexivity.
Qed.
Lemma tuple_items_ok W n : forall gs i acc s vs s1, items W n (zipped i gs) s vs s1 ->
  tuple_items W (field_map W n) (Z.of_nat i) gs acc s = (Ok (acc ++ survivors vs), s1).
Proof.
  induction gs as [|g gs IH]; intros i acc s vs s1 H; cbn [zipped] in H; inversion H; subst; cbn [tuple_items].
  - cbn. now rewrite app_nil_r.
  - rewrite bind_run. unfold map_at. match goal with X : with_ctx _ _ _ _ = _ |- _ => rewrite X end.
    replace (Z.of_nat i + 1) with (Z.of_nat (S i)) by lia. erewrite IH by eassumption. now rewrite survivors_cons.
Qed.
Lemma tuple_items_exn W n : forall gs i acc s e s1, items_raise W n (zipped i gs) s e s1 ->
  tuple_items W (field_map W n) (Z.of_nat i) gs acc s = (Exn e, s1).
Proof.
  induction gs as [|g gs IH]; intros i acc s e s1 H; cbn [zipped] in H; inversion H; subst; cbn [tuple_items];
    rewrite bind_run; unfold map_at; match goal with X : with_ctx _ _ _ _ = _ |- _ => rewrite X end.
  - reflexivity.
  - replace (Z.of_nat i + 1) with (Z.of_nat (S i)) by lia. erewrite IH by eassumption. reflexivity.
Qed.
Lemma accepts_run W n k s keyf b s1 : accepts W n k s keyf b s1 -> key_accepted W (field_map W n) keyf k s = (Ok b, s1).
Proof. intros [|h r s1' H]; unfold key_accepted; [reflexivity|]. now rewrite bind_run, H. Qed.
Lemma dict_items_ok W n keyf kf vf : forall keys s ps s1, pairs W n keyf kf vf keys s ps s1 ->
  forall acc, dict_items W (field_map W n) keyf kf vf keys acc s = (Ok (fold_left (fun d kv => dict_set d (fst kv) (snd kv)) ps acc), s1).
Proof.
  intros keys s ps s1 H. induction H as [s|k l s s1 ps s2 A _ IH|k l s s1 v s2 ps s3 A V I _ IH|k l s s1 v s2 k' s3 ps s4 A V I K J _ IH
    |k l s s1 v s2 k' s3 ps s4 A V I K J Hh _ IH]; intros acc; cbn [dict_items]; [reflexivity|..];
    rewrite bind_run, (accepts_run _ _ _ _ _ _ _ A); cbn [negb].
  - apply IH.
  - rewrite bind_run. unfold map_at. rewrite V, I. apply IH.
  - rewrite bind_run. unfold map_at. rewrite V, I, bind_run, K, J. apply IH.
  - rewrite bind_run. unfold map_at. rewrite V, I, bind_run, K, J, (hashable_yes _ Hh). apply IH.
Qed.
Lemma hit_match W l k g c : first_hit (w_env W) l k g c -> group_match W l k = Ok (Some (g, c)).
Proof.
  intros (pre & mm & post & -> & H & M). induction M as [|[m0 g0] pre M _ IH]; cbn [app group_match].
  - destruct H as [x H|x y gr -> H]; now rewrite H.
  - cbn [fst] in M. destruct M as [x M|x y -> M].
    + rewrite M. exact IH.
    + rewrite M. exact IH.
Qed.
Lemma miss_match W l k : Forall (fun mg => miss (w_env W) k (fst mg)) l -> group_match W l k = Ok None.
Proof.
  intros M. induction M as [|[m0 g0] pre M _ IH]; cbn [group_match]; [reflexivity|].
  cbn [fst] in M. destruct M as [x M|x y -> M]; rewrite M; exact IH.
Qed.
Lemma group_items_ok W n l : forall keys s ts c s1, grouped W n l keys s ts c s1 ->
  forall c0 acc, group_items W (field_map W n) l keys c0 acc s =
  (Ok (match (c0 + c)%nat with O => NONEv | _ => VList (acc ++ ts) end), s1).
Proof.
  intros keys s ts c s1 H. induction H as [s|k ks s ts c s1 M _ IH|k ks s g cap v s1 ts c s2 F V I _ IH|k ks s g cap v s1 ts c s2 F V I _ IH];
    intros c0 acc; cbn [group_items].
  - rewrite Nat.add_0_r, app_nil_r. reflexivity.
  - unfold lift. rewrite bind_run, (miss_match W l k M). apply IH.
  - unfold lift. rewrite bind_run, (hit_match W l k g cap F). rewrite bind_run. unfold map_at. rewrite V, I, IH.
    replace (S c0 + c)%nat with (c0 + S c)%nat by lia. reflexivity.
  - unfold lift. rewrite bind_run, (hit_match W l k g cap F). rewrite bind_run. unfold map_at. rewrite V, I, IH.
    replace (S c0 + c)%nat with (c0 + S c)%nat by lia. rewrite <- app_assoc. reflexivity.
Qed.
Lemma group_items_stop W n l k post e s2 : forall keys s ts c s1, grouped W n l keys s ts c s1 -> stops W n l k s1 e s2 ->
  forall c0 acc, group_items W (field_map W n) l (keys ++ k :: post) c0 acc s = (Exn e, s2).
Proof.
  intros keys s ts c s1 H ST. induction H as [s|k0 ks s ts c s1 M _ IH|k0 ks s g cap v s1 ts c s2' F V I _ IH|k0 ks s g cap v s1 ts c s2' F V I _ IH];
    intros c0 acc; cbn [group_items app]; unfold lift.
  - destruct ST as [(pre & p & g & rest & -> & M & NT)|g cap e s1 F V].
    + assert (GM : group_match W (pre ++ (GRe p, g) :: rest) k = Exn (EType "expected string or buffer")).
      { induction M as [|[m0 g0] pre M _ IH]; cbn [group_match app].
        - destruct k; try reflexivity. exfalso. eapply NT. reflexivity.
        - cbn [fst] in M. destruct M as [x M|x y -> M]; rewrite M; exact IH. }
      rewrite bind_run, GM. reflexivity.
    + rewrite bind_run, (hit_match W l k g cap F). rewrite bind_run. unfold map_at. rewrite V. reflexivity.
  - rewrite bind_run, (miss_match W l k0 M). now apply IH.
  - rewrite bind_run, (hit_match W l k0 g cap F). rewrite bind_run. unfold map_at. rewrite V, I. now apply IH.
  - rewrite bind_run, (hit_match W l k0 g cap F). rewrite bind_run. unfold map_at. rewrite V, I. now apply IH.
Qed.

(** ** Lists *)
Section Lists.
Variables (W : world) (n : nat) (f : field).
Variables (s : st) (eid : nat) (m : mode) (es : list err) (pid : nat) (p : path) (igd igm : bool).
Hypothesis MP : mapping W s eid m es pid p igd igm.
Hypothesis PS : plain_steps f.
Let E := w_env W.

Lemma seq_run len q : sequence_at W s f p len q ->
  exists q2, present_at W s f p q2 /\ path_sequence W pid (after_read f NONEv s pid p q2) = (Ok len, within f s pid q).
Proof.
  intros (q2 & P & X). exists q2. split; [exact P|]. unfold path_sequence.
  rewrite (ar_on W f NONEv s eid m es pid p igd igm MP p_sequence _ _ _ X). reflexivity.
Qed.
Lemma map_run keys q : mapping_at W s f p keys q ->
  exists q2, present_at W s f p q2 /\ path_mapping W pid (after_read f NONEv s pid p q2) = (Ok (Ok keys), within f s pid q).
Proof.
  intros (q2 & P & X). exists q2. split; [exact P|]. unfold path_mapping.
  rewrite (ar_on W f NONEv s eid m es pid p igd igm MP p_mapping _ _ _ X). reflexivity.
Qed.

Variables (g : field) (lo hi : option Z) (a : bool).
Hypothesis K : f_kind f = KList g lo hi a.
Lemma list_parse len q vs s1 : sequence_at W s f p len q -> items W n (indexed len g) (within f s pid q) vs s1 ->
  exists q2, present_at W s f p q2 /\
    parse_kind W (field_map W n) (f_kind f) pid (after_read f NONEv s pid p q2) = (Ok (VList (survivors vs)), s1).
Proof.
  intros S I. destruct (seq_run len q S) as (q2 & P & X). exists q2. split; [exact P|]. rewrite K. cbn [parse_kind]. unfold parse_list, catch.
  rewrite X. rewrite bind_run. unfold indexed in I. pose proof (list_items_ok W n g len 0 [] _ _ _ I) as L. cbn [Z.of_nat] in L. rewrite L. reflexivity.
Qed.
Lemma list_parse_exn len q e s1 : sequence_at W s f p len q -> items_raise W n (indexed len g) (within f s pid q) e s1 ->
  exists q2, present_at W s f p q2 /\
    parse_kind W (field_map W n) (f_kind f) pid (after_read f NONEv s pid p q2) = (Exn e, s1).
Proof.
  intros S I. destruct (seq_run len q S) as (q2 & P & X). exists q2. split; [exact P|]. rewrite K. cbn [parse_kind]. unfold parse_list, catch.
  rewrite X. rewrite bind_run. unfold indexed in I. pose proof (list_items_exn W n g len 0 [] _ _ _ I) as L. cbn [Z.of_nat] in L. rewrite L. reflexivity.
Qed.
Lemma list_parse_none e q : no_sequence_at W s f p e q ->
  exists q2, present_at W s f p q2 /\
    parse_kind W (field_map W n) (f_kind f) pid (after_read f NONEv s pid p q2) =
    (match q with
     | PMount _ _ _ => raise (EAttr "'MountPath' object has no attribute 'src'")
     | _ => match e with
            | ESource _ => if a then v <- field_map W n g NONEv; ret (if ignored v then v else VList [v]) else raise e
            | _ => raise e
            end
     end) (within f s pid q).
Proof.
  intros (q2 & P & X). exists q2. split; [exact P|]. rewrite K. cbn [parse_kind]. unfold parse_list, catch.
  assert (R : path_sequence W pid (after_read f NONEv s pid p q2) = (Exn e, within f s pid q)).
  { unfold path_sequence. rewrite (ar_on W f NONEv s eid m es pid p igd igm MP p_sequence _ _ _ X). reflexivity. }
  rewrite R. rewrite bind_run. unfold path_has_src, get. assert (N : nth_error (paths (within f s pid q)) pid = Some q) by (exact (ar_path W f NONEv s eid m es pid p igd igm MP q)).
  rewrite N. destruct q; reflexivity.
Qed.
Lemma no_list_lem x q t : p_str E (place f p) = Ok t -> no_sequence_at W s f p (ESource x) q -> ~ of_mount q -> a = false ->
  rejects W (S n) f s (within f s pid q) eid (invalid_at f pid (VioExn (ESource x)) t).
Proof.
  intros T S NM A. destruct (list_parse_none _ _ S) as (q2 & P & X).
  assert (X' : parse_kind W (field_map W n) (f_kind f) pid (after_read f NONEv s pid p q2) = (Exn (ESource x), within f s pid q)).
  { rewrite X, A. destruct q as [b|l k o]; [reflexivity|destruct (NM I)]. }
  exact (box_exn W n f s eid m es pid p igd igm MP PS q2 _ _ P X' t T).
Qed.
Lemma mount_list_lem e q t : p_str E (place f p) = Ok t -> no_sequence_at W s f p e q -> of_mount q ->
  exists msg, fails W (S n) f s (within f s pid q) (EAttr msg).
Proof.
  intros T S NM. destruct (list_parse_none _ _ S) as (q2 & P & X).
  assert (X' : parse_kind W (field_map W n) (f_kind f) pid (after_read f NONEv s pid p q2) = (Exn (EAttr "'MountPath' object has no attribute 'src'"), within f s pid q)).
  { rewrite X. destruct q as [b|l k o]; [destruct NM|reflexivity]. }
  eexists. exact (box_exn W n f s eid m es pid p igd igm MP PS q2 _ _ P X' t T).
Qed.
Lemma list_violation ents l : field_violation E ents f (VList l) =
  Ok (match lo with
      | Some k => if Z.of_nat (length l) <? k then Some (VioMinItems k) else
          match hi with Some k => if k <? Z.of_nat (length l) then Some (VioMaxItems k) else None | None => None end
      | None => match hi with Some k => if k <? Z.of_nat (length l) then Some (VioMaxItems k) else None | None => None end
      end).
Proof.
  unfold field_violation, vio_null, vio_kind. rewrite K. unfold vio_min_len, vio_max_len, py_len, vand.
  destruct lo as [k|], hi as [k'|]; try reflexivity; destruct (Z.of_nat (length l) <? k); reflexivity.
Qed.
Lemma C31_list_lem len q vs s1 t : p_str E (place f p) = Ok t -> sequence_at W s f p len q ->
  items W n (indexed len g) (within f s pid q) vs s1 -> untouched f (VList (survivors vs)) ->
  long_enough lo (length (survivors vs)) -> short_enough hi (length (survivors vs)) ->
  ends W (S n) f s s1 (VList (survivors vs)).
Proof.
  intros T S I U Lo Hi. destruct (list_parse len q vs s1 S I) as (q2 & P & X).
  pose proof (box_ok W n f s eid m es pid p igd igm MP PS q2 _ _ P X eq_refl U t T) as B. fold E in B. rewrite list_violation in B.
  unfold long_enough, short_enough in *.
  destruct lo as [k|]; [specialize (Lo k eq_refl); replace (Z.of_nat (length (survivors vs)) <? k) with false in B by (symmetry; apply Z.ltb_ge; exact Lo)|];
    (destruct hi as [k'|]; [specialize (Hi k' eq_refl); replace (k' <? Z.of_nat (length (survivors vs))) with false in B by (symmetry; apply Z.ltb_ge; exact Hi)|]); exact B.
Qed.
Lemma C31_raise_lem len q e s1 t : p_str E (place f p) = Ok t -> sequence_at W s f p len q ->
  items_raise W n (indexed len g) (within f s pid q) e s1 ->
  if caught_by_compute e then rejects W (S n) f s s1 eid (invalid_at f pid (VioExn (spoken e)) t) else fails W (S n) f s s1 e.
Proof.
  intros T S I. destruct (list_parse_exn len q e s1 S I) as (q2 & P & X).
  exact (box_exn W n f s eid m es pid p igd igm MP PS q2 _ _ P X t T).
Qed.
Lemma lone_lem x q v s1 t : p_str E (place f p) = Ok t -> no_sequence_at W s f p (ESource x) q -> ~ of_mount q -> a = true ->
  field_map W n g NONEv (within f s pid q) = (Ok v, s1) -> ignored v = false -> untouched f (VList [v]) ->
  long_enough lo 1 -> short_enough hi 1 -> ends W (S n) f s s1 (VList [v]).
Proof.
  intros T S NM A R IG U Lo Hi. destruct (list_parse_none _ _ S) as (q2 & P & X).
  assert (X' : parse_kind W (field_map W n) (f_kind f) pid (after_read f NONEv s pid p q2) = (Ok (VList [v]), s1)).
  { rewrite X, A. destruct q as [b|l k o]; [|destruct (NM I)]. now rewrite bind_run, R, IG. }
  pose proof (box_ok W n f s eid m es pid p igd igm MP PS q2 _ _ P X' eq_refl U t T) as B. fold E in B. rewrite list_violation in B.
  unfold long_enough, short_enough in *. cbn [length] in B.
  destruct lo as [k|]; [specialize (Lo k eq_refl); replace (Z.of_nat 1 <? k) with false in B by (symmetry; apply Z.ltb_ge; exact Lo)|];
    (destruct hi as [k'|]; [specialize (Hi k' eq_refl); replace (k' <? Z.of_nat 1) with false in B by (symmetry; apply Z.ltb_ge; exact Hi)|]); exact B.
Qed.
Lemma C32_min_lem len q vs s1 t k : p_str E (place f p) = Ok t -> sequence_at W s f p len q ->
  items W n (indexed len g) (within f s pid q) vs s1 -> untouched f (VList (survivors vs)) ->
  lo = Some k -> Z.of_nat (length (survivors vs)) < k ->
  rejects W (S n) f s s1 eid (invalid_at f pid (VioMinItems k) t).
Proof.
  intros T S I U Lo Hk. destruct (list_parse len q vs s1 S I) as (q2 & P & X).
  pose proof (box_ok W n f s eid m es pid p igd igm MP PS q2 _ _ P X eq_refl U t T) as B. fold E in B. rewrite list_violation, Lo in B.
  replace (Z.of_nat (length (survivors vs)) <? k) with true in B by (symmetry; apply Z.ltb_lt; exact Hk). exact B.
Qed.
Lemma C32_max_lem len q vs s1 t k : p_str E (place f p) = Ok t -> sequence_at W s f p len q ->
  items W n (indexed len g) (within f s pid q) vs s1 -> untouched f (VList (survivors vs)) ->
  long_enough lo (length (survivors vs)) -> hi = Some k -> k < Z.of_nat (length (survivors vs)) ->
  rejects W (S n) f s s1 eid (invalid_at f pid (VioMaxItems k) t).
Proof.
  intros T S I U Lo Hi Hk. destruct (list_parse len q vs s1 S I) as (q2 & P & X).
  pose proof (box_ok W n f s eid m es pid p igd igm MP PS q2 _ _ P X eq_refl U t T) as B. fold E in B. rewrite list_violation, Hi in B.
  replace (k <? Z.of_nat (length (survivors vs))) with true in B by (symmetry; apply Z.ltb_lt; exact Hk).
  unfold long_enough in Lo. destruct lo as [k'|]; [|exact B]. specialize (Lo k' eq_refl).
  replace (Z.of_nat (length (survivors vs)) <? k') with false in B by (symmetry; apply Z.ltb_ge; exact Lo). exact B.
Qed.
End Lists.

Lemma dict_has_get d k : dict_has d k = true <-> exists v, dict_get d k = Some v.
Proof.
  unfold dict_has, dict_get. induction d as [|[a b] d IH]; cbn [existsb find fst].
  - split; [discriminate|]. intros (x & Hx). discriminate.
  - destruct (py_eq a k); [|exact IH]. split; [|reflexivity]. intros _. now exists b.
Qed.
(** ** Tuples, dicts, groups *)
Section Others.
Variables (W : world) (n : nat) (f : field).
Variables (s : st) (eid : nat) (m : mode) (es : list err) (pid : nat) (p : path) (igd igm : bool).
Hypothesis MP : mapping W s eid m es pid p igd igm.
Hypothesis PS : plain_steps f.
Let E := w_env W.

Lemma C33_tuple_lem gs q vs s1 t : f_kind f = KTuple gs -> p_str E (place f p) = Ok t ->
  sequence_at W s f p (length gs) q -> items W n (zipped 0 gs) (within f s pid q) vs s1 ->
  untouched f (VTuple (survivors vs)) -> ends W (S n) f s s1 (VTuple (survivors vs)).
Proof.
  intros K T S I U. destruct (seq_run W f s eid m es pid p igd igm MP _ q S) as (q2 & P & X).
  assert (Y : parse_kind W (field_map W n) (f_kind f) pid (after_read f NONEv s pid p q2) = (Ok (VTuple (survivors vs)), s1)).
  { rewrite K. cbn [parse_kind]. unfold parse_tuple. rewrite bind_run, X, Nat.eqb_refl, bind_run.
    pose proof (tuple_items_ok W n gs 0 [] _ _ _ I) as L. cbn [Z.of_nat] in L. rewrite L. reflexivity. }
  pose proof (box_ok W n f s eid m es pid p igd igm MP PS q2 _ _ P Y eq_refl U t T) as B.
  unfold field_violation, vio_null, vio_kind in B. rewrite K in B. exact B.
Qed.
Lemma C33_raise_lem gs q e s1 t : f_kind f = KTuple gs -> p_str E (place f p) = Ok t ->
  sequence_at W s f p (length gs) q -> items_raise W n (zipped 0 gs) (within f s pid q) e s1 ->
  if caught_by_compute e then rejects W (S n) f s s1 eid (invalid_at f pid (VioExn (spoken e)) t) else fails W (S n) f s s1 e.
Proof.
  intros K T S I. destruct (seq_run W f s eid m es pid p igd igm MP _ q S) as (q2 & P & X).
  assert (Y : parse_kind W (field_map W n) (f_kind f) pid (after_read f NONEv s pid p q2) = (Exn e, s1)).
  { rewrite K. cbn [parse_kind]. unfold parse_tuple. rewrite bind_run, X, Nat.eqb_refl, bind_run.
    pose proof (tuple_items_exn W n gs 0 [] _ _ _ I) as L. cbn [Z.of_nat] in L. rewrite L. reflexivity. }
  exact (box_exn W n f s eid m es pid p igd igm MP PS q2 _ _ P Y t T).
Qed.
Lemma read_stable q : pshape q = pshape (place f p) -> forall q', pshape q' = pshape q -> stable (after_read f NONEv s pid p q) (after_read f NONEv s pid p q').
Proof.
  intros H q' H'. split; auto.
  - exists []. split; [|constructor]. rewrite app_nil_r. unfold shapes, after_read. cbn [paths]. now rewrite !map_replace, H'.
  - cbn. eauto.
  - cbn. intros i m0 l Hl. exists []. now rewrite app_nil_r.
Qed.
Lemma wrong_length gs q len t : f_kind f = KTuple gs -> p_str E (place f p) = Ok t -> sequence_at W s f p len q -> len <> length gs ->
  match m with
  | Collect => rejects W (S n) f s (within f s pid q) eid (invalid_at f pid (VioItems (length gs)) t)
  | Raise => exists es2 s', nth_error (errs (within f s pid q)) eid = Some (Raise, es2) /\
      let e1 := invalid_at f pid (VioItems (length gs)) t in
      let e2 := invalid_at f pid (VioExn (spoken (EForm (es2 ++ [e1])))) t in
      field_map W (S n) f NONEv s = (Exn (EForm ((es2 ++ [e1]) ++ [e2])), s') /\ stk s' = stk s /\ forms s' = forms (within f s pid q) /\
      errs s' = replace_nth eid (Raise, (es2 ++ [e1]) ++ [e2]) (errs (within f s pid q))
  end.
Proof.
  intros K T S N. pose proof S as S0. destruct (seq_run W f s eid m es pid p igd igm MP _ q S) as (q2 & P & X).
  assert (Y : parse_kind W (field_map W n) (f_kind f) pid (after_read f NONEv s pid p q2) = invalid_error W (VioItems (length gs)) (within f s pid q)).
  { rewrite K. cbn [parse_kind]. unfold parse_tuple. rewrite bind_run, X. apply Nat.eqb_neq in N. rewrite N. reflexivity. }
  apply (box_error W n f s eid m es pid p igd igm MP PS q2 _ _ _ P T); [|exact Y].
  eapply good_stable; [apply good_path_sequence| |exact X].
  apply (in_shape_wf W n f s eid m es pid p igd igm MP PS). exact (present_shape W f s p q2 P).
Qed.
Lemma C33_length_lem gs q len t : f_kind f = KTuple gs -> p_str E (place f p) = Ok t -> sequence_at W s f p len q -> len <> length gs ->
  m = Collect -> yields W (S n) f NONEv s eid m es ERRORv [invalid_at f pid (VioItems (length gs)) t].
Proof.
  intros K T S N Hm. pose proof (wrong_length gs q len t K T S N) as B. rewrite Hm in B.
  destruct B as (m' & es' & s' & B1 & B2 & B3 & B4 & B5). cbn [within errs] in B1. rewrite (mp_errs _ _ _ _ _ _ _ _ _ MP), Hm in B1. injection B1 as <- <-.
  exists s'. rewrite Hm. cbn [within forms errs] in *. auto.
Qed.
Lemma C33_length_raise_lem gs q len t : f_kind f = KTuple gs -> p_str E (place f p) = Ok t -> sequence_at W s f p len q -> len <> length gs ->
  m = Raise ->
  let e1 := invalid_at f pid (VioItems (length gs)) t in
  let e2 := invalid_at f pid (VioExn (spoken (EForm (es ++ [e1])))) t in
  exists s', field_map W (S n) f NONEv s = (Exn (EForm (es ++ [e1; e2])), s') /\ stk s' = stk s /\ forms s' = forms s.
Proof.
  intros K T S N Hm. pose proof (wrong_length gs q len t K T S N) as B. rewrite Hm in B.
  destruct B as (es' & s' & B1 & B2 & B3 & B4 & B5). cbn [within errs] in B1. rewrite (mp_errs _ _ _ _ _ _ _ _ _ MP), Hm in B1. injection B1 as <-.
  exists s'. rewrite <- app_assoc in B2. auto.
Qed.

(** *** Dicts *)
Variables (keyf : option (hook prog)) (kf vf : field) (required : list val) (mx : option Z).
Lemma dict_parse keys q ps s1 : f_kind f = KDict kf vf keyf required mx -> mapping_at W s f p keys q -> pairs W n keyf kf vf keys (within f s pid q) ps s1 ->
  exists q2, present_at W s f p q2 /\
    parse_kind W (field_map W n) (f_kind f) pid (after_read f NONEv s pid p q2) = (Ok (VDict (dict_of ps)), s1).
Proof.
  intros K S I. destruct (map_run W f s eid m es pid p igd igm MP _ q S) as (q2 & P & X). exists q2. split; [exact P|].
  rewrite K. cbn [parse_kind]. unfold parse_dict. rewrite bind_run, X. unfold lift. rewrite bind_run, bind_run, (dict_items_ok W n keyf kf vf _ _ _ _ I).
  reflexivity.
Qed.
Lemma missing_filter d : filter (fun k => negb (dict_has d k)) required = [] <-> has_required required d.
Proof.
  unfold has_required. pose proof (dict_has_get d) as H.
  split.
  - intros Hf k Hk. apply H. destruct (dict_has d k) eqn:D; [reflexivity|]. exfalso.
    assert (I : In k (filter (fun k => negb (dict_has d k)) required)) by (apply filter_In; rewrite D; auto). rewrite Hf in I. destruct I.
  - intros HR. destruct (filter (fun k => negb (dict_has d k)) required) as [|k l] eqn:Hf; [reflexivity|]. exfalso.
    assert (I : In k (filter (fun k => negb (dict_has d k)) required)) by (rewrite Hf; now left).
    apply filter_In in I. destruct I as [I1 I2]. apply HR, H in I1. rewrite I1 in I2. discriminate.
Qed.
Lemma dict_violation ents d : f_kind f = KDict kf vf keyf required mx -> field_violation E ents f (VDict d) =
  match filter (fun k => negb (dict_has d k)) required with
  | [] => Ok (match mx with Some k => if k =? 0 then None else if k <? Z.of_nat (length d) then Some (VioMaxKeys k) else None | None => None end)
  | missing => if forallb is_text missing then Ok (Some (VioMissingKeys missing)) else Exn (EType "expected str instance")
  end.
Proof.
  intros K. unfold field_violation, vio_null, vio_kind. rewrite K. unfold vio_required, keys_required, vio_max_keys, py_len, vand.
  destruct required as [|r rs]; [cbn [filter]|destruct (filter _ _); [|destruct (forallb _ _)]]; destruct mx as [[|k|k]|]; reflexivity.
Qed.
Lemma lacks_filter d k : In k (filter (fun k => negb (dict_has d k)) required) <-> lacks required d k.
Proof.
  unfold lacks. rewrite filter_In. pose proof (dict_has_get d k) as H. destruct (dict_has d k), (dict_get d k) as [x|]; cbn [negb];
    destruct H as [H1 H2]; try (specialize (H1 eq_refl); destruct H1; discriminate); try (specialize (H2 (ex_intro _ x eq_refl)); discriminate); intuition discriminate.
Qed.
Lemma lacks_text d : forallb is_text (filter (fun k => negb (dict_has d k)) required) = true <-> lacks_strings required d.
Proof.
  unfold lacks_strings. rewrite forallb_forall. split; intros H k L.
  - apply lacks_filter in L. specialize (H k L). destruct k; try discriminate. eauto.
  - apply lacks_filter in L. destruct (H k L) as (x & ->). reflexivity.
Qed.
Lemma C34_dict_lem keys q ps s1 t : f_kind f = KDict kf vf keyf required mx -> p_str E (place f p) = Ok t -> mapping_at W s f p keys q ->
  pairs W n keyf kf vf keys (within f s pid q) ps s1 -> untouched f (VDict (dict_of ps)) ->
  has_required required (dict_of ps) -> few_enough mx (dict_of ps) ->
  ends W (S n) f s s1 (VDict (dict_of ps)).
Proof.
  intros K T S I U R M. destruct (dict_parse keys q ps s1 K S I) as (q2 & P & X).
  pose proof (box_ok W n f s eid m es pid p igd igm MP PS q2 _ _ P X eq_refl U t T) as B. fold E in B. rewrite (dict_violation _ _ K) in B.
  apply missing_filter in R. rewrite R in B. unfold few_enough in M. destruct mx as [k|]; [|exact B].
  destruct (k =? 0) eqn:Z; [exact B|]. apply Z.eqb_neq in Z. specialize (M k eq_refl Z).
  replace (k <? Z.of_nat (length (dict_of ps))) with false in B by (symmetry; apply Z.ltb_ge; exact M). exact B.
Qed.
Lemma C34_required_lem keys q ps s1 t : f_kind f = KDict kf vf keyf required mx -> p_str E (place f p) = Ok t -> mapping_at W s f p keys q ->
  pairs W n keyf kf vf keys (within f s pid q) ps s1 -> untouched f (VDict (dict_of ps)) ->
  ~ has_required required (dict_of ps) -> lacks_strings required (dict_of ps) ->
  exists missing, (forall k, In k missing <-> lacks required (dict_of ps) k) /\
    rejects W (S n) f s s1 eid (invalid_at f pid (VioMissingKeys missing) t).
Proof.
  intros K T S I U R TX. destruct (dict_parse keys q ps s1 K S I) as (q2 & P & X).
  pose proof (box_ok W n f s eid m es pid p igd igm MP PS q2 _ _ P X eq_refl U t T) as B. fold E in B. rewrite (dict_violation _ _ K) in B.
  apply lacks_text in TX.
  exists (filter (fun k => negb (dict_has (dict_of ps) k)) required). split; [apply lacks_filter|].
  destruct (filter (fun k => negb (dict_has (dict_of ps) k)) required) eqn:F; [apply missing_filter in F; contradiction|].
  cbv zeta in B. rewrite TX in B. exact B.
Qed.
Lemma C34_crash_lem keys q ps s1 t : f_kind f = KDict kf vf keyf required mx -> p_str E (place f p) = Ok t -> mapping_at W s f p keys q ->
  pairs W n keyf kf vf keys (within f s pid q) ps s1 -> untouched f (VDict (dict_of ps)) ->
  ~ lacks_strings required (dict_of ps) -> fails W (S n) f s s1 (EType "expected str instance").
Proof.
  intros K T S I U R. destruct (dict_parse keys q ps s1 K S I) as (q2 & P & X).
  pose proof (box_ok W n f s eid m es pid p igd igm MP PS q2 _ _ P X eq_refl U t T) as B. fold E in B. rewrite (dict_violation _ _ K) in B.
  pose proof (lacks_text (dict_of ps)) as L. destruct (forallb is_text (filter (fun k => negb (dict_has (dict_of ps) k)) required)) eqn:F.
  - exfalso. apply R. now apply L.
  - destruct (filter (fun k => negb (dict_has (dict_of ps) k)) required); [discriminate|]. cbv zeta in B. rewrite F in B. exact B.
Qed.
Lemma C34_max_lem keys q ps s1 t k : f_kind f = KDict kf vf keyf required mx -> p_str E (place f p) = Ok t -> mapping_at W s f p keys q ->
  pairs W n keyf kf vf keys (within f s pid q) ps s1 -> untouched f (VDict (dict_of ps)) ->
  has_required required (dict_of ps) -> mx = Some k -> k <> 0 -> k < Z.of_nat (length (dict_of ps)) ->
  rejects W (S n) f s s1 eid (invalid_at f pid (VioMaxKeys k) t).
Proof.
  intros K T S I U R M Z L. destruct (dict_parse keys q ps s1 K S I) as (q2 & P & X).
  pose proof (box_ok W n f s eid m es pid p igd igm MP PS q2 _ _ P X eq_refl U t T) as B. fold E in B. rewrite (dict_violation _ _ K), M in B.
  apply missing_filter in R. rewrite R in B. apply Z.eqb_neq in Z. rewrite Z in B.
  replace (k <? Z.of_nat (length (dict_of ps))) with true in B by (symmetry; apply Z.ltb_lt; exact L). exact B.
Qed.

(** *** Groups *)
Lemma group_parse l keys q ts c s1 : f_kind f = KGroup l -> mapping_at W s f p keys q -> grouped W n l keys (within f s pid q) ts c s1 ->
  exists q2, present_at W s f p q2 /\
    parse_kind W (field_map W n) (f_kind f) pid (after_read f NONEv s pid p q2) = (Ok (match c with O => NONEv | _ => VList ts end), s1).
Proof.
  intros K S I. destruct (map_run W f s eid m es pid p igd igm MP _ q S) as (q2 & P & X). exists q2. split; [exact P|].
  rewrite K. cbn [parse_kind]. unfold parse_group. rewrite bind_run, X. unfold lift. rewrite bind_run, (group_items_ok W n l _ _ _ _ _ I). reflexivity.
Qed.
Lemma C35_group_lem l keys q ts c s1 t : f_kind f = KGroup l -> p_str E (place f p) = Ok t -> mapping_at W s f p keys q ->
  grouped W n l keys (within f s pid q) ts c s1 -> c <> O -> untouched f (VList ts) -> ends W (S n) f s s1 (VList ts).
Proof.
  intros K T S I N U. destruct (group_parse l keys q ts c s1 K S I) as (q2 & P & X). destruct c as [|c]; [congruence|].
  pose proof (box_ok W n f s eid m es pid p igd igm MP PS q2 _ _ P X eq_refl U t T) as B.
  unfold field_violation, vio_null, vio_kind in B. rewrite K in B. exact B.
Qed.
Lemma C35_stops_lem l pre k post q ts c s1 e s2 t : f_kind f = KGroup l -> p_str E (place f p) = Ok t -> mapping_at W s f p (pre ++ k :: post) q ->
  grouped W n l pre (within f s pid q) ts c s1 -> stops W n l k s1 e s2 ->
  if caught_by_compute e then rejects W (S n) f s s2 eid (invalid_at f pid (VioExn (spoken e)) t) else fails W (S n) f s s2 e.
Proof.
  intros K T S I ST. destruct (map_run W f s eid m es pid p igd igm MP _ q S) as (q2 & P & X).
  refine (box_exn W n f s eid m es pid p igd igm MP PS q2 e s2 P _ t T).
  rewrite K. cbn [parse_kind]. unfold parse_group. rewrite bind_run, X. unfold lift. rewrite bind_run. exact (group_items_stop W n l k post e s2 _ _ _ _ _ I ST _ _).
Qed.
Lemma C35_default_lem l keys q ts s1 d : f_kind f = KGroup l -> mapping_at W s f p keys q ->
  grouped W n l keys (within f s pid q) ts 0 s1 -> igd = false ->
  o_default (f_opts f) = DCall (PRet d) \/ (o_default (f_opts f) = DVal d /\ d <> VConst NOTSET) -> ends W (S n) f s s1 d.
Proof.
  intros K S I G D. destruct (group_parse l keys q ts 0 s1 K S I) as (q2 & P & X).
  pose proof (box_body W n f s eid m es pid p igd igm MP PS q2 _ _ P X) as B. cbv beta iota in B. change (is_NONE NONEv) with true in B. cbv beta iota in B.
  pose proof (parse_stable W n _ pid _ _ _ (in_shape_wf W n f s eid m es pid p igd igm MP PS q2 (present_shape W f s p q2 P)) X) as ST.
  destruct (stable_later W f s eid m es pid p igd igm MP q2 s1 (present_shape W f s p q2 P) ST) as (more & L).
  destruct (mp_igd _ _ _ _ _ _ _ _ _ MP) as (cv & Hc & Tc).
  assert (FD : field_default W (field_map W n) f s1 = (Ok d, s1)).
  { unfold field_default. rewrite bind_run. rewrite (ctx_get_at s1 "ignore_default" cv).
    - rewrite Tc, G. destruct D as [D|[D N]]; rewrite D; [reflexivity|]. destruct d; try reflexivity. destruct c; try reflexivity. congruence.
    - rewrite (li_lookup _ _ _ _ _ _ _ _ _ L). rewrite in_lookup by discriminate. exact Hc. }
  assert (B' : field_body W (field_map W n) f NONEv (after_read f NONEv s pid p (place f p)) = (Ok d, s1)).
  { rewrite B. destruct D as [D|[D N]]; rewrite D; exact FD. }
  destruct (box_finish W n f s eid m es pid p igd igm MP PS _ B') as (s' & A). exists s'. exact A.
Qed.
End Others.
