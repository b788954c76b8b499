(** * OpenProofs: opening sources (C104). *)
From Verif Require Import PyBase PyStr Source Field Context Fields SpecUnion Eval SpecForm SpecOpen UnionProofs FieldLemmas FormProofs FormLemmas.
From Coq Require Import Lia.

Lemma alookup_none {A} (l : list (string * A)) k : (forall v, ~ In (k, v) l) -> alookup l k = None.
Proof.
  induction l as [|[a b] l IH]; intros H; cbn; [reflexivity|]. destruct (String.eqb_spec a k) as [->|N].
  - exfalso. apply (H b). now left.
  - apply IH. intros v I. apply (H v). now right.
Qed.
Lemma alookup_in {A} (l : list (string * A)) k v : alookup l k = Some v -> In (k, v) l.
Proof. induction l as [|[a b] l IH]; cbn; [discriminate|]. destruct (String.eqb_spec a k) as [->|N]; [intros [= ->]; now left|right; auto]. Qed.
Lemma shut_plain s : no_section s -> psource_path s = Exn (EOther "NoSectionError").
Proof.
  destruct s as [| |cfg [sec|] d loc]; cbn [no_section]; try contradiction. intros [N A]. unfold psource_path. cbn [psource_root]. unfold opt_str.
  assert (AL : alookup cfg sec = None) by (apply alookup_none; exact A). destruct sec as [|c sec]; [congruence|]. cbn [String.eqb]. now rewrite AL.
Qed.
Lemma open_plain s : ~ no_section s -> exists p, psource_path s = Ok p.
Proof.
  destruct s as [| |cfg [sec|] d loc]; cbn [no_section]; intros N; unfold psource_path; cbn [psource_root]; try (eexists; reflexivity).
  destruct sec as [|c sec]; cbn [opt_str]; [eexists; reflexivity|]. cbn [String.eqb]. destruct (alookup cfg (String c sec)) as [opts|] eqn:A; [eexists; reflexivity|].
  exfalso. apply N. split; [discriminate|]. intros opts I. revert A I. clear. induction cfg as [|[a b] l IH]; cbn; [contradiction|].
  destruct (String.eqb_spec a (String c sec)) as [Q|Q]; [discriminate|]. intros A [[= Q' _]|I]; [congruence|]. exact (IH A I).
Qed.

Section Union.
Variables (E : env) (ents : entries_of) (u : usource).
Let srcs := us_srcs u.
Hypothesis PS : Forall (plain_src E) srcs.
Lemma union_shut : srcs <> [] -> start u = None -> usource_path E ents u = Exn (ESource NotMapping).
Proof.
  intros NE ST. assert (FINE : Forall (fun s => fine E s (data_of s)) (us_srcs u)) by (eapply Forall_impl; [|exact PS]; intros s; apply plain_fine).
  unfold start in ST. fold srcs in ST. unfold usource_path. fold srcs. rewrite (sub_paths_plain _ _ PS).
  set (paths := map (fun s => Source.PPath s (data_of s) []) srcs). set (kss := map (fun _ : psource => @nil key) srcs).
  assert (T : tracks E ents u paths kss 0).
  { split; [unfold paths; now rewrite map_length|]. split; [unfold kss; now rewrite map_length|]. intros i s p ks S P K. fold srcs in S. unfold paths in P. unfold kss in K. rewrite nth_error_map, S in P, K. cbn in P, K. injection P as <-. injection K as <-.
    split; [|reflexivity]. split; cbn; auto. intros pre q post v Q. destruct pre; discriminate. }
  assert (F : Forall2 (sees u kss 0) (seq 0 (length srcs)) (map (fun s => (s, data_of s)) srcs)).
  { assert (A : forall l pre, srcs = pre ++ l -> Forall2 (sees u kss 0) (seq (length pre) (length l)) (map (fun s => (s, data_of s)) l)).
    { induction l as [|s l IH]; intros pre Q; cbn [length seq map]; [constructor|]. constructor.
      - exists []. cbn [fst snd firstn reach_val]. assert (N : nth_error srcs (length pre) = Some s) by (rewrite Q, nth_error_app2, Nat.sub_diag by lia; reflexivity). split; [exact N|].
        split; [unfold kss; now rewrite nth_error_map, N|reflexivity].
      - specialize (IH (pre ++ [s])). rewrite app_length in IH. cbn [length] in IH. rewrite Nat.add_1_r in IH. apply IH. now rewrite <- app_assoc. }
    exact (A srcs [] eq_refl). }
  assert (LP : length paths = length srcs) by (unfold paths; apply map_length). rewrite LP.
  destruct (umap_make_spec E ents u FINE kss 0 _ _ paths (Some MCombine) MCombine F T eq_refl) as (paths' & T' & R). unfold merge_maps in R. cbn [open_maps] in R.
  assert (SN : shaped (fun _ => dict_of) (map (fun s => (s, data_of s)) srcs) = None) by (clear -ST NE; destruct srcs; [congruence|]; destruct (shaped _ _); [discriminate|reflexivity]).
  rewrite SN in R. now rewrite R.
Qed.
End Union.
Lemma shaped_some l : (forall s, In s l -> data_of s = VNone \/ exists d, data_of s = VDict d) -> exists ms, shaped (fun _ => dict_of) (map (fun s => (s, data_of s)) l) = Some ms.
Proof.
  induction l as [|s l IH]; intros H; cbn [map shaped]; [eauto|]. destruct IH as (ms & Q); [intros x I; apply H; now right|]. rewrite Q.
  destruct (H s (or_introl eq_refl)) as [->|(d & ->)]; cbn; eauto.
Qed.
Lemma shaped_none l s : In s l -> data_of s <> VNone -> (forall d, data_of s <> VDict d) -> shaped (fun _ => dict_of) (map (fun s => (s, data_of s)) l) = None.
Proof.
  induction l as [|x l IH]; intros I N D; [contradiction|]. cbn [map shaped]. destruct I as [->|I].
  - destruct (data_of s) eqn:Q; try reflexivity; [congruence|]. exfalso. exact (D _ eq_refl).
  - rewrite (IH I N D). destruct (is_null (data_of x)); [reflexivity|]. now destruct (dict_of (data_of x)).
Qed.
Lemma sub_shut l s : In s l -> no_section s -> sub_paths l = Exn (EOther "NoSectionError").
Proof.
  induction l as [|x l IH]; intros I N; [contradiction|]. cbn [sub_paths]. destruct I as [->|I]; [now rewrite (shut_plain s N)|]. rewrite (IH I N).
  destruct (psource_path x) as [p|e] eqn:Q; [reflexivity|]. f_equal. assert (NX : no_section x \/ ~ no_section x).
  { destruct x as [| |cfg [sec|] d loc]; cbn [no_section]; auto. destruct (alookup cfg sec) as [o|] eqn:A; [right; intros [_ B]; exact (B o (alookup_in _ _ _ A))|].
    destruct sec as [|c sec]; [right; intros [B _]; congruence|]. left. split; [discriminate|]. intros o O. clear -A O. induction cfg as [|[a b] l IH]; [contradiction|]. cbn in A.
    destruct (String.eqb_spec a (String c sec)) as [Z|Z]; [discriminate|]. destruct O as [[= Z' _]|O]; [congruence|]. exact (IH A O). }
  destruct NX as [NX|NX]; [rewrite (shut_plain x NX) in Q; congruence|]. destruct (open_plain x NX) as (p & P). congruence.
Qed.
Lemma open_base E ents b : opens_base E b -> exists p, bsource_path E ents b = Ok p.
Proof.
  intros [s N|u NE PS H]; cbn [bsource_path].
  - destruct (open_plain s N) as (p & ->). eauto.
  - assert (FINE : Forall (fun s => fine E s (data_of s)) (us_srcs u)) by (eapply Forall_impl; [|exact PS]; intros s; apply plain_fine).
    destruct (shaped_some (us_srcs u) H) as (ms & SM).
    assert (ST : start u = Some [NMap ms]) by (unfold start; destruct (us_srcs u); [congruence|]; now rewrite SM).
    destruct (start_ok E ents u FINE _ PS ST) as (p & -> & _). eauto.
Qed.
Lemma shut_base_lem E ents b x : shut_base E b x -> bsource_path E ents b = Exn x.
Proof.
  intros [s N|u Q|u s I N|u s PS I N D]; cbn [bsource_path].
  - now rewrite (shut_plain s N).
  - unfold usource_path. rewrite Q. reflexivity.
  - unfold usource_path. now rewrite (sub_shut _ s I N).
  - rewrite (union_shut E ents u PS); [reflexivity|intros Q; rewrite Q in I; contradiction|].
    unfold start. pose proof (shaped_none (us_srcs u) s I N D) as SN. destruct (us_srcs u); [contradiction|]. now rewrite SN.
Qed.
Lemma C104_opens_lem E ents src : opens E src -> exists p, source_path E ents src = Ok p.
Proof.
  intros [b O|l P H]; cbn [source_path]; [destruct (open_base E ents b O) as (p & ->); eauto|]. rewrite P.
  assert (M : exists ps, mount_paths E ents l = Ok ps).
  { induction l as [|[k b] l IH]; cbn [mount_paths]; [eauto|]. destruct (open_base E ents b (H k b (or_introl eq_refl))) as (p & ->). destruct IH as (ps & ->); [intros k' b' I; apply (H k'); now right|]. eauto. }
  destruct M as (ps & ->). eauto.
Qed.
Lemma C104_shut_lem E ents src x : shut E src x -> source_path E ents src = Exn x.
Proof.
  intros [b y S|l P|l1 k b l2 y P H S]; cbn [source_path]; [now rewrite (shut_base_lem E ents b y S)|now rewrite P|]. rewrite P.
  assert (M : mount_paths E ents (l1 ++ (k, b) :: l2) = Exn y).
  { induction l1 as [|[k' b'] l1 IH]; cbn [app mount_paths]; [now rewrite (shut_base_lem E ents b y S)|]. destruct (open_base E ents b' (H k' b' (or_introl eq_refl))) as (p & ->).
    rewrite IH; [reflexivity|]. intros k2 b2 I. apply (H k2). now right. }
  now rewrite M.
Qed.
Lemma ctx_src_run s c : lookup "src" (stk s) = Some c -> ctx_get "src" s = (Ok c, s).
Proof. intros L. unfold ctx_get, bind, ctx_get_opt, get. now rewrite L. Qed.
Lemma at_top_root s a : at_top s a -> exists c, lookup "src" (stk s) = Some c /\ is_anone a && negb (is_none_c c) = false.
Proof.
  intros AT. assert (X : is_anone a = false \/ exists c, lookup "src" (stk s) = Some c /\ is_none_c c = true) by (destruct a as [|v|src]; [right; exact AT|destruct v; try (left; reflexivity); right; exact AT|left; reflexivity]).
  destruct X as [X|(c & L & Q)]; [|exists c; rewrite Q, andb_false_r; auto].
  assert (L : exists c, lookup "src" (stk s) = Some c) by (destruct a as [|v|src]; [discriminate|destruct v; try exact AT; discriminate|exact AT]). destruct L as (c & L). exists c. now rewrite X.
Qed.
Lemma root_raise W n id t l0 a tg u m s0 x : nth_error (forms s0) id = Some (t, l0) ->
  (root_source t a = Exn x \/ exists src, root_source t a = Ok src /\ forall h, source_path (w_env W) h src = Exn x) ->
  exists s1, root_map W (field_map W n) id a tg u m s0 = (Exn x, s1) /\ stk s1 = stk s0 /\ paths s1 = paths s0 /\ forms s1 = forms s0.
Proof.
  intros N H. unfold root_map. rewrite bind_run. unfold form_type, get. rewrite N. rewrite bind_run. unfold lift. destruct H as [-> |(src & -> & SP)].
  - eexists. split; [reflexivity|]. auto.
  - rewrite bind_run. unfold new_errs. rewrite bind_run. unfold with_ctx, closing, push. cbn [alookup String.eqb Ascii.eqb Bool.eqb]. rewrite bind_run. rewrite SP. eexists. split; [reflexivity|]. auto.
Qed.
Lemma C104_gen W n id t l a tags rs u m s tg gs x : nth_error (forms s) id = Some (t, l) -> at_top s a ->
  (root_source t a = Exn x \/ exists src, root_source t a = Ok src /\ forall h, source_path (w_env W) h src = Exn x) ->
  in_force s tags tg -> choice tg (ft_fields t) gs ->
  let r := Form_map W n id a tags rs u m s in
  fst r = Exn x /\ stk (snd r) = stk s /\ paths (snd r) = paths s /\ nth_error (forms (snd r)) id = Some (t, if rs then without gs l else l) /\
  forall i, i <> id -> nth_error (forms (snd r)) i = nth_error (forms s) i.
Proof.
  intros N AT H IF CH. apply choice_is in CH. subst gs. unfold Form_map.
  destruct (prefix_run W n id t a tags rs u m s l N) as (tg' & s0 & IF' & A1 & A2 & A3 & A4 & A5 & R).
  rewrite (in_force_fun s tags tg tg' IF IF'). rewrite R. clear R. destruct (at_top_root s a AT) as (c & L & Q). rewrite <- A1 in L. rewrite bind_run, (ctx_src_run s0 c L), Q, bind_run.
  destruct (root_raise W n id t _ a tg' u m s0 x A5 H) as (s1 & -> & B1 & B2 & B3). cbn [fst snd]. rewrite B1, B2, B3. auto.
Qed.
Lemma as_root t a src : as_source a src -> root_source t a = Ok src.
Proof. intros []; reflexivity. Qed.
Lemma C104_map_lem W n id t l a src tags rs u m s tg gs x : nth_error (forms s) id = Some (t, l) -> at_top s a -> as_source a src -> shut (w_env W) src x ->
  in_force s tags tg -> choice tg (ft_fields t) gs ->
  let r := Form_map W n id a tags rs u m s in
  fst r = Exn x /\ stk (snd r) = stk s /\ paths (snd r) = paths s /\ nth_error (forms (snd r)) id = Some (t, if rs then without gs l else l) /\
  forall i, i <> id -> nth_error (forms (snd r)) i = nth_error (forms s) i.
Proof.
  intros N AT AS SH IF CH. refine (C104_gen W n id t l a tags rs u m s tg gs x N AT _ IF CH). right. exists src. split; [exact (as_root t a src AS)|]. intros h. exact (C104_shut_lem _ h src x SH).
Qed.
Lemma C104_no_source_lem W n id t l a tags rs u m s tg gs : nth_error (forms s) id = Some (t, l) -> at_top s a -> no_source a ->
  in_force s tags tg -> choice tg (ft_fields t) gs ->
  let r := Form_map W n id a tags rs u m s in
  fst r = Exn (EValue "Invalid src, expected None, dict or Source") /\ stk (snd r) = stk s /\ paths (snd r) = paths s /\ nth_error (forms (snd r)) id = Some (t, if rs then without gs l else l) /\
  forall i, i <> id -> nth_error (forms (snd r)) i = nth_error (forms s) i.
Proof.
  intros N AT NS IF CH. refine (C104_gen W n id t l a tags rs u m s tg gs _ N AT _ IF CH). left. destruct a as [|v|]; try contradiction. destruct v; try contradiction; reflexivity.
Qed.
