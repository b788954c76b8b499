(** * Refine: mapping refines the direct evaluation (C30). *)
From Verif Require Import PyBase PyStr Source Field Context Fields SpecSrc SrcPath Shape Balance Eval.
From Verif Require Export Sim.
From Coq Require Import Lia.

Lemma direct_no_opts : direct_opts no_opts.
Proof. split; cbn; try discriminate; auto. Qed.
Lemma direct_not_in_form id : direct_hook (not_in_form id).
Proof. intros t [|k args]; cbn; [exact I|]. intros [v|e]; exact I. Qed.
Lemma direct_unmapped id kf vf : direct kf -> direct vf -> direct (unmapped_dict id kf vf).
Proof.
  intros A B. constructor; [apply direct_no_opts|]. constructor; auto. intros h [= <-]. apply direct_not_in_form.
Qed.
Lemma direct_plain_string : direct plain_string.
Proof. constructor; [apply direct_no_opts|constructor]. Qed.
Lemma direct_plain_field : direct plain_field.
Proof. constructor; [apply direct_no_opts|constructor]. Qed.
Lemma pdirect_unmapped poly id kf vf : pdirect poly kf -> pdirect poly vf -> pdirect poly (unmapped_dict id kf vf).
Proof.
  intros A B. constructor; [apply direct_no_opts|]. constructor; auto. intros h [= <-]. apply direct_not_in_form.
Qed.
Lemma pdirect_plain_string poly : pdirect poly plain_string.
Proof. constructor; [apply direct_no_opts|constructor]. Qed.
Lemma pdirect_plain_field poly : pdirect poly plain_field.
Proof. constructor; [apply direct_no_opts|constructor]. Qed.

Section Refine.
Variables (W : world) (root : val) (Loc : val -> Prop).
Local Notation E := (w_env W).
Variable src : psource.
Hypothesis RG : regime E src root Loc.
Local Notation R := (psource_resolve E no_ents src []).
Local Notation fold := (fold_r E no_ents src).
Local Notation absorb := (absorbing E src).
Local Notation deep := (deep W root src).
Local Notation loc_ok := (loc_ok W root src).
Local Notation agree := (agree W root src).
Local Notation sim := (sim W root src).
Local Notation startable := (startable W src).

(** ** Values at locations *)
Lemma inside_app ks k : inside_ok E no_ents src root (ks ++ [k]) -> inside_ok E no_ents src root ks.
Proof.
  intros H pre x post E0 NE. apply (H pre x (post ++ [k])); [rewrite E0, <- app_assoc; reflexivity|exact NE].
Qed.
Lemma deep_app ks k : deep (ks ++ [k]) -> deep ks.
Proof. intros [A|I]; [now left|right]. eapply inside_app; eauto. Qed.
Lemma fold_app a b cur : fold cur (a ++ b) = match fold cur a with Ok v => fold v b | Exn e => Exn e end.
Proof. apply fold_r_app. Qed.
Lemma fold_loc ks : Forall plain_key ks -> deep ks -> forall v, fold root ks = Ok v -> Loc v \/ (v = VConst NONE /\ (absorb \/ ks <> [])).
Proof.
  induction ks as [|k ks IH] using rev_ind; intros P D v H.
  - cbn in H. injection H as <-. left. apply (rg_root _ _ _ _ RG).
  - apply Forall_app in P. destruct P as [P Pk]. inversion Pk; subst.
    rewrite fold_app in H. destruct (fold root ks) as [u|e] eqn:Hu; [|discriminate].
    cbn in H. destruct (R u k) as [w|e] eqn:Hw; [|discriminate]. injection H as <-.
    destruct (IH P (deep_app _ _ D) u eq_refl) as [Lu|[-> Hn]].
    + destruct (rg_step _ _ _ _ RG u k w Lu) as [->|Lw]; auto. right. split; [reflexivity|]. right. now destruct ks.
    + right. destruct D as [A|I].
      * rewrite (A k) in Hw by auto. injection Hw as <-. auto.
      * destruct ks as [|k0 ks0] eqn:Ek.
        -- destruct Hn as [A|N]; [|congruence]. rewrite (A k) in Hw by auto. injection Hw as <-. auto.
        -- rewrite <- Ek in *. exfalso. apply (I ks k []); [reflexivity|now rewrite Ek|exact Hu].
Qed.
Lemma fold_ents ents ks : Forall plain_key ks -> deep ks -> fold_r E ents src root ks = fold root ks.
Proof.
  induction ks as [|k ks IH] using rev_ind; intros P D; [reflexivity|].
  apply Forall_app in P. destruct P as [P Pk]. inversion Pk; subst. pose proof (deep_app _ _ D) as D'.
  rewrite fold_app, fold_r_app, IH by auto. destruct (fold root ks) as [u|e] eqn:Hu; [|reflexivity].
  cbn [fold_r]. rewrite (rg_ents _ _ _ _ RG) by
    (auto; destruct (fold_loc ks P D' u Hu) as [L|[-> [A|N]]]; auto; destruct D as [A|I]; auto;
     exfalso; apply (I ks k []); auto). reflexivity.
Qed.

Lemma others_refl eid pid s : others eid pid s s.
Proof. split; auto. Qed.
Lemma others_trans eid pid s1 s2 s3 : others eid pid s1 s2 -> others eid pid s2 s3 -> others eid pid s1 s3.
Proof.
  intros [A B P] [C D Q]. split; [lia| |].
  - intros j L N. rewrite D by (auto; lia). auto.
  - intros j L N. rewrite Q; auto. apply nth_error_Some. rewrite P by auto. now apply nth_error_Some.
Qed.

Lemma sim_ret {A} eid r (a : A) : sim eid r (ret a) (eret a).
Proof. intros s es h G. cbn. auto using others_refl. Qed.
Lemma sim_raise {A} eid r e : sim eid r (@raise A e) (eraise e).
Proof. intros s es h G. cbn. auto using others_refl. Qed.
Lemma sim_lift {A} eid r (x : res A) : sim eid r (lift x) (elift x).
Proof. intros s es h G. cbn. auto using others_refl. Qed.
Lemma sim_bind {A B} eid r (m : M A) e (f : A -> M B) g :
  sim eid r m e -> (forall a, sim eid r (f a) (g a)) -> sim eid r (bind m f) (ebind e g).
Proof.
  intros H K s es h G. unfold bind, ebind. destruct (H s es h G) as (E1 & G1 & S1 & O1).
  destruct (m s) as [x s1]. destruct (e (es, h)) as [y [es1 h1]]. cbn [fst snd] in *. subst y.
  destruct x as [a|e0]; cbn [fst snd]; [|auto].
  destruct (K a s1 es1 h1 G1) as (E2 & G2 & S2 & O2). rewrite S2. eauto using others_trans.
Qed.
Lemma sim_catch {A B} eid r (m : M A) e (f : res A -> M B) g :
  sim eid r m e -> (forall a, sim eid r (f a) (g a)) -> sim eid r (catch m f) (ecatch e g).
Proof.
  intros H K s es h G. unfold catch, ecatch. destruct (H s es h G) as (E1 & G1 & S1 & O1).
  destruct (m s) as [x s1]. destruct (e (es, h)) as [y [es1 h1]]. cbn [fst snd] in *. subst y.
  destruct (K x s1 es1 h1 G1) as (E2 & G2 & S2 & O2). rewrite S2. eauto using others_trans.
Qed.
Lemma sim_if {A} eid r (b : bool) (m1 m2 : M A) e1 e2 :
  sim eid r m1 e1 -> sim eid r m2 e2 -> sim eid r (if b then m1 else m2) (if b then e1 else e2).
Proof. destruct b; auto. Qed.
(** the same thing on both sides, whatever it was *)
Lemma sim_ext {A} eid r (m m' : M A) (e e' : Ev A) :
  (forall s, m s = m' s) -> (forall s, e s = e' s) -> sim eid r m' e' -> sim eid r m e.
Proof. intros H K S s es h G. rewrite H, K. auto. Qed.
Lemma sim_cur_path {A} eid r (f : nat -> M A) e :
  sim eid r (f (r_pid r)) e -> sim eid r (bind cur_path f) e.
Proof.
  intros H s es h G.
  assert (C : bind cur_path f s = f (r_pid r) s).
  { unfold bind, cur_path, bind, ctx_get, ctx_get_opt, get, bind. now rewrite (ag_path _ _ _ _ _ _ _ _ G). }
  rewrite C. auto.
Qed.

(** ** Reading the path *)
Lemma good_ents ents q ks : deep ks -> good_path E no_ents src root plain_key q ks -> good_path E ents src root plain_key q ks.
Proof.
  intros D [A B C F G]. split; auto. intros pre x post v E0 Hv. rewrite fold_ents; [eapply G; eauto| |].
  - unfold pp_keys in C. rewrite E0, map_app in C. cbn in C. rewrite <- C in F. apply Forall_app in F. destruct F as [F1 F2].
    inversion F2; subst. apply Forall_app; auto.
  - clear -D C E0. unfold pp_keys in C. rewrite E0, map_app in C. cbn in C.
    replace (map pk pre ++ pk x :: map pk post) with ((map pk pre ++ [pk x]) ++ map pk post) in C by now rewrite <- app_assoc.
    rewrite <- C in D. clear C. destruct D as [D|D]; [now left|right].
    intros p k po E1 NE. apply (D p k (po ++ map pk post)); [|exact NE]. rewrite E1, <- app_assoc. reflexivity.
Qed.
Lemma good_ents_back ents q ks : deep ks -> good_path E ents src root plain_key q ks -> good_path E no_ents src root plain_key q ks.
Proof.
  intros D [A B C F G]. split; auto. intros pre x post v E0 Hv. change (fold_r E no_ents src root (map pk pre ++ [pk x])) with (fold root (map pk pre ++ [pk x])).
  rewrite <- (fold_ents ents); [eapply G; eauto| |].
  - unfold pp_keys in C. rewrite E0, map_app in C. cbn in C. rewrite <- C in F. apply Forall_app in F. destruct F as [F1 F2].
    inversion F2; subst. apply Forall_app; auto.
  - clear -D C E0. unfold pp_keys in C. rewrite E0, map_app in C. cbn in C.
    replace (map pk pre ++ pk x :: map pk post) with ((map pk pre ++ [pk x]) ++ map pk post) in C by now rewrite <- app_assoc.
    rewrite <- C in D. clear C. destruct D as [D|D]; [now left|right].
    intros p k po E1 NE. apply (D p k (po ++ map pk post)); [|exact NE]. rewrite E1, <- app_assoc. reflexivity.
Qed.
Lemma absorb_ents ents : absorb -> absorbs E ents src plain_key.
Proof. intros A k K. rewrite (rg_ents _ _ _ _ RG) by auto. now apply A. Qed.
Lemma inside_ents ents ks : Forall plain_key ks -> inside_ok E no_ents src root ks -> inside_ok E ents src root ks.
Proof.
  intros P I pre k post E0 NE. rewrite fold_ents; [eapply I; eauto| |].
  - rewrite E0 in P. apply Forall_app in P. tauto.
  - right. intros p x po E1 N1. apply (I p x (po ++ k :: post)); [|exact N1]. rewrite E0, E1, <- app_assoc. reflexivity.
Qed.
Lemma read_spec ents q ks : good_path E no_ents src root plain_key q ks -> deep ks ->
  snd (pp_value E ents q) = fold root ks /\ good_path E no_ents src root plain_key (fst (pp_value E ents q)) ks.
Proof.
  intros G D. pose proof (gp_plain _ _ _ _ _ _ _ G) as P.
  destruct (pp_value_spec E ents src root (fun k c x => rg_ind _ _ _ _ RG ents k c x) plain_key (fun _ H => H) q ks (good_ents ents _ _ D G)) as [A B].
  { destruct D as [A|I]; [left; now apply absorb_ents|right; now apply inside_ents]. }
  split; [rewrite A; now apply fold_ents|]. now apply good_ents_back in B.
Qed.

Lemma replace_hit {A} n (x y : A) l : nth_error l n = Some y -> nth_error (replace_nth n x l) n = Some x.
Proof. intros H. apply nth_replace_eq. apply nth_error_Some. congruence. Qed.

(** reading changes only the caches of the current path *)
Lemma sim_read {A} eid r (op : env -> entries_of -> path -> path * res A) (e : Ev A) :
  (forall s es h q, agree eid r s es h -> good_path E no_ents src root plain_key q (r_keys r) ->
     e (es, h) = (snd (op E (entries s) (PBase (BP q))), (es, h)) /\
     exists q', fst (op E (entries s) (PBase (BP q))) = PBase (BP q') /\ good_path E no_ents src root plain_key q' (r_keys r)) ->
  sim eid r (on_path W (r_pid r) op) e.
Proof.
  intros H s es h G. unfold on_path. destruct (ag_loc _ _ _ _ _ _ _ _ G) as (p & Np & [Ls Ld Lv (q & -> & Gq)]).
  rewrite Np. fold E. destruct (H s es h q G Gq) as (He & q' & Hq & Gq').
  destruct (op E (entries s) (PBase (BP q))) as [p' x]. cbn [fst snd] in *. rewrite He. cbn [fst snd]. split; [reflexivity|].
  split; [|split; [reflexivity|split; cbn; auto; intros j _ N; apply nth_replace_neq; congruence]].
  destruct G as [G1 G2 G3 G4 G5 G6 G7 G8 G9 G10 G11]. split; cbn; auto.
  exists p'. split; [eapply replace_hit; eauto|]. split; auto. subst p'. eauto.
Qed.
Ltac read_tac r s q Va Gp Ls Ld Lv Gq :=
  apply sim_read; let es := fresh "es" in let h := fresh "h" in let G := fresh "G" in let p0 := fresh "p" in intros s es h q G Gq;
  destruct (ag_loc _ _ _ _ _ _ _ _ G) as (p0 & _ & [Ls Ld Lv _]);
  destruct (read_spec (entries s) q (r_keys r) Gq Ld) as [Va Gp].
Lemma gp_srcs q ks : good_path E no_ents src root plain_key q ks -> pp_src q = src.
Proof. intros []; auto. Qed.
Lemma sim_value eid r : sim eid r (path_value W (r_pid r)) (ev_value r).
Proof.
  read_tac r s q Va Gp Ls Ld Lv Gq. cbn [p_value]. unfold bp_value, on_bp. unfold ev_value, on_val, elift. rewrite Lv, <- Va.
  destruct (pp_value E (entries s) q) as [q' x]. cbn [fst snd] in *. split; [destruct x; reflexivity|eauto].
Qed.
Lemma sim_exists eid r : sim eid r (path_exists W (r_pid r)) (ev_exists r).
Proof.
  read_tac r s q Va Gp Ls Ld Lv Gq. cbn [p_exists]. unfold bp_exists, on_bp, pp_exists. unfold ev_exists, on_val, elift. rewrite Lv, <- Va.
  destruct (pp_value E (entries s) q) as [q' x]. cbn [fst snd] in *. split; [destruct x; reflexivity|eauto].
Qed.
Lemma sim_is_null eid r : sim eid r (path_is_null W (r_pid r)) (ev_null r).
Proof.
  read_tac r s q Va Gp Ls Ld Lv Gq. cbn [p_is_null]. unfold bp_is_null, on_bp, pp_is_null. unfold ev_null, on_val, elift. rewrite Lv, <- Va.
  destruct (pp_value E (entries s) q) as [q' x]. cbn [fst snd] in *. split; [destruct x; reflexivity|eauto].
Qed.
Lemma sim_primitive eid r t : sim eid r (path_primitive W t (r_pid r)) (ev_primitive W r t).
Proof.
  read_tac r s q Va Gp Ls Ld Lv Gq. cbn [p_primitive]. unfold bp_primitive, on_bp, pp_primitive. unfold ev_primitive, on_val, elift. rewrite Lv, <- Va, Ls, (gp_srcs _ _ Gq).
  destruct (pp_value E (entries s) q) as [q' x]. cbn [fst snd] in *. split; [destruct x; reflexivity|eauto].
Qed.
Lemma sim_sequence eid r : sim eid r (path_sequence W (r_pid r)) (ev_sequence W r).
Proof.
  read_tac r s q Va Gp Ls Ld Lv Gq. cbn [p_sequence]. unfold bp_sequence, on_bp, pp_sequence. unfold ev_sequence, on_val, elift. rewrite Lv, <- Va, Ls, (gp_srcs _ _ Gq).
  destruct (pp_value E (entries s) q) as [q' x]. cbn [fst snd] in *. split; [destruct x; reflexivity|eauto].
Qed.
Lemma map_none ents d : psource_mapping E ents src d (VConst NONE) = psource_mapping E no_ents src d (VConst NONE).
Proof. destruct src; cbn; reflexivity. Qed.
Lemma sim_mapping eid r : sim eid r (path_mapping W (r_pid r)) (ev_mapping W r).
Proof.
  read_tac r s q Va Gp Ls Ld Lv Gq. cbn [p_mapping]. unfold bp_mapping, on_bp, pp_mapping. unfold ev_mapping, on_val, elift. rewrite Lv, <- Va, Ls, (gp_srcs _ _ Gq).
  assert (Lk : length (pp_parts q) = length (r_keys r)) by (rewrite <- (gp_keys _ _ _ _ _ _ _ Gq); unfold pp_keys; now rewrite map_length).
  destruct (pp_value E (entries s) q) as [q' x]. cbn [fst snd] in *. split; [|eauto].
  destruct x as [v|e0]; [|reflexivity]. rewrite Lk. fold E. symmetry in Va.
  destruct (fold_loc (r_keys r) (gp_plain _ _ _ _ _ _ _ Gq) Ld v Va) as [L|[-> _]];
    [now rewrite (rg_map_ents _ _ _ _ RG (entries s))|now rewrite (map_none (entries s))].
Qed.

(** ** Forms *)
Ltac same_state := intros s es h G; cbn; split; [|split; [exact G|split; [reflexivity|apply others_refl]]].
Lemma sim_entries eid r id : sim eid r (form_entries id) (ev_entries id).
Proof. same_state. unfold entries, hents. now rewrite (ag_forms _ _ _ _ _ _ _ _ G). Qed.
Lemma sim_type eid r id : sim eid r (form_type id) (ev_type id).
Proof. same_state. now rewrite (ag_forms _ _ _ _ _ _ _ _ G). Qed.
Lemma sim_set_entries eid r id l : sim eid r (set_entries id l) (ev_set_entries id l).
Proof.
  intros s es h G. unfold set_entries, ev_set_entries. cbn [snd fst]. rewrite (ag_forms _ _ _ _ _ _ _ _ G).
  destruct (nth_error h id) as [[t l0]|] eqn:N; cbn [fst snd]; [|auto using others_refl].
  split; [reflexivity|]. split; [|split; [reflexivity|split; cbn; auto]].
  destruct G; split; cbn; auto.
Qed.
Lemma sim_form_set eid r id k v : sim eid r (form_set id k v) (ev_set id k v).
Proof. apply sim_bind; [apply sim_entries|]. intros l. apply sim_set_entries. Qed.
Lemma sim_new_form eid r t : sim eid r (new_form t) (ev_new t).
Proof.
  intros s es h G. unfold new_form, ev_new. cbn [fst snd]. rewrite (ag_forms _ _ _ _ _ _ _ _ G).
  split; [reflexivity|]. split; [|split; [reflexivity|split; cbn; auto]].
  destruct G; split; cbn; auto.
Qed.
Lemma sim_delete eid r f id : sim eid r (field_delete f id) (ev_del f id).
Proof.
  apply sim_bind; [apply sim_entries|]. intros l. apply sim_if; [apply sim_set_entries|apply sim_ret].
Qed.
Lemma sim_setattr eid r id a v : sim eid r (form_setattr id a v) (ev_setattr id a v).
Proof.
  apply sim_bind; [apply sim_type|]. intros t. destruct (find_field a t); [apply sim_form_set|apply sim_ret].
Qed.
Lemma sim_delattr eid r id a : sim eid r (form_delattr id a) (ev_delattr id a).
Proof.
  apply sim_bind; [apply sim_type|]. intros t. destruct (find_field a t); [apply sim_delete|apply sim_raise].
Qed.
Lemma sim_item eid r id k : sim eid r (item_of id k) (ev_item id k).
Proof.
  apply sim_if; [|apply sim_raise]. apply sim_bind; [apply sim_entries|]. intros l.
  destruct (dict_get l k); [apply sim_ret|apply sim_raise].
Qed.

(** ** Errors *)
Lemma sim_report eid r kd : sim eid r (report W kd) (ev_report W r kd).
Proof.
  intros s es h G. unfold report, bind, ctx_get, ctx_get_opt, get, bind. rewrite (ag_errs _ _ _ _ _ _ _ _ G). cbn [ret].
  unfold ev_report. pose proof (ag_field _ _ _ _ _ _ _ _ G) as Gf.
  destruct (lookup "field" (stk s)) as [c|] eqn:Lf; cbn [field_seen] in Gf.
  2:{ rewrite <- Gf. cbn. auto using others_refl. }
  cbn [ret]. destruct c; try (rewrite <- Gf; cbn; now auto using others_refl). rewrite <- Gf.
  unfold path_text, bind, ctx_get, ctx_get_opt, get, bind. rewrite (ag_path _ _ _ _ _ _ _ _ G). cbn [ret].
  destruct (ag_loc _ _ _ _ _ _ _ _ G) as (p & Np & [Ls Ld Lv (q & -> & Gq)]).
  unfold on_path. rewrite Np. cbn [p_str bp_str]. unfold pp_str. rewrite (gp_srcs _ _ Gq), (gp_keys _ _ _ _ _ _ _ Gq), Ls. fold E.
  assert (RN : replace_nth (r_pid r) (PBase (BP q)) (paths s) = paths s) by now apply replace_same.
  rewrite RN.
  destruct (pkeys_str E src (r_keys r)) as [t|e]; cbn [fst snd ret].
  2:{ destruct s; cbn. auto using others_refl. }
  unfold call_errs, bind, extend_errs. cbn [stk forms paths errs]. rewrite (ag_list _ _ _ _ _ _ _ _ G). cbn [errs].
  pose proof (replace_hit eid (r_mode r, es ++ [MkErr kd t (f_name f) (Some (r_pid r))]) _ _ (ag_list _ _ _ _ _ _ _ _ G)) as RS.
  unfold get. cbn [errs]. rewrite RS.
  assert (GG : agree eid r (St (stk s) (forms s) (paths s) (replace_nth eid (r_mode r, es ++ [MkErr kd t (f_name f) (Some (r_pid r))]) (errs s)))
                 (es ++ [MkErr kd t (f_name f) (Some (r_pid r))]) h).
  { pose proof (lo_val) as _. destruct G as [G1 G2 G3 G4 G5 G6 G7 G8 G9 G10 G11]. split; cbn; auto. }
  assert (OO : others eid (r_pid r) s (St (stk s) (forms s) (paths s) (replace_nth eid (r_mode r, es ++ [MkErr kd t (f_name f) (Some (r_pid r))]) (errs s)))).
  { split; cbn; [now rewrite replace_nth_length| |auto]. intros j _ N. apply nth_replace_neq. congruence. }
  destruct (r_mode r); cbn [fst snd ret raise]; auto.
Qed.
Lemma sim_invalid eid r x : sim eid r (invalid_error W x) (ev_invalid W r x).
Proof. apply sim_bind; [apply sim_report|]. intros. apply sim_ret. Qed.
Lemma sim_ctx_bool eid r k b f e :
  (forall s es h, agree eid r s es h -> exists c, lookup k (stk s) = Some c /\ truthy_c c = b) ->
  sim eid r (if b then f true else f false) e ->
  sim eid r (c <- ctx_get k; (f (truthy_c c) : M val))%m e.
Proof.
  intros H S s es h G. destruct (H s es h G) as (c & L & T).
  assert (C : bind (ctx_get k) (fun c => f (truthy_c c)) s = f b s).
  { unfold bind, ctx_get, ctx_get_opt, get, bind. rewrite L. cbn. now rewrite T. }
  rewrite C. specialize (S s es h G). destruct b; exact S.
Qed.
Lemma sim_missing eid r : sim eid r (report_missing_unless_ignored W) (ev_missing W r).
Proof.
  unfold report_missing_unless_ignored, ev_missing.
  apply (sim_ctx_bool eid r "ignore_missing" (r_igm r) (fun b => (if b then ret tt else report W Missing);; ret NOTSETv)).
  - intros s es h G. exact (ag_igm _ _ _ _ _ _ _ _ G).
  - destruct (r_igm r); (apply sim_bind; [|intros; apply sim_ret]); [apply sim_ret|apply sim_report].
Qed.

(** ** Hooks *)
Section Rec.
Variable rec : field -> val -> M val.
Lemma sim_form_target eid r :
  sim eid r (c <- ctx_get "form"; match c with CForm i => ret (VForm i) | CVal v => ret v | _ => ret VNone end) (elift (r_form r)).
Proof.
  intros s es h G. pose proof (ag_form _ _ _ _ _ _ _ _ G) as F. unfold bind, ctx_get, ctx_get_opt, get, bind, elift.
  destruct (lookup "form" (stk s)) as [c|]; cbn [form_seen] in F; rewrite <- F; [|cbn; auto using others_refl].
  destruct c; cbn; auto using others_refl.
Qed.
Lemma sim_pathop eid r op : sim eid r (run_pathop W op) (ev_pathop W r op).
Proof.
  unfold run_pathop. apply sim_cur_path. destruct op; cbn [ev_pathop].
  - apply sim_value.
  - apply sim_bind; [apply sim_exists|intros; apply sim_ret].
  - apply sim_bind; [apply sim_is_null|intros; apply sim_ret].
  - apply sim_primitive.
  - apply sim_bind; [apply sim_sequence|intros; apply sim_ret].
  - apply sim_bind; [apply sim_mapping|intros]. apply sim_bind; [apply sim_lift|intros; apply sim_ret].
Qed.
Lemma sim_unit eid r m e : sim eid r m e -> sim eid r (unit_val m) (ev_unit e).
Proof. intros H. apply sim_bind; [exact H|]. intros. apply sim_ret. Qed.
Lemma sim_prog eid r p : direct_prog p -> sim eid r (run W rec p) (ev_prog W r p).
Proof.
  induction p; cbn [direct_prog run ev_prog]; intros D; try contradiction.
  - apply sim_ret.
  - apply sim_raise.
  - apply sim_catch; [apply sim_form_target|auto].
  - apply sim_catch; [apply sim_unit, sim_setattr|auto].
  - apply sim_catch; [apply sim_unit, sim_delattr|auto].
  - apply sim_catch; [apply sim_item|auto].
  - apply sim_catch; [apply sim_pathop|auto].
  - apply sim_catch; [apply sim_unit, sim_report|auto].
  - apply sim_catch; [apply sim_unit, sim_report|auto].
Qed.
Lemma sim_hook eid r h args : direct_hook h -> sim eid r (call_hook W rec h args) (ev_hook W r h args).
Proof.
  intros D. apply sim_bind; [|intros t; apply sim_prog, D].
  destruct (hk_attached h); [apply sim_ret|apply sim_form_target].
Qed.

(** ** After a value has been found *)
Lemma sim_default eid r f : direct_opts (f_opts f) -> sim eid r (field_default W rec f) (ev_default W r f).
Proof.
  intros Do. destruct f as [o k]. unfold field_default, ev_default.
  set (rest := match o_default (f_opts (MkField o k)) with
               | DVal (VConst NOTSET) => report_missing_unless_ignored W
               | DVal v => ret v | DUnset (Some h) => call_hook W rec h []
               | DUnset None => report_missing_unless_ignored W | DCall p => run W rec p end).
  apply (sim_ctx_bool eid r "ignore_default" (r_igd r) (fun b => if b then report_missing_unless_ignored W else rest)).
  - intros s es h G. exact (ag_igd _ _ _ _ _ _ _ _ G).
  - destruct (r_igd r); [apply sim_missing|]. subst rest. pose proof (do_default _ Do) as DD. cbn [f_opts] in *.
    destruct (o_default o) as [[h|]|v|p]; [apply sim_hook; now apply DD|apply sim_missing| |now apply sim_prog].
    destruct v; try apply sim_ret. destruct c; try apply sim_ret. apply sim_missing.
Qed.
Lemma sim_translate eid r f v : sim eid r (field_munge f v) (ev_translate f v).
Proof.
  unfold field_munge, ev_translate. destruct (o_translations (f_opts f)); [apply sim_ret|].
  apply sim_if; [apply sim_ret|apply sim_raise].
Qed.
Lemma sim_validate eid r f v : sim eid r (field_validate W f v) (ev_validate W r f v).
Proof.
  intros s es h G. unfold field_validate, ev_validate, bind. cbn [snd].
  assert (HE : entries s = hents h) by (unfold entries, hents; now rewrite (ag_forms _ _ _ _ _ _ _ _ G)).
  rewrite HE. fold E. destruct (field_violation E (hents h) f v) as [[x|]|e]; cbn [fst snd ret]; auto using others_refl.
  exact (sim_bind eid r _ _ _ _ (sim_report eid r (Invalid x)) (fun _ => sim_ret eid r false) s es h G).
Qed.
Lemma sim_hook_or {A} eid r o args (d : A) (g : val -> A) : direct_ohook o ->
  sim eid r (match o with Some h => v <- call_hook W rec h args; ret (g v) | None => ret d end) (ev_hook_or W r o args d g).
Proof.
  intros D. destruct o as [h|]; cbn [ev_hook_or]; [|apply sim_ret].
  apply sim_bind; [apply sim_hook; now apply D|intros; apply sim_ret].
Qed.
Lemma bind_ret {A} (m : M A) s : bind m ret s = m s.
Proof. unfold bind. destruct (m s) as [[a|e] s']; reflexivity. Qed.
Lemma sim_after eid r f v : direct_opts (f_opts f) -> sim eid r (field_after W rec f v) (ev_after W r f v).
Proof.
  intros Do. destruct f as [o k]. unfold field_after, ev_after. cbn [f_opts] in *.
  apply sim_bind; [apply sim_translate|intros v1].
  apply sim_bind.
  - eapply sim_ext with (m' := if ignored v1 then ret v1 else match o_munge o with Some h => v <- call_hook W rec h [v1]; ret v | None => ret v1 end).
    + intros s. destruct (o_munge o) as [h|]; destruct (ignored v1); try reflexivity. now rewrite bind_ret.
    + reflexivity.
    + destruct (ignored v1); [apply sim_ret|]. apply (sim_hook_or eid r (o_munge o) [v1] v1 (fun w => w)), Do.
  - intros v2. apply sim_if; [now apply sim_default|]. apply sim_if; [apply sim_ret|]. apply sim_if; [now apply sim_default|].
    apply sim_bind; [apply sim_hook_or, Do|intros b1]. apply sim_if; [now apply sim_default|].
    apply sim_bind; [apply sim_validate|intros b2]. apply sim_if; [apply sim_ret|].
    apply sim_bind; [apply sim_hook_or, Do|intros b3]. destruct b3; apply sim_ret.
Qed.
End Rec.

(** ** Unless the evaluator gives up *)
Section Weak.
Variable poly : Prop.
Local Notation wsim := (wsim W root src poly).
Lemma wsim_of {A} eid r (m : M A) e : sim eid r m e -> wsim eid r m e.
Proof. intros H s es h G. right. auto. Qed.
Lemma wsim_bind {A B} eid r (m : M A) e (f : A -> M B) g :
  wsim eid r m e -> (forall a, wsim eid r (f a) (g a)) -> wsim eid r (bind m f) (ebind e g).
Proof.
  intros H K s es h G. unfold bind, ebind. destruct (H s es h G) as [[P U]|(E1 & G1 & S1 & O1)].
  - left. split; [exact P|]. destruct (e (es, h)) as [y [es1 h1]]. cbn [fst] in U. now subst y.
  - destruct (m s) as [x s1]. destruct (e (es, h)) as [y [es1 h1]]. cbn [fst snd] in *. subst y.
    destruct x as [a|e0]; cbn [fst snd]; [|right; auto].
    destruct (K a s1 es1 h1 G1) as [L|(E2 & G2 & S2 & O2)]; [now left|]. right. rewrite S2. eauto using others_trans.
Qed.
Lemma wsim_catch {A B} eid r (m : M A) e (f : res A -> M B) g : (forall s, fst (g (Exn unevaluated) s) = Exn unevaluated) ->
  wsim eid r m e -> (forall a, wsim eid r (f a) (g a)) -> wsim eid r (catch m f) (ecatch e g).
Proof.
  intros U H K s es h G. unfold catch, ecatch. destruct (H s es h G) as [[P Q]|(E1 & G1 & S1 & O1)].
  - left. split; [exact P|]. destruct (e (es, h)) as [y [es1 h1]]. cbn [fst] in Q. subst y. apply U.
  - destruct (m s) as [x s1]. destruct (e (es, h)) as [y [es1 h1]]. cbn [fst snd] in *. subst y.
    destruct (K x s1 es1 h1 G1) as [L|(E2 & G2 & S2 & O2)]; [now left|]. right. rewrite S2. eauto using others_trans.
Qed.
Lemma wsim_if {A} eid r (b : bool) (m1 m2 : M A) e1 e2 :
  wsim eid r m1 e1 -> wsim eid r m2 e2 -> wsim eid r (if b then m1 else m2) (if b then e1 else e2).
Proof. destruct b; auto. Qed.
Lemma wsim_ext {A} eid r (m m' : M A) (e e' : Ev A) :
  (forall s, m s = m' s) -> (forall s, e s = e' s) -> wsim eid r m' e' -> wsim eid r m e.
Proof. intros H K S s es h G. rewrite H, K. auto. Qed.
Lemma wsim_cur_path {A} eid r (f : nat -> M A) e :
  wsim eid r (f (r_pid r)) e -> wsim eid r (bind cur_path f) e.
Proof.
  intros H s es h G.
  assert (C : bind cur_path f s = f (r_pid r) s).
  { unfold bind, cur_path, bind, ctx_get, ctx_get_opt, get, bind. now rewrite (ag_path _ _ _ _ _ _ _ _ G). }
  rewrite C. auto.
Qed.

(** ** Blocks *)
Definition same_place (r r' : rd) : Prop :=
  r_src r' = r_src r /\ r_pid r' = r_pid r /\ r_mode r' = r_mode r /\ r_keys r' = r_keys r /\ r_val r' = r_val r.
Lemma with_plain {A} kw (m : M A) s : alookup kw "src" = None ->
  with_ctx W kw m s = (let xs := m (St (kw :: stk s) (forms s) (paths s) (errs s)) in
                       match restore W (snd xs) with (Exn e, s3) => (Exn e, s3) | (Ok _, s3) => (fst xs, s3) end).
Proof. intros H. unfold with_ctx, closing, push. rewrite H. cbn. destruct (m _); reflexivity. Qed.
(** a block that sets variables other than [src] and [errors] *)
Lemma sim_with {A} eid r r' kw (m : M A) e :
  alookup kw "src" = None -> same_place r r' ->
  (forall s es h, agree eid r s es h -> agree eid r' (St (kw :: stk s) (forms s) (paths s) (errs s)) es h) ->
  wsim eid r' m e -> wsim eid r (with_ctx W kw m) e.
Proof.
  intros NS (P1 & P2 & P3 & P4 & P5) HG H s es h G. rewrite with_plain by exact NS. cbv zeta.
  destruct (H _ es h (HG s es h G)) as [L|(E1 & G1 & S1 & O1)]; [now left|right].
  set (s1 := St (kw :: stk s) (forms s) (paths s) (errs s)) in *.
  destruct (m s1) as [x s2]. destruct (e (es, h)) as [y [es2 h2]]. cbn [fst snd] in *.
  unfold restore. rewrite S1. cbn [stk s1]. unfold bind, set_stk.
  assert (NK : has_key "src" kw = false) by (unfold has_key; now rewrite NS). rewrite NK. cbn [andb ret fst snd].
  split; [exact E1|]. split; [|split; [reflexivity|rewrite P2 in O1; destruct O1; split; auto]].
  destruct G as [G1' G2 G3 G4 G5 G6 G7 G8 G9 G10 G11].
  destruct G1 as [H1 H2 H3 H4 H5 H6 H7 H8 H9 H10 (p & Hp & [L1 L2 L3 L4])]. split; cbn; auto.
  - rewrite H5. now rewrite P3.
  - rewrite P2 in Hp. exists p. split; [exact Hp|]. split; rewrite ?P1, ?P4, ?P5 in *; auto.
Qed.
Lemma rest_deep r k : startable r -> r_val r = fold root (r_keys r) -> deep (r_keys r) -> deep (r_keys r ++ [k]).
Proof.
  intros (v & Hv & [A|N]) Hf [A'|I]; try (now left). right. intros pre x post E0 NE.
  destruct post as [|y post] using rev_ind.
  - apply app_inj_tail in E0. destruct E0 as [<- ->]. change (fold_r E no_ents src root (r_keys r)) with (fold root (r_keys r)).
    rewrite <- Hf, Hv. intros [= ->]. discriminate.
  - rewrite app_comm_cons, app_assoc in E0. apply app_inj_tail in E0. destruct E0 as [E0 _]. apply (I pre x post); auto.
Qed.
Lemma with_key {A} k pid q (m : M A) s :
  lookup "src_path" (stk s) = Some (CPath pid) -> nth_error (paths s) pid = Some (PBase (BP q)) ->
  with_ctx W [("src", CKey k)] m s =
  (let xs := m (St ([("src", CKey k)] :: stk s) (forms s) (replace_nth pid (PBase (BP (pp_append k q))) (paths s)) (errs s)) in
   match restore W (snd xs) with (Exn e, s3) => (Exn e, s3) | (Ok _, s3) => (fst xs, s3) end).
Proof.
  intros L N. unfold with_ctx, closing, push. cbn [alookup]. rewrite String.eqb_refl.
  unfold bind, cur_path, bind, ctx_get, ctx_get_opt, get, bind. rewrite L. cbn [ret]. unfold on_path. rewrite N. cbn.
  destruct (m _); reflexivity.
Qed.
(** a block that goes one key down *)
Lemma sim_down {A} eid r k (m : M A) e : plain_key k -> startable r ->
  wsim eid (r_at W r k) m e -> wsim eid r (with_ctx W [("src", CKey k)] m) e.
Proof.
  intros PK ST H s es h G.
  pose proof G as G0. destruct G0 as [G1 G2 G3 G4 G5 G6 G7 G8 G9 G10 (p & Np & [Ls Ld Lv (q & -> & Gq)])].
  rewrite (with_key k (r_pid r) q m s G2 Np). cbv zeta.
  set (s1 := St ([("src", CKey k)] :: stk s) (forms s) (replace_nth (r_pid r) (PBase (BP (pp_append k q))) (paths s)) (errs s)).
  assert (GA : agree eid (r_at W r k) s1 es h).
  { split; cbn [s1 stk forms paths errs r_at r_src r_pid r_mode r_igd r_igm r_tags r_form r_field r_keys r_val lookup alookup]; auto.
    - exists (CKey k). split; [reflexivity|]. destruct k; [reflexivity|reflexivity|contradiction].
    - eexists. split; [eapply replace_hit; eauto|]. split; cbn [r_at r_src r_keys r_val]; auto.
      + now apply rest_deep.
      + unfold r_child. rewrite Lv, Ls, fold_app. destruct (fold root (r_keys r)); [|reflexivity]. cbn [fold_r]. unfold fold. cbn [fold_r].
        fold E. destruct (psource_resolve E no_ents src [] a k); reflexivity.
      + exists (pp_append k q). split; [reflexivity|]. destruct Gq as [Q1 Q2 Q3 Q4 Q5]. unfold pp_append. split; cbn [pp_src pp_root pp_parts]; auto.
        * unfold pp_keys in *. cbn [pp_parts]. rewrite map_app. now rewrite Q3.
        * apply Forall_app; auto.
        * intros pre x post v E0 Hv. destruct post as [|y post] using rev_ind.
          -- apply app_inj_tail in E0. destruct E0 as [_ <-]. discriminate.
          -- rewrite app_comm_cons, app_assoc in E0. apply app_inj_tail in E0. destruct E0 as [E0 _]. eapply Q5; eauto. }
  destruct (H s1 es h GA) as [L|(E1 & GB & S1 & O1)]; [now left|right].
  destruct (m s1) as [x s2]. destruct (e (es, h)) as [y [es2 h2]]. cbn [fst snd] in *.
  unfold restore. rewrite S1. cbn [stk s1]. unfold bind, set_stk, has_key. cbn [alookup]. rewrite String.eqb_refl.
  destruct (String.eqb_spec "src" "src_path"); [discriminate|]. cbn [andb negb].
  unfold cur_path, bind, ctx_get, ctx_get_opt, get, bind. cbn [stk]. rewrite G2. cbn [ret].
  destruct GB as [H1 H2 H3 H4 H5 H6 H7 H8 H9 H10 (p & Hp & [L1 L2 L3 (q2 & -> & Gq2)])].
  cbn [r_at r_pid r_keys r_src r_mode] in *.
  unfold on_path. cbn [paths]. rewrite Hp. cbn [p_pop bp_pop]. unfold bp_pop, on_bp, pp_pop.
  destruct Gq2 as [Q1 Q2 Q3 Q4 Q5].
  destruct (pp_parts q2) as [|pa pl] eqn:Ep; [unfold pp_keys in Q3; rewrite Ep in Q3; cbn in Q3; destruct (r_keys r); discriminate|].
  destruct (exists_last (l := pa :: pl) ltac:(discriminate)) as (ps & z & Ez). rewrite Ez, removelast_last.
  cbn [fst snd]. split; [exact E1|].
  assert (OO : others eid (r_pid r) s (St (stk s) (forms s2) (replace_nth (r_pid r) (PBase (BP (Source.PPath (pp_src q2) (pp_root q2) ps))) (paths s2)) (errs s2))).
  { destruct O1 as [Oa Ob Oc]. cbn [s1 errs paths r_at r_pid] in *. split; cbn [errs paths]; auto.
    intros j Lj Nj. rewrite nth_replace_neq by congruence. rewrite Oc by (rewrite ?replace_nth_length; auto). now rewrite nth_replace_neq by congruence. }
  split; [|split; [reflexivity|exact OO]]. clear OO.
  unfold pp_keys in Q3. rewrite Ep, Ez, map_app in Q3. apply app_inj_tail in Q3. destruct Q3 as [Q3 _].
  split; cbn [stk forms paths errs]; auto.
  eexists. split; [eapply replace_hit; eauto|]. split; auto.
  eexists. split; [reflexivity|]. split; cbn [pp_src pp_root pp_parts]; auto.
  - apply Gq.
  - rewrite Ez in Q5. eapply coherent_prefix; eauto.
Qed.

(** the value here is there and is the one at this location *)
Definition here (r : rd) (v : val) : Prop := r_src r = src /\ r_val r = Ok v /\ Loc v.

(** ** Everything that recurses *)
Section Knot.
Variables (rec : field -> val -> M val) (erec : rd -> field -> val -> Ev val).
Hypothesis REC : forall eid r f v, pdirect poly f -> startable r -> wsim eid r (rec f v) (erec r f v).
Hypothesis POLY : poly -> forall probe tf table rs u, pdirect_form poly probe -> pdirect_unm poly u ->
  forall eid r v, here r v -> wsim eid r (parse_poly W rec probe tf table rs u (r_pid r)) (ev_poly W erec r probe tf table rs u).

Lemma startable_at r k w : r_child W r k = Ok w -> (absorb \/ is_NONE w = false) -> startable (r_at W r k).
Proof. intros H K. exists w. auto. Qed.
Lemma sim_map_at eid r k f : pdirect poly f -> plain_key k -> startable r -> startable (r_at W r k) ->
  wsim eid r (map_at W rec k f) (erec (r_at W r k) f NONEv).
Proof. intros D K S S'. apply sim_down; auto. Qed.

Lemma here_startable r v : here r v -> startable r.
Proof. intros (_ & H & L). exists v. split; [exact H|]. right. now apply (rg_some _ _ _ _ RG). Qed.
Lemma here_seq r v n i : here r v -> psource_sequence E src v = Ok n -> 0 <= i < Z.of_nat n -> startable (r_at W r (KInt i)).
Proof.
  intros (S & H & L) Q B. destruct (rg_seq _ _ _ _ RG v n i L Q B) as (w & Hw & K).
  apply (startable_at r (KInt i) w); [|exact K]. unfold r_child. rewrite H, S. exact Hw.
Qed.
Lemma sim_list eid r f v : pdirect poly f -> here r v -> forall n i acc total,
  psource_sequence E src v = Ok total -> 0 <= i -> i + Z.of_nat n <= Z.of_nat total ->
  wsim eid r (list_items W rec i n f acc) (ev_list W erec r i n f acc).
Proof.
  intros D H. induction n as [|n IH]; intros i acc total Q P B; cbn [list_items ev_list]; [apply wsim_of, sim_ret|].
  apply wsim_bind.
  - apply sim_map_at; auto; [exact I|eapply here_startable; eauto|eapply here_seq; eauto; lia].
  - intros w. eapply IH; eauto; lia.
Qed.
Lemma sim_tuple eid r v : here r v -> forall fs i acc total, (forall f, In f fs -> pdirect poly f) ->
  psource_sequence E src v = Ok total -> 0 <= i -> i + Z.of_nat (length fs) <= Z.of_nat total ->
  wsim eid r (tuple_items W rec i fs acc) (ev_tuple W erec r i fs acc).
Proof.
  intros H. induction fs as [|f fs IH]; intros i acc total D Q P B; cbn [tuple_items ev_tuple length] in *; [apply wsim_of, sim_ret|].
  apply wsim_bind.
  - apply sim_map_at; [apply D; now left|exact I|eapply here_startable; eauto|eapply here_seq; eauto; lia].
  - intros w. eapply IH; eauto; try lia. intros g I. apply D. now right.
Qed.
Definition good_keys (r : rd) (l : list val) : Prop :=
  forall k, In k l -> plain_key (key_of_val k) /\ startable (r_at W r (key_of_val k)).
Lemma here_map r v d l : here r v -> psource_mapping E no_ents src d v = Ok (Ok l) -> good_keys r l.
Proof.
  intros (S & H & L) Q k I. destruct (rg_map _ _ _ _ RG v d l k L Q I) as (P & w & Hw & K).
  split; [exact P|]. apply (startable_at r _ w); [|exact K]. unfold r_child. rewrite H, S. exact Hw.
Qed.
Lemma sim_accept eid r keyf k : direct_ohook keyf -> wsim eid r (key_accepted W rec keyf k) (ev_accept W r keyf k).
Proof. intros D. apply wsim_of, (sim_hook_or rec eid r keyf [k] true truthy D). Qed.
Lemma sim_dict eid r keyf kf vf : direct_ohook keyf -> pdirect poly kf -> pdirect poly vf -> startable r -> forall l acc, good_keys r l ->
  wsim eid r (dict_items W rec keyf kf vf l acc) (ev_dict W erec r keyf kf vf l acc).
Proof.
  intros Dh Dk Dv S. induction l as [|k l IH]; intros acc GK; cbn [dict_items ev_dict]; [apply wsim_of, sim_ret|].
  assert (GK' : good_keys r l) by (intros x I; apply GK; now right).
  destruct (GK k (or_introl eq_refl)) as [P SK].
  apply wsim_bind; [now apply sim_accept|intros b]. apply wsim_if; [auto|].
  apply wsim_bind; [now apply sim_map_at|intros v]. apply wsim_if; [auto|].
  apply wsim_bind; [now apply REC|intros k']. apply wsim_if; [auto|]. apply wsim_if; [auto|apply wsim_of, sim_raise].
Qed.
Lemma group_In l k f c : group_match W l k = Ok (Some (f, c)) -> exists m, In (m, f) l.
Proof.
  induction l as [|[m g] l IH]; cbn [group_match]; [discriminate|].
  destruct m as [s|p].
  - destruct (py_eq (VStr s) k); [intros [= <- _]; exists (GName s); now left|]. intros H. destruct (IH H) as (m & I). exists m. now right.
  - destruct k; try discriminate. destruct (e_re (w_env W) p s); [intros [= <- _]; exists (GRe p); now left|].
    intros H. destruct (IH H) as (m & I). exists m. now right.
Qed.
Lemma sim_group eid r g : (forall m f, In (m, f) g -> pdirect poly f) -> startable r -> forall l n acc, good_keys r l ->
  wsim eid r (group_items W rec g l n acc) (ev_group W erec r g l n acc).
Proof.
  intros D ST. induction l as [|k l IH]; intros n acc GK; cbn [group_items ev_group]; [apply wsim_of, sim_ret|].
  assert (GK' : good_keys r l) by (intros x I; apply GK; now right).
  destruct (GK k (or_introl eq_refl)) as [P SK].
  assert (GM := group_In g k). destruct (group_match W g k) as [[[f c]|]|e]; cbn [lift].
  - intros s es h G. unfold bind at 1, ebind at 1, lift, elift.
    destruct (GM f c eq_refl) as (m & Im).
    apply (wsim_bind eid r (map_at W rec (key_of_val k) f) (erec (r_at W r (key_of_val k)) f NONEv)
             (fun v => group_items W rec g l (S n) (if ignored v then acc else acc ++ [VTuple [k; c; v]]))
             (fun v => ev_group W erec r g l (S n) (if ignored v then acc else acc ++ [VTuple [k; c; v]]))); auto.
    apply sim_map_at; auto. eapply D; eauto.
  - intros s es h G. unfold bind at 1, ebind at 1, lift, elift. now apply IH.
  - intros s es h G. right. cbn. auto using others_refl.
Qed.

(** what the state says about the location *)
Lemma sim_loc {A} eid r (m : M A) e :
  (r_src r = src -> (forall v, r_val r = Ok v -> Loc v \/ v = VConst NONE) -> wsim eid r m e) -> wsim eid r m e.
Proof.
  intros H s es h G. destruct (ag_loc _ _ _ _ _ _ _ _ G) as (p & Np & [Ls Ld Lv (q & _ & Gq)]).
  apply H; auto. intros v Hv. rewrite Lv in Hv.
  destruct (fold_loc (r_keys r) (gp_plain _ _ _ _ _ _ _ Gq) Ld v Hv) as [L|[-> _]]; auto.
Qed.
Lemma sim_bind_if {A B} eid r (m : M A) e (f : A -> M B) g :
  wsim eid r m e -> (forall a, (exists s s', e s = (Ok a, s')) -> wsim eid r (f a) (g a)) -> wsim eid r (bind m f) (ebind e g).
Proof.
  intros H K s es h G. unfold bind, ebind. destruct (H s es h G) as [[P U]|(E1 & G1 & S1 & O1)].
  { left. split; [exact P|]. destruct (e (es, h)) as [y [es1 h1]]. cbn [fst] in U. now subst y. }
  destruct (m s) as [x s1]. destruct (e (es, h)) as [y [es1 h1]] eqn:Ee. cbn [fst snd] in *. subst y.
  destruct x as [a|e0]; cbn [fst snd]; [|right; auto].
  destruct (K a ltac:(eauto) s1 es1 h1 G1) as [L|(E2 & G2 & S2 & O2)]; [now left|]. right. rewrite S2. eauto using others_trans.
Qed.
Lemma sim_catch_if {A B} eid r (m : M A) e (f : res A -> M B) g :
  sim eid r m e -> (forall x, (exists s s', e s = (x, s')) -> wsim eid r (f x) (g x)) -> wsim eid r (catch m f) (ecatch e g).
Proof.
  intros H K s es h G. unfold catch, ecatch. destruct (H s es h G) as (E1 & G1 & S1 & O1).
  destruct (m s) as [x s1]. destruct (e (es, h)) as [y [es1 h1]] eqn:Ee. cbn [fst snd] in *. subst y.
  destruct (K x ltac:(eauto) s1 es1 h1 G1) as [L|(E2 & G2 & S2 & O2)]; [now left|]. right. rewrite S2. eauto using others_trans.
Qed.

(** *** Sub-forms *)
Lemma sim_reset eid r id tags fs : sim eid r (form_reset id tags fs) (ev_reset id tags fs).
Proof.
  induction fs as [|f fs IH]; cbn [form_reset ev_reset]; [apply sim_ret|].
  apply sim_bind; [|auto]. apply sim_if; [apply sim_delete|apply sim_ret].
Qed.
Lemma sim_fields eid r id tags fs : (forall f, In f fs -> pdirect poly f) -> startable r ->
  wsim eid r (map_fields rec id tags fs) (ev_fields erec r id tags fs).
Proof.
  intros D ST. induction fs as [|f fs IH]; cbn [map_fields ev_fields]; [apply wsim_of, sim_ret|].
  apply wsim_bind.
  - apply wsim_if; [|apply wsim_of, sim_ret]. apply wsim_bind; [apply REC; auto; apply D; now left|].
    intros v. apply wsim_if; [apply wsim_of, sim_ret|apply wsim_of, sim_form_set].
  - intros _. apply IH. intros g I. apply D. now right.
Qed.
Lemma sim_unmapped eid r id u : pdirect_unm poly u -> startable r ->
  wsim eid r (form_unmapped rec id u) (ev_unmapped erec r id u).
Proof.
  intros D ST.
  assert (GO : forall kf vf, pdirect poly kf -> pdirect poly vf ->
    wsim eid r (v <- rec (unmapped_dict id kf vf) (VConst NONE); ret (Some v)) (v <~ erec r (unmapped_dict id kf vf) NONEv; eret (Some v))).
  { intros kf vf A B. apply wsim_bind; [apply REC; [now apply pdirect_unmapped|exact ST]|intros; apply wsim_of, sim_ret]. }
  destruct D; cbn [form_unmapped ev_unmapped]; try apply wsim_of, sim_ret; try apply wsim_of, sim_raise;
    apply GO; auto using pdirect_plain_string, pdirect_plain_field.
Qed.
Lemma agree_frame eid r r' kw s es h :
  r_src r' = r_src r -> r_pid r' = r_pid r -> r_keys r' = r_keys r -> r_val r' = r_val r ->
  r_mode r' = r_mode r -> r_igd r' = r_igd r -> r_igm r' = r_igm r -> r_tags r' = r_tags r ->
  field_seen (lookup "field" (kw :: stk s)) = r_field r' ->
  form_seen (lookup "form" (kw :: stk s)) = r_form r' ->
  (forall k, In k ["src_path"; "src"; "errors"; "ignore_default"; "ignore_missing"; "tags"] -> alookup kw k = None) ->
  agree eid r s es h -> agree eid r' (St (kw :: stk s) (forms s) (paths s) (errs s)) es h.
Proof.
  intros P1 P2 P3 P4 P5 P6 P7 P8 F1 F2 N [G1 G2 G3 G4 G5 G6 G7 G8 G9 G10 (p & Hp & [L1 L2 L3 L4])].
  split; cbn [stk forms paths errs]; auto; try (cbn [lookup]; rewrite N by (cbn; tauto)); rewrite ?P2, ?P5, ?P6, ?P7, ?P8; auto.
  exists p. split; [exact Hp|]. split; rewrite ?P1, ?P3, ?P4; auto.
Qed.
Lemma sim_form__map eid r id t tags u :
  pdirect_form poly t -> pdirect_unm poly u -> startable r ->
  wsim eid r
    (pid <- cur_path; path_mapping W pid;;
     with_ctx W [("form", CForm id); ("parent", CForm id)] (map_fields rec id tags (ft_fields t));;
     o <- form_unmapped rec id u;
     match o with
     | None => ret tt
     | Some v =>
         match v with
         | VNone => ret tt
         | VDict d => l <- form_entries id; set_entries id (dict_update l d)
         | _ => raise (EType "not iterable")
         end
     end)
    (ev_mapping W r;;;
     ev_fields erec (r_inform r id) id tags (ft_fields t);;;
     o <~ ev_unmapped erec r id u;
     match o with
     | None => eret tt
     | Some VNone => eret tt
     | Some (VDict d) => l <~ ev_entries id; ev_set_entries id (dict_update l d)
     | Some _ => eraise (EType "not iterable")
     end).
Proof.
  intros D Du ST. apply wsim_cur_path. apply wsim_bind; [apply wsim_of, sim_mapping|intros _].
  apply wsim_bind.
  - apply (sim_with eid r (r_inform r id)); [reflexivity|repeat split| |].
    + intros s es h G. apply (agree_frame eid r); auto; try reflexivity.
      * exact (ag_field _ _ _ _ _ _ _ _ G).
      * cbn. intros k I. decompose [or] I; subst; try reflexivity; contradiction.
    + inversion D; subst. now apply sim_fields.
  - intros _. apply wsim_bind; [now apply sim_unmapped|]. intros [v|]; [|apply wsim_of, sim_ret].
    destruct v; try apply wsim_of, sim_raise; try apply wsim_of, sim_ret.
    apply wsim_bind; [apply wsim_of, sim_entries|intros; apply wsim_of, sim_set_entries].
Qed.

Definition sim_at {A} (eid : nat) (r : rd) (m : M A) (e : Ev A) (s : st) (es : list err) (h : heap) : Prop :=
    (poly /\ fst (e (es, h)) = Exn unevaluated) \/
    (fst (m s) = fst (e (es, h)) /\
     agree eid r (snd (m s)) (fst (snd (e (es, h)))) (snd (snd (e (es, h)))) /\
     stk (snd (m s)) = stk s /\ others eid (r_pid r) s (snd (m s))).
Lemma sim_at_ext {A} eid r (m m' : M A) (e e' : Ev A) s es h :
  m s = m' s -> e (es, h) = e' (es, h) -> sim_at eid r m' e' s es h -> sim_at eid r m e s es h.
Proof. unfold sim_at. intros -> ->. auto. Qed.
Lemma sim_at_bind {A B} eid r (m : M A) e (f : A -> M B) g s es h :
  sim_at eid r m e s es h ->
  (forall a s1 es1 h1, m s = (Ok a, s1) -> e (es, h) = (Ok a, (es1, h1)) -> agree eid r s1 es1 h1 ->
     sim_at eid r (f a) (g a) s1 es1 h1) ->
  sim_at eid r (bind m f) (ebind e g) s es h.
Proof.
  unfold sim_at, bind, ebind. intros [[P U]|(E1 & G1 & S1 & O1)] K.
  { left. split; [exact P|]. destruct (e (es, h)) as [y [es1 h1]]. cbn [fst] in U. now subst y. }
  destruct (m s) as [x s1]. destruct (e (es, h)) as [y [es1 h1]]. cbn [fst snd] in *. subst y.
  destruct x as [a|e0]; cbn [fst snd]; [|right; auto].
  destruct (K a s1 es1 h1 eq_refl eq_refl G1) as [L|(E2 & G2 & S2 & O2)]; [now left|]. right. rewrite S2. eauto using others_trans.
Qed.
Lemma form__map_at eid r id t l tags u s es h :
  agree eid r s es h -> nth_error h id = Some (t, l) -> pdirect_form poly t -> pdirect_unm poly u -> startable r ->
  sim_at eid r (form__map W rec id tags u) (ev_form_map W erec r id tags u) s es h.
Proof.
  intros G T D Du ST. eapply sim_at_ext; [| |exact (sim_form__map eid r id t tags u D Du ST s es h G)].
  - unfold form__map, bind. destruct (cur_path s) as [[pid|e] s1] eqn:Cp; [|reflexivity].
    assert (s1 = s) as ->.
    { revert Cp. unfold cur_path, bind, ctx_get, ctx_get_opt, get, bind. rewrite (ag_path _ _ _ _ _ _ _ _ G). intros [= _ <-]. reflexivity. }
    unfold path_mapping, on_path. destruct (nth_error (paths s) pid) as [p|]; [|reflexivity].
    destruct (p_mapping (w_env W) (entries s) p) as [p' [v|e]]; [|reflexivity].
    unfold form_type, get at 1. cbn [forms]. rewrite (ag_forms _ _ _ _ _ _ _ _ G), T. reflexivity.
  - unfold ev_form_map, ebind. unfold ev_mapping, on_val, elift. cbv beta.
    destruct (match r_val r with Ok v => _ | Exn e => _ end); [|reflexivity].
    unfold ev_type. cbn [snd]. rewrite T. reflexivity.
Qed.
Lemma agree_errs eid r m s es h : agree eid r s es h ->
  agree (length (errs s)) (r_collecting r m)
    (St ([("errors", CErrs (length (errs s)))] :: stk s) (forms s) (paths s) (errs s ++ [(m, [])])) [] h.
Proof.
  intros [G1 G2 G3 G4 G5 G6 G7 G8 G9 G10 (p & Hp & [L1 L2 L3 L4])].
  split; cbn [stk forms paths errs]; auto.
  - rewrite nth_error_app2, Nat.sub_diag by lia. reflexivity.
  - exists p. split; [exact Hp|]. split; auto.
Qed.
Lemma nested_at eid r id t l tags u m s es h :
  agree eid r s es h -> nth_error h id = Some (t, l) -> pdirect_form poly t -> pdirect_unm poly u -> startable r ->
  sim_at eid r (e' <- nested_map W rec id tags u m; errs_of e') (ev_sub (ev_form_map W erec (r_collecting r m) id tags u)) s es h.
Proof.
  intros G T D Du ST. pose proof (agree_errs eid r m s es h G) as G2.
  destruct (form__map_at _ (r_collecting r m) id t l tags u _ [] h G2 T D Du ST) as [[PP UU]|(E1 & GB & S1 & [O1 O2 O3])].
  { left. split; [exact PP|]. unfold ev_sub. destruct (ev_form_map W erec (r_collecting r m) id tags u ([], h)) as [y [es2 h2]]. cbn [fst] in UU. now subst y. }
  right.
  assert (Leid : (eid < length (errs s))%nat) by (apply nth_error_Some; rewrite (ag_list _ _ _ _ _ _ _ _ G); discriminate).
  unfold sim_at, nested_map, new_errs, bind. cbn [stk forms paths errs].
  rewrite with_plain by reflexivity. cbn [stk forms paths errs].
  set (s1 := St ([("errors", CErrs (length (errs s)))] :: stk s) (forms s) (paths s) (errs s ++ [(m, [])])) in *.
  destruct (form__map W rec id tags u s1) as [x s2]. unfold ev_sub.
  destruct (ev_form_map W erec (r_collecting r m) id tags u ([], h)) as [y [es2 h2]]. cbn [fst snd] in *. subst y.
  unfold restore. rewrite S1. cbn [stk s1]. unfold bind, set_stk, has_key. cbn [alookup String.eqb Ascii.eqb Bool.eqb andb ret fst snd].
  assert (Old : forall j, (j < length (errs s))%nat -> nth_error (errs s2) j = nth_error (errs s) j).
  { intros j L. rewrite O2 by (cbn; rewrite ?app_length; cbn; lia). cbn [errs s1]. now rewrite nth_error_app1. }
  assert (Len : (length (errs s) < length (errs s2))%nat) by (cbn [errs s1] in O1; rewrite app_length in O1; cbn in O1; lia).
  pose proof G as G0. destruct G0 as [K1 K2 K3 K4 K5 K6 K7 K8 K9 K10 (p & Hp & [L1 L2 L3 L4])].
  destruct GB as [B1 B2 B3 B4 B5 B6 B7 B8 B9 B10 (p2 & Hp2 & [M1 M2 M3 M4])]. cbn [r_collecting r_src r_pid r_keys r_val] in *.
  destruct x as [[]|e]; cbn [fst snd].
  2:{ split; [reflexivity|]. split; [|split; [reflexivity|split; cbn [errs paths]; [lia|auto|auto]]].
      split; cbn [stk forms paths errs]; auto; [now rewrite Old|].
      exists p2. split; [exact Hp2|]. split; auto. }
  unfold ctx_get, ctx_get_opt, get, bind. cbn [stk]. rewrite K4. cbn [ret]. unfold errs_of, get. cbn [errs]. rewrite B5.
  unfold extend_errs. cbn [errs]. rewrite Old, K5 by lia. cbn [fst snd ret errs].
  rewrite nth_replace_neq by lia. rewrite B5. split; [reflexivity|].
  split; [|split; [reflexivity|split; cbn [errs paths]; [rewrite replace_nth_length; lia|intros j Lj Nj; rewrite nth_replace_neq by congruence; auto|auto]]].
  split; cbn [stk forms paths errs]; auto; [apply nth_replace_eq; lia|].
  exists p2. split; [exact Hp2|]. split; auto.
Qed.
Lemma reset_type id tags fs : forall es h i t l, nth_error h i = Some (t, l) ->
  exists l', nth_error (snd (snd (ev_reset id tags fs (es, h)))) i = Some (t, l').
Proof.
  induction fs as [|f fs IH]; intros es h i t l H; cbn [ev_reset]; [cbn; eauto|].
  unfold ebind at 1. destruct (selected tags f); [|exact (IH es h i t l H)].
  unfold ev_del, ebind, ev_entries. cbn [fst snd].
  destruct (dict_has (hents h id) (VStr (fname f))); [|exact (IH es h i t l H)].
  unfold ev_set_entries. cbn [fst snd]. destruct (nth_error h id) as [[t0 l0]|] eqn:N; [|exact (IH es h i t l H)].
  destruct (Nat.eq_dec id i) as [->|Ne].
  - eapply IH. rewrite N in H. injection H as <- <-. eapply replace_hit; eauto.
  - eapply IH. rewrite nth_replace_neq by exact Ne. exact H.
Qed.
Lemma sim_sub eid r t rs u : pdirect_form poly t -> pdirect_unm poly u -> startable r ->
  wsim eid r (parse_form W rec t rs u) (ev_form W erec r t rs u).
Proof.
  intros D Du ST s es h G.
  change (sim_at eid r (parse_form W rec t rs u) (ev_form W erec r t rs u) s es h).
  destruct (sim_new_form eid r t s es h G) as (_ & G1 & S1 & O1). cbn in G1, S1, O1.
  set (id := length h). set (s1 := St (stk s) (forms s ++ [(t, [])]) (paths s) (errs s)) in *. set (h1 := h ++ [(t, [])]) in *.
  assert (T : nth_error h1 id = Some (t, [])) by (unfold h1, id; rewrite nth_error_app2, Nat.sub_diag by lia; reflexivity).
  pose proof (ag_forms _ _ _ _ _ _ _ _ G) as FH.
  set (m2 := (if rs then form_reset id (r_tags r) (ft_fields t) else ret tt)).
  set (e2 := (if rs then ev_reset id (r_tags r) (ft_fields t) else eret tt)).
  assert (S2 : sim eid r m2 e2) by (unfold m2, e2; destruct rs; [apply sim_reset|apply sim_ret]).
  assert (EM : parse_form W rec t rs u s =
     (m2;; es <- (e' <- nested_map W rec id (r_tags r) u Collect; errs_of e'); ret (match es with [] => VForm id | _ => ERRORv end)) s1).
  { unfold parse_form, new_form, form_map, effective_tags, form_type, ctx_get_opt, get, bind.
    change (if rs then form_reset (length (forms s)) (r_tags r) (ft_fields t) else ret tt) with m2.
    rewrite FH. cbn [stk forms]. fold id. fold h1.
    assert (TG : forall s0, (ret (tags_of (lookup "tags" (stk s))) : M (list string)) s0 = (Ok (r_tags r), s0)).
    { intros s0. rewrite <- (ag_tags _ _ _ _ _ _ _ _ G). reflexivity. }
    rewrite TG. cbn [forms]. rewrite T. fold m2.
    assert (s1 = St (stk s) h1 (paths s) (errs s)) as <- by (unfold s1; now rewrite FH).
    destruct (S2 s1 es h1 G1) as (_ & G3 & S3 & _).
    destruct (m2 s1) as [[[]|e] s2] eqn:Em2; [|reflexivity]. cbn [fst snd] in *.
    destruct (ag_src _ _ _ _ _ _ _ _ G3) as (c & Lc & Nc).
    unfold ctx_get, ctx_get_opt, get, bind. rewrite Lc. cbn [ret]. rewrite Nc. cbn [is_anone negb andb].
    destruct (nested_map W rec id (r_tags r) u Collect s2) as [[e'|e] s3]; [|reflexivity].
    unfold errs_of, get. destruct (nth_error (errs s3) e') as [[m0 [|x l0]]|]; reflexivity. }
  assert (EE : ev_form W erec r t rs u (es, h) =
     (e2;;; es <~ ev_sub (ev_form_map W erec (r_collecting r Collect) id (r_tags r) u); eret (match es with [] => VForm id | _ => ERRORv end)) (es, h1)).
  { unfold ev_form. unfold ebind at 1, ev_new. cbn [fst snd]. reflexivity. }
  assert (Q : sim_at eid r (m2;; es <- (e' <- nested_map W rec id (r_tags r) u Collect; errs_of e'); ret (match es with [] => VForm id | _ => ERRORv end))
     (e2;;; es <~ ev_sub (ev_form_map W erec (r_collecting r Collect) id (r_tags r) u); eret (match es with [] => VForm id | _ => ERRORv end)) s1 es h1).
  { apply sim_at_bind; [right; exact (S2 s1 es h1 G1)|]. intros [] s2 es2 h2 _ Ee G2.
    assert (T2 : exists l', nth_error h2 id = Some (t, l')).
    { pose proof (f_equal (fun z => snd (snd z)) Ee) as H2. cbn [snd] in H2. rewrite <- H2. unfold e2. destruct rs; [eapply reset_type; eauto|cbn; eauto]. }
    destruct T2 as (l' & T2). apply sim_at_bind; [eapply nested_at; eauto|].
    intros a s3 es3 h3 _ _ G3. right. exact (sim_ret eid r _ s3 es3 h3 G3). }
  unfold sim_at in *. rewrite EM, EE. destruct Q as [Q|(Q1 & Q2 & Q3 & Q4)]; [now left|right]. cbn [stk s1] in Q3.
  split; [exact Q1|]. split; [exact Q2|]. split; [exact Q3|]. exact (others_trans _ _ _ _ _ O1 Q4).
Qed.

(** *** Parsing *)
Lemma sim_need_str eid r v : wsim eid r (need_str v) (ev_need_str v).
Proof. destruct v; first [apply wsim_of, sim_ret|apply wsim_of, sim_raise]. Qed.
Lemma sim_decimal eid r : wsim eid r (parse_decimal W (r_pid r)) (ev_decimal W r).
Proof.
  unfold parse_decimal, ev_decimal. apply wsim_bind; [apply wsim_of, sim_value|intros v].
  assert (X : wsim eid r
    (w <- path_primitive W TyStr (r_pid r);
     match w with
     | VStr s => match e_dec E s with Some d => ret (VDec d) | None => raise EDecimal end
     | VDec _ => ret w
     | _ => match dec_of_number w with Some d => ret (VDec d) | None => raise (EType "Cannot convert to Decimal") end
     end)
    (w <~ ev_primitive W r TyStr;
     match w with
     | VStr s => match e_dec E s with Some d => eret (VDec d) | None => eraise EDecimal end
     | VDec _ => eret w
     | _ => match dec_of_number w with Some d => eret (VDec d) | None => eraise (EType "Cannot convert to Decimal") end
     end)).
  { apply wsim_bind; [apply wsim_of, sim_primitive|intros w]. destruct w; try apply wsim_of, sim_ret;
      match goal with |- context [match ?o with Some _ => _ | None => _ end] => destruct o end; first [apply wsim_of, sim_ret|apply wsim_of, sim_raise]. }
  destruct v; try apply wsim_of, sim_ret;
    match goal with |- context [match ?o with Some _ => _ | None => _ end] => destruct o; [apply wsim_of, sim_ret|exact X] end.
Qed.
Lemma sim_date eid r fmts : wsim eid r (parse_date W fmts (r_pid r)) (ev_date W r fmts).
Proof.
  unfold parse_date, ev_date. apply wsim_bind; [apply wsim_of, sim_value|intros v].
  destruct v; try apply wsim_of, sim_ret; (apply wsim_bind; [apply wsim_of, sim_primitive|intros w]);
    (destruct fmts; [apply wsim_of, sim_invalid|apply wsim_bind; [apply sim_need_str|intros; apply wsim_of, sim_ret]]).
Qed.
Lemma sim_time eid r fmt : wsim eid r (parse_time W fmt (r_pid r)) (ev_time W r fmt).
Proof.
  unfold parse_time, ev_time. apply wsim_bind; [apply wsim_of, sim_value|intros v].
  destruct v; try apply wsim_of, sim_ret; (apply wsim_bind; [apply wsim_of, sim_primitive|intros w]);
    (destruct fmt as [fm|]; [|apply wsim_of, sim_invalid]); (apply wsim_bind; [apply sim_need_str|intros t0]);
    fold E; destruct (e_strptime_time E t0 fm); first [apply wsim_of, sim_ret|apply wsim_of, sim_raise].
Qed.
Lemma sim_datetime eid r fmt : wsim eid r (parse_datetime W fmt (r_pid r)) (ev_datetime W r fmt).
Proof.
  unfold parse_datetime, ev_datetime. apply wsim_bind; [apply wsim_of, sim_value|intros v].
  destruct v; try apply wsim_of, sim_ret; (apply wsim_bind; [apply wsim_of, sim_primitive|intros w]);
    (destruct fmt as [fm|]; [|apply wsim_of, sim_invalid]); (apply wsim_bind; [apply sim_need_str|intros t0]);
    fold E; (apply wsim_if; [destruct (e_iso E t0)|destruct (e_strp E t0 fm)]); first [apply wsim_of, sim_ret|apply wsim_of, sim_raise|apply wsim_of, sim_invalid].
Qed.
Lemma sim_code eid r : wsim eid r (parse_code W (r_pid r)) (ev_code W r).
Proof.
  unfold parse_code, ev_code. apply wsim_bind; [apply wsim_of, sim_primitive|intros v].
  destruct v; try apply wsim_of, sim_ret. fold E. apply wsim_if.
  - destruct (e_compile E s); first [apply wsim_of, sim_ret|apply wsim_of, sim_invalid].
  - destruct (e_import E s) as [[x|x]|]; first [apply wsim_of, sim_ret|apply wsim_of, sim_invalid].
Qed.
Lemma sim_uuid eid r : wsim eid r (parse_uuid W (r_pid r)) (ev_uuid W r).
Proof.
  unfold parse_uuid, ev_uuid. fold E.
  assert (X : wsim eid r
    (w <- path_primitive W TyStr (r_pid r); to_uuid W w)
    (w <~ ev_primitive W r TyStr;
     match w with
     | VStr s => match e_uuid E s with Some u => eret u | None => eraise (EValue "badly formed hexadecimal UUID string") end
     | _ => eraise (EAttr "no attribute 'replace'")
     end)).
  { apply wsim_bind; [apply wsim_of, sim_primitive|intros w]. destruct w; cbn [to_uuid]; try apply wsim_of, sim_raise. fold E.
    destruct (e_uuid E s); first [apply wsim_of, sim_ret|apply wsim_of, sim_raise]. }
  apply wsim_bind; [apply wsim_of, sim_primitive|intros v]. destruct v; cbn [is_uuid]; try exact X. apply wsim_if; [apply wsim_of, sim_ret|exact X].
Qed.
Lemma on_val_ok {A} r (f : val -> res A) v a : r_val r = Ok v -> (exists s s', on_val r f s = (Ok a, s')) -> f v = Ok a.
Proof. unfold on_val, elift. intros -> (s & s' & H). congruence. Qed.
Lemma sim_has_src {A} eid r (f : bool -> M A) e : wsim eid r (f true) e -> wsim eid r (bind (path_has_src (r_pid r)) f) e.
Proof.
  intros H s es h G. destruct (ag_loc _ _ _ _ _ _ _ _ G) as (p & Np & [Ls Ld Lv (q & -> & Gq)]).
  assert (C : bind (path_has_src (r_pid r)) f s = f true s) by (unfold bind, path_has_src, get; now rewrite Np).
  rewrite C. auto.
Qed.
Lemma sim_parse eid r v k : pdirect_kind poly k -> here r v -> wsim eid r (parse_kind W rec k (r_pid r)) (ev_parse W erec r k).
Proof.
  intros D H. pose proof (here_startable _ _ H) as ST. pose proof H as (Hs & Hv & HL).
  destruct D; cbn [parse_kind ev_parse]; try apply wsim_of, sim_primitive.
  - apply sim_decimal.
  - apply sim_date.
  - apply sim_time.
  - apply sim_datetime.
  - (* tuple *) unfold parse_tuple. apply sim_bind_if; [apply wsim_of, sim_sequence|intros n Hn].
    apply (on_val_ok _ _ _ _ Hv) in Hn. rewrite Hs in Hn.
    destruct (Nat.eqb_spec n (length fs)) as [->|_]; [|apply wsim_of, sim_invalid].
    apply wsim_bind; [|intros; apply wsim_of, sim_ret]. eapply sim_tuple; eauto; lia.
  - (* list *) unfold parse_list. apply sim_catch_if; [apply sim_sequence|]. intros x Hx. destruct x as [n|e].
    + apply (on_val_ok _ _ _ _ Hv) in Hx. rewrite Hs in Hx. apply wsim_bind; [|intros; apply wsim_of, sim_ret]. eapply sim_list; eauto; lia.
    + apply sim_has_src. cbn [negb]. destruct e; try apply wsim_of, sim_raise. apply wsim_if; [|apply wsim_of, sim_raise].
      apply wsim_bind; [now apply REC|intros; apply wsim_of, sim_ret].
  - (* dict *) unfold parse_dict. apply sim_bind_if; [apply wsim_of, sim_mapping|intros vw Hw].
    apply (on_val_ok _ _ _ _ Hv) in Hw. rewrite Hs in Hw.
    apply sim_bind_if; [apply wsim_of, sim_lift|intros l (s0 & s1 & Hl)]. unfold elift in Hl. injection Hl as -> _.
    apply wsim_bind; [|intros; apply wsim_of, sim_ret]. apply sim_dict; auto. eapply here_map; eauto.
  - apply sim_code.
  - apply sim_uuid.
  - now apply sim_sub.
  - eapply POLY; eauto.
  - (* group *) unfold parse_group. apply sim_bind_if; [apply wsim_of, sim_mapping|intros vw Hw].
    apply (on_val_ok _ _ _ _ Hv) in Hw. rewrite Hs in Hw.
    apply sim_bind_if; [apply wsim_of, sim_lift|intros ks (s0 & s1 & Hl)]. unfold elift in Hl. injection Hl as -> _.
    apply sim_group; auto. eapply here_map; eauto.
Qed.

(** *** The whole field *)
Lemma sim_compute eid r f : pdirect poly f -> wsim eid r (field_compute W rec f) (ev_compute W erec r f).
Proof.
  intros D. inversion D as [o k Do Dk]; subst. unfold field_compute, ev_compute. apply wsim_cur_path.
  apply sim_loc. intros Hs HL. apply sim_bind_if; [apply wsim_of, sim_exists|]. intros b Hb.
  destruct (r_val r) as [v|e] eqn:Hv; [|destruct Hb as (s & s' & Hb); unfold ev_exists, on_val, elift in Hb; rewrite Hv in Hb; discriminate].
  apply (on_val_ok _ _ _ _ Hv) in Hb. injection Hb as <-. rewrite Bool.negb_involutive.
  destruct (is_NONE v) eqn:Nv; [apply wsim_of, sim_ret|].
  assert (HH : here r v). { split; [exact Hs|]. split; [exact Hv|]. destruct (HL v eq_refl) as [L| ->]; [exact L|discriminate]. }
  apply wsim_bind; [apply wsim_of, sim_is_null|intros nl]. apply wsim_if; [apply wsim_of, sim_ret|].
  apply wsim_catch; [reflexivity| |].
  - cbn [f_opts f_kind]. destruct (o_parse o) as [h|] eqn:Hp; [apply wsim_of, sim_hook; now apply (do_parse _ Do)|]. eapply sim_parse; eauto.
  - intros [w|e]; [apply wsim_of, sim_ret|]. apply wsim_if; [apply wsim_of, sim_invalid|apply wsim_of, sim_raise].
Qed.
Lemma sim_body eid r f v : pdirect poly f -> wsim eid r (field_body W rec f v) (ev_body W erec r f v).
Proof.
  intros D. pose proof D as D'. inversion D' as [o k Do Dk]; subst. unfold field_body, ev_body.
  apply wsim_if; [|now apply wsim_of, sim_after]. apply wsim_bind.
  - cbn [f_opts]. destruct (o_compute o) as [h|] eqn:Hc; [apply wsim_of, sim_hook; now apply (do_compute _ Do)|now apply sim_compute].
  - intros w. apply wsim_if.
    + pose proof (do_default _ Do) as DD. pose proof (wsim_of eid r _ _ (sim_default rec eid r (MkField o k) Do)) as SD. cbn [f_opts] in *.
      destruct (o_default o) as [[h|]|x|p]; try exact SD. apply wsim_of, sim_hook. now apply DD.
    + apply wsim_if; [apply wsim_of, sim_ret|now apply wsim_of, sim_after].
Qed.
Lemma startable_for r f : startable r -> startable (r_for r f).
Proof. auto. Qed.
Lemma sim_set_parent eid r v : wsim eid r (set_parent v) (ev_parent v).
Proof. destruct v; cbn [set_parent ev_parent]; try apply wsim_of, sim_raise; [apply wsim_of, sim_setattr|apply wsim_of, sim_ret]. Qed.
Lemma sim_field_body eid r f v : pdirect poly f -> startable r ->
  wsim eid r (field_map_body W rec f v) (ev_field_body W erec r f v).
Proof.
  intros D ST. unfold field_map_body, ev_field_body. pose proof D as D'. inversion D' as [o k Do Dk]; subst.
  set (f := MkField o k) in *.
  apply (wsim_ext eid r _ _ _
    (v <~ (k <~ (if is_NONE v then ev_where W (r_for r f) f else eret None);
           ev_body W erec (match k with Some k => r_at W (r_for r f) k | None => r_for r f end) f v);
     (if o_attach_parent (f_opts f) && negb (ignored v) then ev_parent v else eret tt);;; eret v) (fun s => eq_refl)).
  { intros s. unfold ebind. destruct ((if is_NONE v then ev_where W (r_for r f) f else eret None) s) as [[a|e] s']; reflexivity. }
  apply wsim_bind; [|intros w; apply wsim_bind; [apply wsim_if; [apply sim_set_parent|apply wsim_of, sim_ret]|intros; apply wsim_of, sim_ret]].
  apply (sim_with eid r (r_for r f)); [reflexivity|repeat split| |].
  - intros s es h G. apply (agree_frame eid r); auto; try reflexivity.
    + exact (ag_form _ _ _ _ _ _ _ _ G).
    + cbn. intros x I. decompose [or] I; subst; try reflexivity; contradiction.
  - unfold field__map, ev_where, field_resolve. cbn [f f_opts f_kind]. rewrite (do_resolve _ Do).
    set (where_ := (match k with KGroup _ => None | _ => o_src o end)).
    assert (PW : forall x, where_ = Some x -> plain_key x).
    { unfold where_. intros x Hx. destruct k; try discriminate; now apply (do_src _ Do). }
    assert (X : wsim eid (r_for r f) (close <- ret (if is_NONE v then where_ else None);
         match close with None => field_body W rec f v | Some k => with_ctx W [("src", CKey k)] (field_body W rec f v) end)
       (k0 <~ eret (if is_NONE v then where_ else None);
        ev_body W erec (match k0 with Some k1 => r_at W (r_for r f) k1 | None => r_for r f end) f v)).
    { intros s es h G. unfold bind, ebind, ret, eret. destruct (is_NONE v); [|now apply sim_body].
      destruct where_ as [x|] eqn:Hx; [|now apply sim_body].
      apply sim_down; auto. now apply sim_body. }
    intros s es h G. specialize (X s es h G). unfold bind, ebind in *.
    destruct (is_NONE v); [|exact X]. destruct k; exact X.
Qed.
End Knot.

End Weak.
End Refine.
