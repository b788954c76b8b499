(** * RefinePoly: whole forms and polymorphic sub-forms follow the direct evaluation (C30). *)
From Verif Require Import PyBase PyStr Source Field Context Fields SpecSrc SrcPath SrcProofs Shape Balance Eval Pids DataRegime.
From Verif Require Export Refine.
From Coq Require Import Lia.

(** ** Whole forms *)
Lemma reset_same id tags fs : forall s,
  form_reset id tags fs s =
  (fst (ev_reset id tags fs ([], forms s)), St (stk s) (snd (snd (ev_reset id tags fs ([], forms s)))) (paths s) (errs s))
  /\ fst (ev_reset id tags fs ([], forms s)) = Ok tt /\ fst (snd (ev_reset id tags fs ([], forms s))) = [].
Proof.
  induction fs as [|f fs IH]; intros s; cbn [form_reset ev_reset]; [destruct s; cbn; auto|].
  unfold bind at 1, ebind.
  assert (X : forall s0, form_reset id tags fs s0 = (fst (ev_reset id tags fs ([], forms s0)), St (stk s0) (snd (snd (ev_reset id tags fs ([], forms s0)))) (paths s0) (errs s0))
     /\ fst (ev_reset id tags fs ([], forms s0)) = Ok tt /\ fst (snd (ev_reset id tags fs ([], forms s0))) = []) by exact IH.
  destruct (selected tags f); [|exact (X s)].
  unfold field_delete, ev_del, form_entries, ev_entries, get, bind, ebind. cbn [snd fst].
  change (entries s id) with (hents (forms s) id).
  destruct (dict_has (hents (forms s) id) (VStr (fname f))); [|exact (X s)].
  unfold set_entries, ev_set_entries. cbn [snd fst].
  destruct (nth_error (forms s) id) as [[t l]|]; [|exact (X s)].
  exact (X (St (stk s) _ (paths s) (errs s))).
Qed.
(** [ev_map] with the evaluation of fields as an argument *)
Definition ev_map_by (W : world) (erec : rd -> field -> val -> Ev val) (o : outer) (src : psource) (root : val) (id : nat)
           (tags : list string) (reset : bool) (u : unm) (m : mode) (h : heap)
  : res (list err) * heap :=
  let tags := match tags with [] => ou_tags o | _ => tags end in
  let t := match nth_error h id with Some (t, _) => t | None => FormTy "" [] end in
  let '(_, (_, h1)) := (if reset then ev_reset id tags (ft_fields t) else eret tt) ([], h) in
  match ev_form_map W erec (r_start o src m root) id tags u ([], h1) with
  | (Exn e, (_, h2)) => (Exn e, h2)
  | (Ok _, (es, h2)) =>
      (match m, es with Raise, _ :: _ => Exn (EForm es) | _, _ => Ok es end, h2)
  end.
Lemma ev_map_is W fuel o src root id tags rs u m h :
  ev_map W fuel o src root id tags rs u m h = ev_map_by W (ev_field W fuel) o src root id tags rs u m h.
Proof. reflexivity. Qed.
Lemma map_by W poly rec erec src root Loc id t l tags rs u m s :
  psource_root src = Ok root -> regime (w_env W) src root Loc ->
  (forall eid r f v, pdirect poly f -> startable W src r -> wsim W root src poly eid r (rec f v) (erec r f v)) ->
  nth_error (forms s) id = Some (t, l) -> pdirect_form poly t -> pdirect_unm poly u ->
  (exists c, lookup "src" (stk s) = Some c) ->
  (exists c, lookup "ignore_default" (stk s) = Some c) -> (exists c, lookup "ignore_missing" (stk s) = Some c) ->
  let x := form_map W rec id (ASrc (SBase (BPlain src))) tags rs u m s in
  let y := ev_map_by W erec (outer_of s) src root id tags rs u m (forms s) in
  (poly /\ fst y = Exn unevaluated) \/
  (fst x = fst y /\ forms (snd x) = snd y /\ stk (snd x) = stk s /\
   (length (errs s) <= length (errs (snd x)))%nat /\
   (forall j, (j < length (errs s))%nat -> nth_error (errs (snd x)) j = nth_error (errs s) j) /\
   (forall j, (j < length (paths s))%nat -> nth_error (paths (snd x)) j = nth_error (paths s) j)).
Proof.
  intros HR RG REC T D Du (c0 & Hsrc) (c1 & Higd) (c2 & Higm) x y.
  set (tags' := match tags with [] => tags_seen (lookup "tags" (stk s)) | _ => tags end).
  assert (ET : effective_tags tags s = (Ok tags', s)).
  { unfold effective_tags, tags'. destruct tags as [|g tags]; [|reflexivity].
    unfold bind, ctx_get_opt, get. destruct (lookup "tags" (stk s)) as [[]|]; reflexivity. }
  set (h1 := snd (snd ((if rs then ev_reset id tags' (ft_fields t) else eret tt) ([], forms s)))).
  set (s1 := St (stk s) h1 (paths s) (errs s)).
  assert (RS : (if rs then form_reset id tags' (ft_fields t) else ret tt) s = (Ok tt, s1)).
  { unfold s1, h1. destruct rs; [|now destruct s].
    destruct (reset_same id tags' (ft_fields t) s) as (-> & E1 & _). now rewrite E1. }
  assert (RE : exists h0, (if rs then ev_reset id tags' (ft_fields t) else eret tt) ([], forms s) = (h0, ([], h1))).
  { unfold h1. destruct rs; [|eexists; reflexivity]. destruct (reset_same id tags' (ft_fields t) s) as (_ & _ & E1).
    destruct (ev_reset id tags' (ft_fields t) ([], forms s)) as [h0 [es hh]]. cbn in E1. subst es. cbn. eexists; reflexivity. }
  assert (T1 : exists l1, nth_error h1 id = Some (t, l1)).
  { unfold h1. destruct rs; [eapply reset_type; eauto|cbn; eauto]. }
  destruct T1 as (l1 & T1).
  set (pid := length (paths s)). set (eid := length (errs s)).
  set (fr := [("src_path", CPath pid); ("src", CSrc (SBase (BPlain src))); ("errors", CErrs eid)] : frame).
  set (s2 := St (fr :: stk s) h1 (paths s ++ [PBase (BP (Source.PPath src root []))]) (errs s ++ [(m, [])])).
  set (r := r_start (outer_of s) src m root).
  assert (G : agree W root src eid r s2 [] h1).
  { split; cbn [s2 fr stk forms paths errs r r_start outer_of r_pid r_mode r_field r_form r_igd r_igm r_tags ou_pid ou_igd ou_igm ou_tags ou_form ou_field]; try reflexivity.
    - eexists. split; reflexivity.
    - unfold eid. rewrite nth_error_app2, Nat.sub_diag by lia. reflexivity.
    - exists c1. cbn. rewrite Higd. auto.
    - exists c2. cbn. rewrite Higm. auto.
    - eexists. split; [unfold pid; rewrite nth_error_app2, Nat.sub_diag by lia; reflexivity|].
      split; cbn [r_src r_keys r_val r r_start]; auto.
      + right. intros pre k post E0. destruct pre; discriminate.
      + eexists. split; [reflexivity|]. apply good_untouched with (ks := []). constructor. }
  assert (ST : startable W src r).
  { exists root. split; [reflexivity|]. right. apply (rg_some _ _ _ _ RG). apply (rg_root _ _ _ _ RG). }
  assert (Y : y = (let z := ev_form_map W erec r id tags' u ([], h1) in
     match fst z with
     | Exn e => (Exn e, snd (snd z))
     | Ok _ => let es := fst (snd z) in
        (match m, es with Raise, _ :: _ => Exn (EForm es) | _, _ => Ok es end, snd (snd z))
     end)).
  { unfold y, ev_map_by. change (match tags with [] => ou_tags (outer_of s) | _ => tags end) with tags'. rewrite T. destruct RE as (h0 & RE). unfold heap in RE |- *. rewrite RE. fold r.
    generalize (ev_form_map W erec r id tags' u). intros g. unfold heap.
    destruct (g (@pair (list err) (list (formty * list (val * val))) [] h1)) as [[z|e] [es hh]]; reflexivity. }
  destruct (form__map_at W root Loc src RG poly rec erec REC eid r id t l1 tags' u s2 [] h1 G T1 D Du ST) as [[PP UU]|(E1 & G1 & S1 & O1)].
  { left. split; [exact PP|]. rewrite Y. cbv zeta. now rewrite UU. }
  right.
  assert (X : x = (let z := form__map W rec id tags' u s2 in
     match fst z with
     | Exn e => (Exn e, St (stk s) (forms (snd z)) (paths (snd z)) (errs (snd z)))
     | Ok _ => let es := match nth_error (errs (snd z)) eid with Some (_, l) => l | None => [] end in
        (match m, es with Raise, _ :: _ => Exn (EForm es) | _, _ => Ok es end, St (stk s) (forms (snd z)) (paths (snd z)) (errs (snd z)))
     end)).
  { unfold x, form_map. unfold bind. rewrite ET. unfold form_type, get. rewrite T. rewrite RS.
    unfold ctx_get, ctx_get_opt, get, bind. cbn [stk s1]. rewrite Hsrc. cbn [ret is_anone andb].
    unfold root_map, bind, form_type, get, lift. cbn [forms s1]. rewrite T1. cbn [root_source].
    unfold new_errs. cbn [stk forms paths errs s1]. unfold with_ctx, closing, push. cbn [alookup String.eqb Ascii.eqb Bool.eqb].
    unfold bind. cbn [source_path bsource_path]. unfold psource_path. rewrite HR. unfold new_path, push_frame. cbn [stk forms paths errs].
    fold pid eid. fold fr. fold s2. destruct (form__map W rec id tags' u s2) as [z s3]. cbn [fst snd] in *.
    unfold restore. rewrite S1. cbn [s2 stk]. unfold set_stk, has_key. cbn [fr alookup String.eqb Ascii.eqb Bool.eqb andb negb].
    unfold bind, ret. destruct z as [[]|e]; [|reflexivity]. unfold errs_of, get. cbn [errs].
    destruct (nth_error (errs s3) eid) as [[mm [|e0 es]]|]; destruct m; reflexivity. }
  rewrite X, Y. cbv zeta. rewrite <- E1. rewrite (ag_list _ _ _ _ _ _ _ _ G1).
  assert (OE : forall j, (j < length (errs s))%nat -> nth_error (errs (snd (form__map W rec id tags' u s2))) j = nth_error (errs s) j).
  { intros j J. destruct O1 as [_ O2 _]. rewrite O2.
    - cbn [s2 errs]. now apply nth_error_app1.
    - cbn [s2 errs]. rewrite app_length. lia.
    - unfold eid. lia. }
  assert (OP : forall j, (j < length (paths s))%nat -> nth_error (paths (snd (form__map W rec id tags' u s2))) j = nth_error (paths s) j).
  { intros j J. destruct O1 as [_ _ O3]. rewrite O3.
    - cbn [s2 paths]. now apply nth_error_app1.
    - cbn [s2 paths]. rewrite app_length. lia.
    - change (r_pid r) with (length (paths s)). lia. }
  assert (OL : (length (errs s) <= length (errs (snd (form__map W rec id tags' u s2))))%nat).
  { destruct O1 as [O0 _ _]. cbn [s2 errs] in O0. rewrite app_length in O0. lia. }
  destruct (fst (form__map W rec id tags' u s2)); cbn [fst snd forms stk errs paths];
    (split; [reflexivity|split; [|split; [reflexivity|split; [exact OL|split; [exact OE|exact OP]]]]]);
    exact (ag_forms _ _ _ _ _ _ _ _ G1).
Qed.

(** ** Polymorphic sub-forms *)
Section Poly.
Variables (W : world) (poly : Prop).
Local Notation E := (w_env W).
(** Where the data probed is, forms cannot be, and reading it as a native mapping finds what is there. *)
Definition confined (Loc : val -> Prop) : Prop := poly -> exists P, plain_native E P /\ forall v, Loc v -> P v.
Variables (rec : field -> val -> M val) (erec : rd -> field -> val -> Ev val).
Hypothesis REC : forall root src Loc, regime E src root Loc -> confined Loc -> forall eid r f v, pdirect poly f ->
  startable W src r -> wsim W root src poly eid r (rec f v) (erec r f v).
Hypothesis PAR : forall p r f v, r_mode r = Collect -> par (erec r f v) (erec (r_moved r p) f v).
Hypothesis CLS : poly -> forall c t, w_class W c = Some t -> pdirect_form poly t.

Lemma agree_heap root src eid r s s' es h h' : agree W root src eid r s es h ->
  forms s' = h' -> stk s' = stk s -> nth_error (errs s') eid = nth_error (errs s) eid ->
  nth_error (paths s') (r_pid r) = nth_error (paths s) (r_pid r) -> agree W root src eid r s' es h'.
Proof.
  intros [G1 G2 G3 G4 G5 G6 G7 G8 G9 G10 G11] F S Er P. split; rewrite ?S, ?Er, ?P; auto.
Qed.
Lemma probe_at root src eid r s es h P v probe tf :
  poly -> agree W root src eid r s es h -> plain_native E P -> P v -> pdirect_form poly probe ->
  let x := types_probe W rec probe tf v s in
  let y := ev_probe W erec r probe tf v (es, h) in
  fst y = Exn unevaluated \/
  ((fst x = fst y \/ exists e, fst x = Exn (EField e) /\ fst y = Exn (EField (untied e))) /\
   fst (snd y) = es /\ agree W root src eid r (snd x) es (snd (snd y)) /\ stk (snd x) = stk s /\ others eid (r_pid r) s (snd x)).
Proof.
  intros PO G PN Pv D x y.
  pose proof G as G0. destruct G0 as [G1 G2 (c0 & G3 & _) G4 G5 G6 G7 (c1 & G8 & G8') (c2 & G9 & G9') G10 (p0 & G11 & _)].
  set (s1 := St (stk s) (forms s ++ [(probe, [])]) (paths s) (errs s)).
  set (h1 := h ++ [(probe, [])]). assert (F1 : forms s1 = h1) by (unfold s1, h1; cbn; now rewrite G1).
  assert (Lp : (r_pid r < length (paths s))%nat) by (apply nth_error_Some; congruence).
  assert (Le : (eid < length (errs s))%nat) by (apply nth_error_Some; congruence).
  assert (OS : others eid (r_pid r) s s1) by (split; cbn; auto).
  assert (GS : agree W root src eid r s1 es h1) by (eapply agree_heap; eauto).
  assert (BAD : (match v with VDict _ | VNone | VForm _ | VList _ | VTuple _ => False | _ => True end) ->
     types_probe W rec probe tf v s = (Exn (EValue "Invalid src, expected None, dict or Source"), s1)).
  { intros H. unfold types_probe, new_form, bind. fold s1. unfold form_map, effective_tags, ctx_get_opt, get, bind. cbn [stk s1].
    assert (TG : forall s0, (ret (tags_of (lookup "tags" (stk s))) : M (list string)) s0 = (Ok (r_tags r), s0)).
    { intros s0. rewrite <- G10. reflexivity. }
    rewrite TG. unfold s1. unfold form_type, get, ret. cbn [forms stk]. unfold ctx_get, ctx_get_opt, get, bind. cbn [stk]. rewrite G3. cbn [ret].
    destruct v; cbn in H; try contradiction; cbn [is_anone andb]; unfold root_map, bind, form_type, get, lift; cbn [forms stk root_source]; reflexivity. }
  subst x y. unfold ev_probe. fold h1.
  destruct v; try (left; reflexivity);
    try (right; rewrite BAD by exact I; cbn [fst snd]; split; [left; reflexivity|split; [reflexivity|split; [exact GS|split; [reflexivity|exact OS]]]]).
  all: try (cbn; now left).
  (* a mapping *)
  set (v := VDict l) in *. set (ps := SDefault v [] [] None).
  pose proof (native_regime E P v None PN Pv) as NR. fold ps in NR.
  assert (T : nth_error (forms s1) (length h) = Some (probe, [])) by (rewrite F1; unfold h1; rewrite nth_error_app2, Nat.sub_diag by lia; reflexivity).
  destruct (map_by W poly rec erec ps v P (length h) probe [] [] false UIgnore Collect s1 eq_refl NR
     (REC v ps P NR (fun _ => ex_intro _ P (conj PN (fun _ H => H)))) T D (pd_ignore poly)
     (ex_intro _ c0 G3) (ex_intro _ c1 G8) (ex_intro _ c2 G9)) as [[_ U]|(X1 & X2 & X3 & X4 & X5 & X6)].
  - left. revert U. unfold ev_map_by. cbn [outer_of ou_tags]. rewrite F1. cbn [stk s1]. rewrite G10. unfold eret at 1. fold heap.
    assert (RP : r_start (outer_of s1) ps Collect v = r_moved (r_probe r v) (length (paths s))).
    { unfold r_start, outer_of, r_moved, r_probe. cbn. now rewrite G8, G8', G9, G9', G10, G7, G6. }
    rewrite RP.
    destruct (par_form_map W (length (paths s)) erec (PAR (length (paths s))) (r_probe r v) (length h) (r_tags r) UIgnore eq_refl [] [] h1 eq_refl) as (E1 & E2 & E3).
    unfold heap in *. destruct (ev_form_map W erec (r_probe r v) (length h) (r_tags r) UIgnore ([], h1)) as [z [ez hz]].
    destruct (ev_form_map W erec (r_moved (r_probe r v) (length (paths s))) (length h) (r_tags r) UIgnore ([], h1)) as [z' [ez' hz']].
    cbn [fst snd] in *. subst z'. destruct z as [z|z]; cbn; [discriminate|now intros [= ->]].
  - revert X1 X2. unfold ev_map_by. cbn [outer_of ou_tags]. rewrite F1. cbn [stk s1]. rewrite G10. unfold eret at 1 2.
    assert (RP : r_start (outer_of s1) ps Collect v = r_moved (r_probe r v) (length (paths s))).
    { unfold r_start, outer_of, r_moved, r_probe. cbn. now rewrite G8, G8', G9, G9', G10, G7, G6. }
    rewrite RP.
    destruct (par_form_map W (length (paths s)) erec (PAR (length (paths s))) (r_probe r v) (length h) (r_tags r) UIgnore eq_refl [] [] h1 eq_refl) as (E1 & E2 & E3).
    unfold heap in *. destruct (ev_form_map W erec (r_probe r v) (length h) (r_tags r) UIgnore ([], h1)) as [z [ez hz]].
    destruct (ev_form_map W erec (r_moved (r_probe r v) (length (paths s))) (length h) (r_tags r) UIgnore ([], h1)) as [z' [ez' hz']].
    cbn [fst snd] in *. subst z' hz'. intros X1 X2.
    assert (XM : types_probe W rec probe tf v s =
      (es <- form_map W rec (length h) (ASrc (SBase (BPlain ps))) [] false UIgnore Collect; match es with [] => field_get W rec tf (length h) | e :: _ => raise (EField e) end) s1).
    { unfold types_probe, new_form, bind. fold s1. rewrite G1. reflexivity. }
    rewrite XM. unfold bind. destruct (form_map W rec (length h) (ASrc (SBase (BPlain ps))) [] false UIgnore Collect s1) as [x s2]. cbn [fst snd] in *.
    assert (GA : agree W root src eid r s2 es hz).
    { apply (agree_heap root src eid r s s2 es h hz G); [now destruct z|exact X3|now apply X5|now apply X6]. }
    assert (OA : others eid (r_pid r) s s2) by (split; cbn [s1 errs paths] in *; auto).
    assert (F2 : forms s2 = hz) by (destruct z; exact X2).
    destruct z as [z|z]; cbn [fst snd] in *; subst x.
    + destruct ez' as [|e' ez'], ez as [|e ez]; try discriminate.
      * unfold field_get, form_entries, get, bind. cbn [fst snd].
        change (entries s2 (length h)) with (hents (forms s2) (length h)). rewrite F2.
        destruct (dict_get (hents hz (length h)) (VStr (fname tf))) as [w|]; [right|left; reflexivity].
        cbn [ret fst snd]. auto 10.
      * right. cbn [raise fst snd]. split; [right; exists e'; split; [reflexivity|]|auto 10].
        injection E2 as E2 _. congruence.
    + right. cbn [fst snd]. auto 10.
Qed.
Lemma wsim_report_error root src eid r x : wsim W root src poly eid r (report W (Invalid x);; ret ERRORv) (ev_invalid W r x).
Proof. exact (wsim_of W root src poly eid r _ _ (sim_invalid W root src eid r x)). Qed.
Lemma sim_poly root src Loc : regime E src root Loc -> confined Loc -> poly ->
  forall probe tf table rs u, pdirect_form poly probe -> pdirect_unm poly u ->
  forall eid r v, here Loc src r v ->
  wsim W root src poly eid r (parse_poly W rec probe tf table rs u (r_pid r)) (ev_poly W erec r probe tf table rs u).
Proof.
  intros RG CO PO probe tf table rs u D Du eid r v H. destruct (CO PO) as (P & PN & LP).
  pose proof (here_startable W root Loc src RG r v H) as ST.
  set (fin := fun x : res val => match x with
      | Exn e => if is_value_error e then report W (Invalid (VioExn (spoken e)));; ret ERRORv else raise e
      | Ok ident =>
          if is_None ident then ret NONEv
          else if negb (hashable ident) then raise dict_unhashable
          else match dict_get (map (fun ic => (fst ic, VStr (snd ic))) table) ident with
               | Some (VStr c) => match w_class W c with Some t => parse_form W rec t rs u | None => raise (EOther "no such class") end
               | _ => report W (Invalid (VioIdentity ident));; ret ERRORv
               end
      end : M val).
  apply (wsim_ext W root src poly eid r _ (v <- path_value W (r_pid r); catch (types_probe W rec probe tf v) fin) _ (ev_poly W erec r probe tf table rs u)); [|reflexivity|].
  { intros s. unfold parse_poly, poly_type, bind, catch. destruct (path_value W (r_pid r) s) as [[a|e] s1]; [|reflexivity].
    destruct (types_probe W rec probe tf a s1) as [[i|e] s2]; cbn [fin].
    - destruct (is_None i); [reflexivity|]. destruct (hashable i); cbn [negb]; [|reflexivity].
      destruct (dict_get _ i) as [[]|]; try (unfold bind; destruct (report W (Invalid (VioIdentity i)) s2) as [[]]; reflexivity).
      destruct (w_class W s0); reflexivity.
    - destruct (is_value_error e); [|reflexivity]. unfold bind. destruct (report W (Invalid (VioExn (spoken e))) s2) as [[]]; reflexivity. }
  unfold ev_poly. apply (sim_bind_if W root src poly eid r); [exact (wsim_of W root src poly eid r _ _ (sim_value W root Loc src RG eid r))|].
  intros a Ha. destruct H as (Hs & Hv & HL). pose proof (on_val_ok r (fun x => Ok x) v a Hv Ha) as Q. injection Q as <-.
  intros s es h G. destruct (probe_at root src eid r s es h P v probe tf PO G PN (LP v HL) D) as [U|(X1 & X2 & X3 & X4 & X5)].
  { left. split; [exact PO|]. unfold ecatch. destruct (ev_probe W erec r probe tf v (es, h)) as [z hz]. cbn [fst] in U. subst z. reflexivity. }
  unfold catch, ecatch. destruct (types_probe W rec probe tf v s) as [x s1]. destruct (ev_probe W erec r probe tf v (es, h)) as [y [es1 h1]]. cbn [fst snd] in *. subst es1.
  match goal with |- (_ /\ fst (?g _) = _) \/ _ => set (k := g) end.
  assert (K : wsim W root src poly eid r (fin x) (fun st => (match y with
      | Exn e => if is_value_error e then ev_invalid W r (VioExn (spoken e)) else eraise e
      | Ok ident =>
          if is_None ident then eret NONEv
          else if negb (hashable ident) then eraise dict_unhashable
          else match dict_get (map (fun ic => (fst ic, VStr (snd ic))) table) ident with
               | Some (VStr c) => match w_class W c with Some t => ev_form W erec r t rs u | None => eraise (EOther "no such class") end
               | _ => ev_invalid W r (VioIdentity ident)
               end
      end) st)).
  { destruct X1 as [<-|(e & -> & ->)].
    - destruct x as [i|e]; cbn [fin].
      + apply wsim_if; [apply wsim_of, sim_ret|]. apply wsim_if; [apply wsim_of, sim_raise|].
        destruct (dict_get _ i) as [[]|]; try apply wsim_report_error.
        destruct (w_class W s0) as [t|] eqn:Cl; [|apply wsim_of, sim_raise].
        exact (sim_sub W root Loc src RG poly rec erec (REC root src Loc RG CO) eid r t rs u (CLS PO s0 t Cl) Du ST).
      + apply wsim_if; [apply wsim_report_error|apply wsim_of, sim_raise].
    - cbn [fin is_value_error spoken]. assert (untied (untied e) = untied e) as -> by (destruct e; reflexivity). apply wsim_report_error. }
  destruct (K s1 es h1 X3) as [L|(K1 & K2 & K3 & K4)]; [left; exact L|right].
  split; [exact K1|]. split; [exact K2|]. split; [congruence|]. eapply others_trans; eauto.
Qed.
End Poly.

Section Field.
Variables (W : world) (poly : Prop).
Hypothesis CLS : poly -> forall c t, w_class W c = Some t -> pdirect_form poly t.
Lemma sim_field fuel : forall root src Loc, regime (w_env W) src root Loc -> confined W poly Loc -> forall eid r f v, pdirect poly f ->
  startable W src r -> wsim W root src poly eid r (field_map W fuel f v) (ev_field W fuel r f v).
Proof.
  induction fuel as [|n IH]; intros root src Loc RG CO eid r f v D ST; cbn [field_map ev_field]; [apply wsim_of, sim_raise|].
  apply (sim_field_body W root Loc src RG); auto.
  - intros. eapply IH; eauto.
  - apply sim_poly; auto. intros. now apply par_field.
Qed.
End Field.
Lemma strong_field W fuel root src Loc : regime (w_env W) src root Loc ->
  forall eid r f v, direct f -> startable W src r -> sim W root src eid r (field_map W fuel f v) (ev_field W fuel r f v).
Proof.
  intros RG eid r f v D ST s es h G.
  destruct (sim_field W False ltac:(tauto) fuel root src Loc RG ltac:(intros []) eid r f v (proj1 (direct_poly False) f D) ST s es h G) as [[[] _]|X].
  exact X.
Qed.
