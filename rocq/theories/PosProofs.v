(** * PosProofs: sequences read by field names (C71). *)
From Coq Require Import Lia.
From Verif Require Import PyBase PyStr Source Field Fields SpecSrc SrcPath FormProofs SpecPos.

Section Pos.
Variables (E : env) (ents : entries_of).

Lemma alias_deep al (ks : list key) c k : length ks <> 1%nat -> as_alias E ents al (length ks) c k = Ok (VConst NONE).
Proof.
  intros L. unfold as_alias. destruct k as [s|z|v]; try reflexivity. destruct (alookup al s); [|reflexivity].
  destruct (Nat.eqb (length ks) 1) eqn:B; [|reflexivity]. apply Nat.eqb_eq in B. contradiction.
Qed.
Lemma step_deep al (ks : list key) c k : length ks <> 1%nat -> default_resolve1 E ents al [] ks c k = default_resolve1 E ents [] [] ks c k.
Proof. intros L. unfold default_resolve1. cbn [is_ignored existsb]. rewrite !alias_deep by exact L. reflexivity. Qed.
Lemma resolve_deep al n : forall (ks : list key) c k, length ks <> 1%nat -> default_resolve n E ents al [] ks c k = default_resolve n E ents [] [] ks c k.
Proof.
  induction n as [|n IH]; intros ks c k L; cbn [default_resolve]; destruct k as [s|z|v]; try (now apply step_deep).
  - rewrite step_deep by exact L. destruct (default_resolve1 E ents [] [] ks c (KStr s)) as [v|e];
      destruct (strip_call s); try reflexivity; destruct (is_NONE v); try reflexivity; apply walk_atoms_ext; intros; now apply step_deep.
  - rewrite step_deep by exact L. destruct (strip_call s) as [s'|].
    + rewrite IH by exact L. reflexivity.
    + destruct (default_resolve1 E ents [] [] ks c (KStr s)) as [v|e]; [|reflexivity].
      destruct (is_NONE v); [|reflexivity]. apply walk_atoms_ext; intros; now apply step_deep.
Qed.

Variables (d1 d2 : val) (al : list (string * key)) (loc : option string).
Let src1 := SDefault d1 al [] loc.
Let src2 := SDefault d2 [] [] loc.
Lemma resolves_deep (ks : list key) c k : length ks <> 1%nat -> psource_resolve E ents src1 ks c k = psource_resolve E ents src2 ks c k.
Proof. intros L. cbn [psource_resolve]. now apply resolve_deep. Qed.
Lemma walk_ext f g : (forall c k, f c k = g c k) -> forall ps cur, walk_parts f cur ps = walk_parts g cur ps.
Proof.
  intros H. induction ps as [|p ps IH]; intros cur; cbn [walk_parts]; [reflexivity|]. rewrite H. destruct (g cur (pk p)) as [v|e]; [|reflexivity].
  destruct (is_NONE v); [reflexivity|]. now rewrite IH.
Qed.

(** Two paths over the two sources with the same parts, of which the first was read. *)
Definition top_read (ps : list part) : Prop := exists n v rest, ps = Part (KStr n) (Some v) :: rest.
Lemma last_cached_top ps : top_read ps -> (exists e, last_cached (rev ps) = Exn e) \/
  exists n v, last_cached (rev ps) = Ok (Some (n, v)) /\ (n < length ps)%nat.
Proof.
  intros (n & v & rest & ->). cbn [rev]. set (l := rev rest).
  assert (X : (exists e, last_cached (l ++ [Part (KStr n) (Some v)]) = Exn e) \/
    exists m w, last_cached (l ++ [Part (KStr n) (Some v)]) = Ok (Some (m, w)) /\ (m <= length l)%nat).
  { induction l as [|p l IH]; cbn [app last_cached pk pc]; [right; exists O, v; split; [reflexivity|lia]|].
    destruct (pk p) as [s|z|x].
    - destruct (pc p) as [w|]; [right; exists O, w; split; [reflexivity|cbn; lia]|].
      destruct IH as [(e & ->)|(m & w & -> & L)]; [left; eauto|right; exists (S m), w; split; [reflexivity|cbn; lia]].
    - destruct (pc p) as [w|]; [right; exists O, w; split; [reflexivity|cbn; lia]|].
      destruct IH as [(e & ->)|(m & w & -> & L)]; [left; eauto|right; exists (S m), w; split; [reflexivity|cbn; lia]].
    - left. eauto. }
  destruct X as [X|(m & w & X & L)]; [left; exact X|right; exists m, w; split; [exact X|]]. unfold l in L. rewrite rev_length in L. cbn. lia.
Qed.
Lemma walk_keys f : forall ps cur, map pk (fst (walk_parts f cur ps)) = map pk ps.
Proof.
  induction ps as [|p ps IH]; intros cur; cbn [walk_parts]; [reflexivity|]. destruct (f cur (pk p)) as [v|e]; [|reflexivity].
  destruct (is_NONE v); [reflexivity|]. specialize (IH v). destruct (walk_parts f v ps) as [r q]. cbn [fst map pk] in *. now rewrite IH.
Qed.
Lemma value_alike ps : top_read ps ->
  exists ps' r, pp_value E ents (Source.PPath src1 d1 ps) = (Source.PPath src1 d1 ps', r) /\ pp_value E ents (Source.PPath src2 d2 ps) = (Source.PPath src2 d2 ps', r) /\
    top_read ps' /\ length ps' = length ps.
Proof.
  intros T. unfold pp_value. cbn [pp_parts pp_root pp_src]. change (pp_keys (Source.PPath src1 d1 ps)) with (map pk ps). change (pp_keys (Source.PPath src2 d2 ps)) with (map pk ps).
  destruct (last_cached_top ps T) as [(e & ->)|(n & v & -> & L)]; [exists ps, (Exn e); auto|].
  destruct (Nat.eq_dec (length ps) 1) as [L1|L1].
  - assert (n = O) by lia. subst n. rewrite Nat.sub_0_r, skipn_all. cbn [walk_parts]. rewrite firstn_all, app_nil_r. exists ps, (Ok v). auto.
  - rewrite (walk_ext _ (psource_resolve E ents src2 (map pk ps))) by (intros; apply resolves_deep; rewrite map_length; exact L1).
    destruct (walk_parts _ v _) as [rest r] eqn:WP. exists (firstn (length ps - n) ps ++ rest), r. split; [reflexivity|]. split; [reflexivity|].
    assert (LR : length rest = length (skipn (length ps - n) ps)).
    { match type of WP with walk_parts ?f ?c ?l = _ => pose proof (walk_keys f l c) as K end. rewrite WP in K. cbn [fst] in K.
      apply (f_equal (@length key)) in K. now rewrite !map_length in K. }
    split.
    + destruct T as (a & w & tl & ->). destruct (length (Part (KStr a) (Some w) :: tl) - n)%nat as [|i] eqn:D; [lia|]. cbn [firstn app]. unfold top_read. eauto.
    + rewrite app_length, LR, firstn_length, skipn_length. lia.
Qed.

Definition alike (p1 p2 : path) (d : nat) : Prop :=
  exists ps, p1 = PBase (BP (Source.PPath src1 d1 ps)) /\ p2 = PBase (BP (Source.PPath src2 d2 ps)) /\ top_read ps /\ length ps = S d.
Lemma read_alike op p1 p2 d : alike p1 p2 d ->
  alike (fst (do_read E ents op p1)) (fst (do_read E ents op p2)) d /\ snd (do_read E ents op p1) = snd (do_read E ents op p2).
Proof.
  intros (ps & -> & -> & T & L). destruct (value_alike ps T) as (ps' & r & V1 & V2 & T' & L').
  destruct op; cbn [do_read p_value p_exists p_is_null p_primitive p_sequence p_mapping bp_value bp_exists bp_is_null bp_primitive bp_sequence bp_mapping];
    unfold bp_value, bp_exists, bp_is_null, bp_primitive, bp_sequence, bp_mapping, on_bp, pp_exists, pp_is_null, pp_primitive, pp_sequence, pp_mapping; rewrite V1, V2; cbn [fst snd].
  all: try (split; [exists ps'; repeat split; auto; congruence|]).
  all: try reflexivity.
  destruct r as [v|e]; [|reflexivity]. cbn [pp_src pp_parts psource_mapping]. rewrite L. cbn [Nat.eqb].
  f_equal. destruct al as [|a al']; reflexivity.
Qed.
Lemma drive_alike : forall l p1 p2 d, alike p1 p2 d -> stays_below d l -> drive E ents l p1 = drive E ents l p2.
Proof.
  induction l as [|c l IH]; intros p1 p2 d A S; [reflexivity|]. destruct c as [k| |op]; cbn [stays_below] in S; cbn [drive do_cmd].
  - f_equal. apply (IH _ _ (Datatypes.S d)); [|exact S]. destruct A as (ps & -> & -> & (n & v & rest & ->) & L).
    exists (Part (KStr n) (Some v) :: rest ++ [Part k None]). repeat split; auto.
    + unfold top_read. eauto.
    + cbn in *. rewrite app_length. cbn. lia.
  - destruct d as [|d]; [contradiction|]. destruct A as (ps & -> & -> & (n & v & rest & ->) & L). cbn [p_pop bp_pop pp_pop pp_parts pp_src pp_root].
    destruct rest as [|q rest]; [discriminate|]. unfold bp_pop, on_bp, pp_pop. cbn [pp_parts pp_src pp_root]. f_equal. apply (IH _ _ d); [|exact S].
    exists (Part (KStr n) (Some v) :: removelast (q :: rest)). split; [reflexivity|]. split; [reflexivity|]. split; [unfold top_read; eauto|].
    cbn [length] in *. assert (length (removelast (q :: rest)) = length rest) by (clear; revert q; induction rest as [|a rest IH]; intros q; [reflexivity|]; change (removelast (q :: a :: rest)) with (q :: removelast (a :: rest)); cbn [length]; now rewrite IH).
    lia.
  - destruct (read_alike op p1 p2 d A) as [A' O]. destruct (do_read E ents op p1), (do_read E ents op p2). cbn [fst snd] in *. subst. f_equal. eapply IH; eauto.
Qed.
End Pos.

(** ** The names of the fields *)
Lemma alias_at fs : forall i f z, NoDup (map fname fs) -> nth_error fs i = Some f ->
  alookup (seq_aliases z fs) (fname f) = Some (KInt (z + Z.of_nat i)).
Proof.
  induction fs as [|g fs IH]; intros i f z ND H; [destruct i; discriminate|]. inversion ND as [|a l NI ND' EQ]; subst. cbn [seq_aliases].
  assert (NL : forall fs z n, ~ In n (map fname fs) -> alookup (seq_aliases z fs) n = None).
  { clear. induction fs as [|g fs IH]; intros z n NI; [reflexivity|]. cbn [seq_aliases map In] in *.
    destruct (alookup (seq_aliases (z + 1) fs) (fname g)); [apply IH; tauto|]. cbn [alookup].
    destruct (String.eqb (fname g) n) eqn:Q; [apply String.eqb_eq in Q; tauto|]. rewrite String.eqb_sym in Q. rewrite ?Q. apply IH; tauto. }
  rewrite (NL fs (z + 1) (fname g) NI). destruct i as [|i].
  - injection H as <-. cbn [alookup]. rewrite String.eqb_refl. f_equal. f_equal. lia.
  - cbn in H. cbn [alookup]. assert (NE : fname f <> fname g). { intros Q. apply NI. rewrite <- Q. apply in_map. eapply nth_error_In; eauto. }
    destruct (String.eqb (fname f) (fname g)) eqn:Q; [apply String.eqb_eq in Q; contradiction|].
    rewrite ?(String.eqb_sym (fname g)), ?Q. rewrite (IH i f (z + 1) ND' H). f_equal. f_equal. lia.
Qed.
Lemma free_split n : free_of "." n -> split_on dot n = [n].
Proof.
  intros F. apply split_no_dot. unfold has_char. destruct (existsb (Ascii.eqb dot) (chars n)) eqn:X; [|reflexivity].
  apply existsb_exists in X. destruct X as (c & I & Q). apply Ascii.eqb_eq in Q. subst c. exfalso. exact (F I).
Qed.
Lemma index_nat {A} (l : list A) i : py_index l (0 + Z.of_nat i) = nth_error l i.
Proof.
  unfold py_index. rewrite Z.add_0_l. destruct (Z.ltb_spec (Z.of_nat i) 0); [lia|]. cbn [orb].
  rewrite Nat2Z.id. destruct (Z.ltb_spec (Z.of_nat i) 0); [lia|]. cbn [orb]. destruct (Z.leb_spec (Z.of_nat (length l)) (Z.of_nat i)); [|reflexivity].
  symmetry. apply nth_error_None. lia.
Qed.
Lemma by_name_get fs : forall vs i f, NoDup (map fname fs) -> nth_error fs i = Some f -> dict_get (by_name fs vs) (VStr (fname f)) = nth_error vs i.
Proof.
  induction fs as [|g fs IH]; intros vs i f ND H; [destruct i; discriminate|]. inversion ND as [|a l NI ND' EQ]; subst.
  destruct vs as [|v vs]; [destruct i; reflexivity|]. cbn [by_name]. unfold dict_get. cbn [find fst snd]. change (py_eq (VStr (fname g)) (VStr (fname f))) with (String.eqb (fname g) (fname f)). destruct i as [|i].
  - injection H as <-. now rewrite String.eqb_refl.
  - cbn in H. assert (NE : fname g <> fname f). { intros Q. apply NI. rewrite Q. apply in_map. eapply nth_error_In; eauto. }
    apply String.eqb_neq in NE. rewrite NE. apply (IH vs i f ND' H).
Qed.
Definition sequence_of (sq : val) (vs : list val) : Prop := sq = VList vs \/ sq = VTuple vs.
Lemma resolve_seq E ents fs vs sq i f loc : sequence_of sq vs -> Forall (fun v => is_NONE v = false) vs ->
  NoDup (map fname fs) -> nth_error fs i = Some f -> identifier (fname f) ->
  (nth_error vs i = None -> e_attr E sq (fname f) = None) ->
  psource_resolve E ents (SDefault sq (seq_aliases 0 fs) [] loc) [KStr (fname f)] sq (KStr (fname f)) =
  Ok (match nth_error vs i with Some v => v | None => VConst NONE end).
Proof.
  intros SQ NN ND F [FD ID] AT.
  assert (S1 : default_resolve1 E ents (seq_aliases 0 fs) [] [KStr (fname f)] sq (KStr (fname f)) =
               Ok (match nth_error vs i with Some v => v | None => VConst NONE end)).
  { unfold default_resolve1. cbn [is_ignored existsb]. assert (IT : as_item E ents sq (KStr (fname f)) = Ok (VConst NONE)) by (destruct SQ; subst; reflexivity).
    rewrite IT. cbn [is_NONE negb]. unfold as_alias. rewrite (alias_at fs i f 0 ND F). cbn [length Nat.eqb].
    assert (IA : as_item E ents sq (KInt (0 + Z.of_nat i)) = Ok (match nth_error vs i with Some v => v | None => VConst NONE end)).
    { unfold as_item. destruct SQ as [->| ->]; cbn [py_getitem]; rewrite index_nat; destruct (nth_error vs i); reflexivity. }
    rewrite IA. destruct (nth_error vs i) as [v|] eqn:N.
    - rewrite Forall_forall in NN. rewrite (NN v) by (eapply nth_error_In; eauto). reflexivity.
    - cbn [is_NONE negb]. unfold as_attr, py_getattr. specialize (AT eq_refl). destruct SQ; subst; now rewrite AT. }
  cbn [psource_resolve]. destruct (String.length (fname f)); cbn [default_resolve]; rewrite ID, S1; destruct (nth_error vs i) as [v|] eqn:N; cbn [is_NONE].
  1,3: rewrite Forall_forall in NN; now rewrite (NN v) by (eapply nth_error_In; eauto).
  all: rewrite (free_split _ FD); cbn [walk_atoms]; rewrite S1; reflexivity.
Qed.
Lemma resolve_dict E ents fs vs ks i f loc : Forall (fun v => is_NONE v = false) vs ->
  NoDup (map fname fs) -> nth_error fs i = Some f -> identifier (fname f) ->
  (nth_error vs i = None -> e_attr E (VDict (by_name fs vs)) (fname f) = None) ->
  psource_resolve E ents (SDefault (VDict (by_name fs vs)) [] [] loc) ks (VDict (by_name fs vs)) (KStr (fname f)) =
  Ok (match nth_error vs i with Some v => v | None => VConst NONE end).
Proof.
  intros NN ND F [FD ID] AT.
  assert (S1 : default_resolve1 E ents [] [] ks (VDict (by_name fs vs)) (KStr (fname f)) = Ok (match nth_error vs i with Some v => v | None => VConst NONE end)).
  { unfold default_resolve1. cbn [is_ignored existsb]. unfold as_item. cbn [py_getitem val_of_key]. rewrite (by_name_get fs vs i f ND F).
    destruct (nth_error vs i) as [v|] eqn:N; cbn [or_NONE is_lookup_or_type is_NONE negb].
    - rewrite Forall_forall in NN. now rewrite (NN v) by (eapply nth_error_In; eauto).
    - cbn [as_alias alookup]. cbn [is_NONE negb]. unfold as_attr, py_getattr. now rewrite (AT eq_refl). }
  cbn [psource_resolve]. destruct (String.length (fname f)); cbn [default_resolve]; rewrite ID, S1; destruct (nth_error vs i) as [v|] eqn:N; cbn [is_NONE].
  1,3: rewrite Forall_forall in NN; now rewrite (NN v) by (eapply nth_error_In; eauto).
  all: rewrite (free_split _ FD); cbn [walk_atoms]; rewrite S1; reflexivity.
Qed.
Lemma C71_value_lem E ents fs vs sq i f : sequence_of sq vs -> Forall (fun v => is_NONE v = false) vs ->
  NoDup (map fname fs) -> nth_error fs i = Some f -> identifier (fname f) ->
  (nth_error vs i = None -> e_attr E sq (fname f) = None) ->
  value_at E ents (SDefault sq (seq_aliases 0 fs) [] None) sq [KStr (fname f)] =
  Ok (match nth_error vs i with Some v => v | None => VConst NONE end).
Proof.
  intros SQ NN ND F ID AT. unfold value_at, untouched. cbn [map p_value]. unfold bp_value, on_bp, pp_value.
  cbn [pp_parts pp_root pp_src pp_keys rev app map pk pc last_cached length Nat.sub skipn walk_parts].
  change (pp_keys _) with [KStr (fname f)].
  rewrite (resolve_seq E ents fs vs sq i f None SQ NN ND F ID AT). destruct (is_NONE _); reflexivity.
Qed.
Lemma C71_reads_lem E ents fs vs sq i f op l : sequence_of sq vs -> Forall (fun v => is_NONE v = false) vs ->
  NoDup (map fname fs) -> nth_error fs i = Some f -> identifier (fname f) ->
  (nth_error vs i = None -> e_attr E sq (fname f) = None /\ e_attr E (VDict (by_name fs vs)) (fname f) = None) ->
  stays_below 0 l ->
  let cmds := Down (KStr (fname f)) :: Read op :: l in
  drive E ents cmds (untouched (SDefault sq (seq_aliases 0 fs) [] None) sq []) =
  drive E ents cmds (untouched (SDefault (VDict (by_name fs vs)) [] [] None) (VDict (by_name fs vs)) []).
Proof.
  intros SQ NN ND F ID AT SB. cbv zeta. set (w := match nth_error vs i with Some v => v | None => VConst NONE end).
  assert (R1 : pp_value E ents (Source.PPath (SDefault sq (seq_aliases 0 fs) [] None) sq [Part (KStr (fname f)) None]) =
               (Source.PPath (SDefault sq (seq_aliases 0 fs) [] None) sq [Part (KStr (fname f)) (Some w)], Ok w)).
  { unfold pp_value. cbn [pp_parts pp_root pp_src pp_keys rev app map pk pc last_cached length Nat.sub skipn walk_parts firstn]. change (pp_keys _) with [KStr (fname f)].
    rewrite (resolve_seq E ents fs vs sq i f None SQ NN ND F ID (fun H => proj1 (AT H))). fold w. destruct (is_NONE w); reflexivity. }
  assert (R2 : pp_value E ents (Source.PPath (SDefault (VDict (by_name fs vs)) [] [] None) (VDict (by_name fs vs)) [Part (KStr (fname f)) None]) =
               (Source.PPath (SDefault (VDict (by_name fs vs)) [] [] None) (VDict (by_name fs vs)) [Part (KStr (fname f)) (Some w)], Ok w)).
  { unfold pp_value. cbn [pp_parts pp_root pp_src pp_keys rev app map pk pc last_cached length Nat.sub skipn walk_parts firstn].
    rewrite (resolve_dict E ents fs vs _ i f None NN ND F ID (fun H => proj2 (AT H))). fold w. destruct (is_NONE w); reflexivity. }
  assert (A : alike sq (VDict (by_name fs vs)) (seq_aliases 0 fs) None
     (PBase (BP (Source.PPath (SDefault sq (seq_aliases 0 fs) [] None) sq [Part (KStr (fname f)) (Some w)])))
     (PBase (BP (Source.PPath (SDefault (VDict (by_name fs vs)) [] [] None) (VDict (by_name fs vs)) [Part (KStr (fname f)) (Some w)]))) 0).
  { eexists. split; [reflexivity|]. split; [reflexivity|]. split; [unfold top_read; eauto|reflexivity]. }
  cbn [drive do_cmd]. f_equal. unfold untouched. cbn [map p_append bp_append pp_append]. unfold pp_append. cbn [pp_src pp_root pp_parts app].
  pose proof (drive_alike E ents _ _ _ _ l _ _ 0 A SB) as D.
  destruct op; cbn [do_read p_value p_exists p_is_null p_primitive p_sequence p_mapping];
    unfold bp_value, bp_exists, bp_is_null, bp_primitive, bp_sequence, bp_mapping, on_bp, pp_exists, pp_is_null, pp_primitive, pp_sequence, pp_mapping;
    rewrite R1, R2; cbn [pp_src pp_parts length psource_mapping psource_sequence psource_parse Nat.eqb]; rewrite D; try reflexivity.
  f_equal. f_equal. destruct (seq_aliases 0 fs); reflexivity.
Qed.
