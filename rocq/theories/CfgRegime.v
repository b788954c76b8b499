(** * CfgRegime: configuration files are covered by [Refine]. *)
From Verif Require Import PyBase PyStr Source Field Context Fields SpecSrc SrcPath SrcProofs Shape Balance Eval Refine Regime.
From Coq Require Import Lia.

(** What is found in a configuration: sections, options, and the values of its defaults. *)
Inductive cfg_loc : val -> Prop :=
| cl_json v : json_val v = true -> cfg_loc v
| cl_sec opts d : json_val d = true -> cfg_loc (VCfgSec opts d)
| cl_root cfg l : json_val (VDict l) = true -> cfg_loc (VCfgRoot cfg (VDict l)).

Definition str_dict (l : list (val * val)) : Prop := forall k v, In (k, v) l -> exists s, k = VStr s /\ json_val v = true.
Lemma str_dict_json l : str_dict l <-> json_val (VDict l) = true.
Proof.
  cbn [json_val]. rewrite forallb_forall. split.
  - intros H [k v] I. destruct (H k v I) as (s & -> & J). exact J.
  - intros H k v I. specialize (H _ I). cbn [fst snd] in H. destruct k; try discriminate. eauto.
Qed.
Lemma set_str_dict l s v : str_dict l -> json_val v = true -> str_dict (dict_set l (VStr s) v).
Proof.
  intros H J. induction l as [|[k w] l IH]; cbn [dict_set].
  - intros a b [[= <- <-]|[]]. eauto.
  - destruct (py_eq k (VStr s)).
    + intros a b [[= <- <-]|I]; [|exact (H a b (or_intror I))]. destruct (H k w (or_introl eq_refl)) as (s' & -> & _). eauto.
    + intros a b [[= <- <-]|I]; [exact (H k w (or_introl eq_refl))|]. apply IH; [|exact I]. intros x y X. exact (H x y (or_intror X)).
Qed.
Lemma get_str_dict l k v : str_dict l -> dict_get l k = Some v -> json_val v = true.
Proof.
  intros H G. unfold dict_get in G. destruct (find _ l) as [[a b]|] eqn:F; [|discriminate]. injection G as <-.
  apply find_some in F. destruct F as [F _]. now destruct (H a b F) as (s & _ & J).
Qed.
Lemma subs_fine opts : str_dict (sub_mappings opts).
Proof.
  unfold sub_mappings. assert (G : forall opts acc, str_dict acc -> str_dict (fold_left (fun acc ov => match sub_option (fst ov) with
    | None => acc | Some (n, k) => let d := match dict_get acc (VStr n) with Some (VDict d) => d | _ => [] end in
        dict_set acc (VStr n) (VDict (dict_set d (VStr k) (VStr (snd ov)))) end) opts acc)).
  { clear. induction opts as [|[o v] opts IH]; intros acc A; [exact A|]. cbn [fold_left fst snd]. apply IH.
    destruct (sub_option o) as [[n k]|]; [|exact A]. apply set_str_dict; [exact A|]. apply str_dict_json, set_str_dict; [|reflexivity].
    destruct (dict_get acc (VStr n)) as [w|] eqn:G; [|intros ? ? []]. pose proof (get_str_dict _ _ _ A G) as J.
    destruct w; try (intros ? ? []; fail). now apply str_dict_json. }
  apply G. intros ? ? [].
Qed.
Section Cfg.
Variables (E : env) (cfg : config) (sec : option string) (d : val) (loc : option string).
Lemma section_in opts dd s : json_val dd = true -> exists w, or_NONE (section_getitem opts dd (KStr s)) = Ok w /\ (w = VConst NONE \/ json_val w = true).
Proof.
  intros J. unfold section_getitem. destruct (dict_get (sub_mappings opts) (VStr s)) as [w|] eqn:G; [eexists; split; [reflexivity|right; exact (get_str_dict _ _ _ (subs_fine opts) G)]|].
  destruct (alookup opts (lower s)); [eexists; split; [reflexivity|now right]|]. destruct dd; try (eexists; split; [reflexivity|now left]).
  destruct (dict_get l (VStr s)) as [w|] eqn:D; [|eexists; split; [reflexivity|now left]]. eexists. split; [reflexivity|]. right. exact (get_str_dict _ _ _ (proj2 (str_dict_json l) J) D).
Qed.
Lemma root_in c l s : json_val (VDict l) = true -> exists w, or_NONE (cfgroot_getitem c (VDict l) (KStr s)) = Ok w /\ (w = VConst NONE \/ cfg_loc w).
Proof.
  intros J. unfold cfgroot_getitem. destruct (alookup c s) as [o|]; [|eexists; split; [reflexivity|now left]]. eexists. split; [reflexivity|]. right. apply cl_sec.
  destruct (dict_get l (VStr s)) as [w|] eqn:D; [|reflexivity]. exact (get_str_dict _ _ _ (proj2 (str_dict_json l) J) D).
Qed.
Lemma index_in {A} (l : list A) i w : py_index l i = Some w -> In w l.
Proof. unfold py_index. destruct (_ || _)%bool; [discriminate|]. apply nth_error_In. Qed.
Lemma json_in ents c k w : json_val c = true -> (forall s, c <> VStr s) -> py_getitem E ents c k = Ok w -> json_val w = true.
Proof.
  intros J NS. destruct c; try discriminate; cbn [py_getitem].
  - now destruct (NS s).
  - destruct k; try discriminate. destruct (py_index l z) as [v|] eqn:P; [|discriminate]. intros [= <-]. apply index_in in P.
    cbn in J. rewrite forallb_forall in J. auto.
  - destruct (dict_get l (val_of_key k)) as [v|] eqn:P; [|discriminate]. intros [= <-]. exact (get_str_dict _ _ _ (proj2 (str_dict_json l) J) P).
Qed.
Lemma cfg_absorbs : absorbing E (SConfig cfg sec d loc).
Proof. intros k PK. reflexivity. Qed.
Lemma index_some {A} (l : list A) i : 0 <= i < Z.of_nat (length l) -> exists w, py_index l i = Some w.
Proof.
  intros B. unfold py_index. destruct (i <? 0) eqn:N; [apply Z.ltb_lt in N; lia|].
  destruct (nth_error l (Z.to_nat i)) as [w|] eqn:Q; [|apply nth_error_None in Q; lia].
  exists w. destruct (_ || _)%bool eqn:O; [|reflexivity]. apply Bool.orb_true_iff in O. destruct O as [O|O]; [apply Z.ltb_lt in O; lia|apply Z.leb_le in O; lia].
Qed.
Lemma item_ok ents c s : cfg_loc c -> (forall t, c <> VStr t) -> exists w, or_NONE (py_getitem E ents c (KStr s)) = Ok w.
Proof.
  intros [v J|opts dd J|c' l J] NS.
  - destruct v; try discriminate; cbn [py_getitem]; try (eexists; reflexivity). destruct (dict_get _ _); eexists; reflexivity.
  - destruct (section_in opts dd s J) as (w & H & _). eauto.
  - destruct (root_in c' l s J) as (w & H & _). eauto.
Qed.
Lemma config_regime root : cfg_loc root -> regime E (SConfig cfg sec d loc) root cfg_loc.
Proof.
  intros LR. split; auto.
  - intros v [w J|? ? _|? ? _]; [now apply json_not_NONE|reflexivity|reflexivity].
  - intros ents c k [L|[_ ->]] K; [|reflexivity]. cbn [psource_resolve]. unfold config_resolve.
    destruct L as [v J|opts dd J|c' l J]; try reflexivity. destruct v; try discriminate; reflexivity.
  - intros c k w L K. cbn [psource_resolve]. unfold config_resolve. destruct L as [v J|opts dd J|c' l J].
    + assert (G : forall c, json_val c = true -> (forall s, c <> VStr s) -> or_NONE (py_getitem E no_ents c k) = Ok w -> w = VConst NONE \/ cfg_loc w).
      { intros c Jc NS H. destruct (py_getitem E no_ents c k) as [x|e] eqn:P; cbn [or_NONE] in H.
        - injection H as <-. right. apply cl_json. exact (json_in _ _ _ _ Jc NS P).
        - destruct (is_lookup_or_type e); [injection H as <-; now left|discriminate]. }
      destruct v; try discriminate; try (apply G; [exact J|discriminate]).
      destruct (cfg_sequence E s) as [l|e]; cbn [or_NONE].
      * apply G; [|discriminate]. cbn. apply forallb_forall. intros x X. apply in_map_iff in X. now destruct X as (? & <- & _).
      * destruct (is_lookup_or_type e); [intros [= <-]; now left|discriminate].
    + cbn [py_getitem]. destruct k as [s|z|v]; [| |contradiction].
      * destruct (section_in opts dd s J) as (x & -> & [->|Jx]); intros [= <-]; [now left|right; now apply cl_json].
      * discriminate.
    + cbn [py_getitem]. destruct k as [s|z|v]; [| |contradiction].
      * destruct (root_in c' l s J) as (x & -> & H). intros [= <-]. exact H.
      * cbn. intros [= <-]. now left.
  - intros c n i L Hs B. cbn [psource_resolve]. unfold config_resolve. cbn [psource_sequence] in Hs.
    destruct L as [v J|opts dd J|c' l J]; try discriminate. destruct v; try discriminate.
    + destruct (cfg_sequence E s) as [l|e]; [|discriminate]. injection Hs as <-. cbn [py_getitem].
      destruct (index_some (map VStr l) i) as (w & ->); [now rewrite map_length|]. cbn [or_NONE]. exists w. split; [reflexivity|left; apply cfg_absorbs].
    + injection Hs as <-. cbn [py_getitem]. destruct (index_some l i B) as (w & ->). cbn [or_NONE]. exists w. split; [reflexivity|left; apply cfg_absorbs].
  - intros ents dd c L. cbn [psource_mapping]. destruct L as [v J|opts d' J|c' l J]; try reflexivity. destruct v; try discriminate; reflexivity.
  - intros c dd l k L Hm Hk. cbn [psource_mapping] in Hm.
    assert (KS : exists s, k = VStr s).
    { destruct L as [v J|opts d' J|c' l' J].
      - destruct v; try discriminate. cbn in Hm. injection Hm as <-. apply in_map_iff in Hk. destruct Hk as ([a b] & <- & Hk).
        destruct (proj2 (str_dict_json _) J a b Hk) as (s & -> & _). now exists s.
      - cbn in Hm. destruct (py3 E); [discriminate|]. injection Hm as <-. apply in_app_iff in Hk. destruct Hk as [Hk|Hk].
        + apply in_map_iff in Hk. destruct Hk as ([a b] & <- & Hk). destruct (subs_fine opts a b Hk) as (s & -> & _). now exists s.
        + apply in_map_iff in Hk. destruct Hk as ([a b] & <- & Hk). now exists a.
      - cbn in Hm. injection Hm as <-. apply in_map_iff in Hk. destruct Hk as ([a b] & <- & Hk). now exists a. }
    destruct KS as (s & ->). split; [exact I|]. cbn [key_of_val psource_resolve]. unfold config_resolve.
    destruct (item_ok no_ents c s L) as (w & H). { intros t ->. discriminate. }
    exists w. split; [|left; apply cfg_absorbs]. destruct c; try exact H. cbn in Hm. discriminate.
Qed.
End Cfg.

Lemma config_strings E cfg sec d loc v w : psource_parse E (SConfig cfg sec d loc) TyStr v = Ok w -> exists s, w = VStr s.
Proof. cbn [psource_parse mixin_parse]. unfold as_string. destruct v; try discriminate; intros [= <-]; eauto. Qed.
Lemma config_begins cfg sec d loc : config_given cfg sec d ->
  psource_root (SConfig cfg sec d loc) = Ok (config_start cfg sec d) /\ cfg_loc (config_start cfg sec d).
Proof.
  intros [J G]. cbn [psource_root]. destruct sec as [s|].
  - destruct G as [N G]. unfold config_start, opt_str.
    destruct (alookup cfg s) as [opts|] eqn:A; [|easy]. split; [|now apply cl_sec]. destruct (String.eqb_spec s ""); [easy|]. now rewrite A.
  - destruct G as (l & ->). split; [reflexivity|now apply cl_root].
Qed.
Lemma C30_config_lem W fuel cfg sec d loc id t l tags reset u m s :
  config_given cfg sec d ->
  nth_error (forms s) id = Some (t, l) -> direct_form t -> direct_unm u -> mapping_context s ->
  let x := Form_map W fuel id (ASrc (SBase (BPlain (SConfig cfg sec d loc)))) tags reset u m s in
  (fst x, forms (snd x)) =
  ev_map W fuel (outer_of s) (SConfig cfg sec d loc) (config_start cfg sec d) id tags reset u m (forms s) /\
  stk (snd x) = stk s.
Proof.
  intros G T D Du (C1 & C2 & C3). destruct (config_begins cfg sec d loc G) as [R L].
  destruct (map_refines W fuel (SConfig cfg sec d loc) _ _ id t l tags reset u m s R (config_regime _ _ _ _ _ _ L) T D Du C1 C2 C3) as (A & B & C & _).
  cbv zeta. rewrite A, B. split; [|exact C]. now destruct (ev_map _ _ _ _ _ _ _ _ _ _ _).
Qed.
