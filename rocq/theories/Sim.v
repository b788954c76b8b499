(** * Sim: what it means for mapping to follow the direct evaluation (C30). *)
From Verif Require Import PyBase PyStr Source Field Context Fields SpecSrc SrcPath Shape Balance Eval.
From Coq Require Import Lia.

(** ** The sources covered *)
Section Regime.
Variables (E : env) (src : psource) (root : val).
Let R := psource_resolve E no_ents src [].
Definition absorbing : Prop := absorbs E no_ents src plain_key.
(** From a location holding [Loc] values (no forms in them) every step stays in [Loc] or
    finds nothing; the members of a sequence and of a mapping are there; what is missing
    stays missing when read through ([absorbing]) or is never read through. *)
Record regime (Loc : val -> Prop) : Prop := {
  rg_root : Loc root;
  rg_some : forall v, Loc v -> is_NONE v = false;
  rg_ind : forall ents ks c k, psource_resolve E ents src ks c k = psource_resolve E ents src [] c k;
  rg_ents : forall ents c k, Loc c \/ (absorbing /\ c = VConst NONE) -> plain_key k ->
            psource_resolve E ents src [] c k = R c k;
  rg_step : forall c k w, Loc c -> plain_key k -> R c k = Ok w -> w = VConst NONE \/ Loc w;
  rg_seq : forall c n i, Loc c -> psource_sequence E src c = Ok n -> 0 <= i < Z.of_nat n ->
           exists w, R c (KInt i) = Ok w /\ (absorbing \/ is_NONE w = false);
  rg_map_ents : forall ents d c, Loc c -> psource_mapping E ents src d c = psource_mapping E no_ents src d c;
  rg_map : forall c d l k, Loc c -> psource_mapping E no_ents src d c = Ok (Ok l) -> In k l ->
           plain_key (key_of_val k) /\
           exists w, R c (key_of_val k) = Ok w /\ (absorbing \/ is_NONE w = false)
}.
End Regime.


Lemma is_NONE_eq v : is_NONE v = true -> v = VConst NONE.
Proof. destruct v; try discriminate. destruct c; try discriminate. reflexivity. Qed.

Section Sim.
Variables (W : world) (root : val) (src : psource).
Let E := w_env W.
Let fold := fold_r E no_ents src.
Let absorb := absorbing E src.
Definition deep (ks : list key) : Prop := absorb \/ inside_ok E no_ents src root ks.
(** ** Agreement of a state with the evaluator's arguments *)
Record loc_ok (r : rd) (p : path) : Prop := {
  lo_src : r_src r = src;
  lo_deep : deep (r_keys r);
  lo_val : r_val r = fold root (r_keys r);
  lo_path : exists q, p = PBase (BP q) /\ good_path E no_ents src root plain_key q (r_keys r)
}.
Record agree (eid : nat) (r : rd) (s : st) (es : list err) (h : heap) : Prop := {
  ag_forms : forms s = h;
  ag_path : lookup "src_path" (stk s) = Some (CPath (r_pid r));
  ag_src : exists c, lookup "src" (stk s) = Some c /\ is_none_c c = false;
  ag_errs : lookup "errors" (stk s) = Some (CErrs eid);
  ag_list : nth_error (errs s) eid = Some (r_mode r, es);
  ag_field : field_seen (lookup "field" (stk s)) = r_field r;
  ag_form : form_seen (lookup "form" (stk s)) = r_form r;
  ag_igd : exists c, lookup "ignore_default" (stk s) = Some c /\ truthy_c c = r_igd r;
  ag_igm : exists c, lookup "ignore_missing" (stk s) = Some c /\ truthy_c c = r_igm r;
  ag_tags : tags_seen (lookup "tags" (stk s)) = r_tags r;
  ag_loc : exists p, nth_error (paths s) (r_pid r) = Some p /\ loc_ok r p
}.
(** Error lists and paths other than the current one are left alone. *)
Record others (eid pid : nat) (s s' : st) : Prop := {
  oth_errs : (length (errs s) <= length (errs s'))%nat;
  oth_err : forall j, (j < length (errs s))%nat -> j <> eid -> nth_error (errs s') j = nth_error (errs s) j;
  oth_path : forall j, (j < length (paths s))%nat -> j <> pid -> nth_error (paths s') j = nth_error (paths s) j
}.
Definition sim {A} (eid : nat) (r : rd) (m : M A) (e : Ev A) : Prop :=
  forall s es h, agree eid r s es h ->
    fst (m s) = fst (e (es, h)) /\
    agree eid r (snd (m s)) (fst (snd (e (es, h)))) (snd (snd (e (es, h)))) /\
    stk (snd (m s)) = stk s /\ others eid (r_pid r) s (snd (m s)).
(** The same unless the evaluator gives up; [poly] says whether it may. *)
Definition wsim (poly : Prop) {A} (eid : nat) (r : rd) (m : M A) (e : Ev A) : Prop :=
  forall s es h, agree eid r s es h ->
    (poly /\ fst (e (es, h)) = Exn unevaluated) \/
    (fst (m s) = fst (e (es, h)) /\
     agree eid r (snd (m s)) (fst (snd (e (es, h)))) (snd (snd (e (es, h)))) /\
     stk (snd (m s)) = stk s /\ others eid (r_pid r) s (snd (m s))).
Definition startable (r : rd) : Prop := exists v, r_val r = Ok v /\ (absorb \/ is_NONE v = false).
End Sim.

(** ** The fields covered, with polymorphic sub-forms if [poly] *)
Section Poly.
Variable poly : Prop.
Inductive pdirect : field -> Prop :=
| pd_field o k : direct_opts o -> pdirect_kind k -> pdirect (MkField o k)
with pdirect_kind : kind -> Prop :=
| pd_any : pdirect_kind KAny
| pd_string c : pdirect_kind (KString c)
| pd_integer lo hi : pdirect_kind (KInteger lo hi)
| pd_float lo hi : pdirect_kind (KFloat lo hi)
| pd_decimal lo hi : pdirect_kind (KDecimal lo hi)
| pd_bool : pdirect_kind KBool
| pd_date fmts lo hi : pdirect_kind (KDate fmts lo hi)
| pd_time fmt lo hi : pdirect_kind (KTime fmt lo hi)
| pd_datetime fmt lo hi : pdirect_kind (KDatetime fmt lo hi)
| pd_tuple fs : (forall f, In f fs -> pdirect f) -> pdirect_kind (KTuple fs)
| pd_list f lo hi a : pdirect f -> pdirect_kind (KList f lo hi a)
| pd_dict kf vf keyf rq mx : pdirect kf -> pdirect vf -> direct_ohook keyf -> pdirect_kind (KDict kf vf keyf rq mx)
| pd_code : pdirect_kind KCode
| pd_uuid : pdirect_kind KUUID
| pd_form t rs u : pdirect_form t -> pdirect_unm u -> pdirect_kind (KSubForm t rs u)
| pd_poly probe tf table rs u : poly -> pdirect_form probe -> pdirect_unm u -> pdirect_kind (KPoly probe tf table rs u)
| pd_group l : (forall m f, In (m, f) l -> pdirect f) -> pdirect_kind (KGroup l)
with pdirect_form : formty -> Prop :=
| pd_formty n fs : (forall f, In f fs -> pdirect f) -> pdirect_form (FormTy n fs)
with pdirect_unm : unm -> Prop :=
| pd_ignore : pdirect_unm UIgnore
| pd_capture : pdirect_unm UCapture
| pd_falsy : pdirect_unm UFalsy
| pd_bad s : pdirect_unm (UBad s)
| pd_ufield f : pdirect f -> pdirect_unm (UField f)
| pd_pair kf vf : pdirect kf -> pdirect vf -> pdirect_unm (UPair kf vf).
End Poly.
Scheme direct_ind2 := Induction for direct Sort Prop
with direct_kind_ind2 := Induction for direct_kind Sort Prop
with direct_form_ind2 := Induction for direct_form Sort Prop
with direct_unm_ind2 := Induction for direct_unm Sort Prop.
Combined Scheme direct_mutind from direct_ind2, direct_kind_ind2, direct_form_ind2, direct_unm_ind2.
Lemma direct_poly poly :
  (forall f, direct f -> pdirect poly f) /\ (forall k, direct_kind k -> pdirect_kind poly k) /\
  (forall t, direct_form t -> pdirect_form poly t) /\ (forall u, direct_unm u -> pdirect_unm poly u).
Proof. apply direct_mutind; intros; constructor; eauto. Qed.
