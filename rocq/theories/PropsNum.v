(** * Theorems C92, C94, C22, C23: infinities and NaN, decimals, equality. *)
From Coq Require Import QArith.
From Verif Require Import PyBase PyStr Source Field Context Fields Demo SpecField SpecNum PropsField NumProofs DecProofs EqProofs.
Open Scope Z_scope.

(** C92: infinities are compared as such, whatever the classes of number and bound. *)
Theorem C92_inside : forall W n f lo hi arg s eid m es pid p igd igm t v w e,
  mapping W s eid m es pid p igd igm -> hook_free f -> obtains W s f p arg v -> ignored v = false -> lookable f v -> translated f v w ->
  p_str (w_env W) (spot f arg p) = Ok t -> bounds (f_kind f) = Some (lo, hi) -> measures w e ->
  (forall b x, In b (o_ignores (f_opts f)) -> measures b x -> ~ same e x) ->
  (forall b, lo = Some b -> exists x, measures b x /\ ~ less e x) -> (forall b, hi = Some b -> exists x, measures b x /\ ~ less x e) ->
  yields W (S n) f arg s eid m es w [].
Proof. intros. eapply C92_inside_lem; eauto. Qed.
Print Assumptions C92_inside.
Theorem C92_below : forall W n f hi arg s eid m es pid p igd igm t v w e b x,
  mapping W s eid m es pid p igd igm -> hook_free f -> obtains W s f p arg v -> ignored v = false -> lookable f v -> translated f v w ->
  p_str (w_env W) (spot f arg p) = Ok t -> bounds (f_kind f) = Some (Some b, hi) -> measures w e ->
  (forall b x, In b (o_ignores (f_opts f)) -> measures b x -> ~ same e x) -> measures b x -> less e x ->
  yields W (S n) f arg s eid m es ERRORv [invalid_at f pid (VioMin w b) t].
Proof. intros. eapply C92_below_lem; eauto. Qed.
Print Assumptions C92_below.
Theorem C92_above : forall W n f lo arg s eid m es pid p igd igm t v w e b x,
  mapping W s eid m es pid p igd igm -> hook_free f -> obtains W s f p arg v -> ignored v = false -> lookable f v -> translated f v w ->
  p_str (w_env W) (spot f arg p) = Ok t -> bounds (f_kind f) = Some (lo, Some b) -> measures w e ->
  (forall b x, In b (o_ignores (f_opts f)) -> measures b x -> ~ same e x) -> (forall c, lo = Some c -> exists x, measures c x /\ ~ less e x) -> measures b x -> less x e ->
  yields W (S n) f arg s eid m es ERRORv [invalid_at f pid (VioMax w b) t].
Proof. intros. eapply C92_above_lem; eauto. Qed.
Print Assumptions C92_above.
(** A number equal to an ignored one, of any class, is treated as absent. *)
Theorem C92_ignored : forall W n f arg s eid m es pid p igd igm t v w e b x,
  mapping W s eid m es pid p igd igm -> hook_free f -> obtains W s f p arg v -> ignored v = false -> lookable f v -> translated f v w ->
  p_str (w_env W) (spot f arg p) = Ok t -> measures w e -> In b (o_ignores (f_opts f)) -> measures b x -> same e x ->
  (igd = true \/ required f -> yields W (S n) f arg s eid m es NOTSETv (if igm then [] else [missing_at f pid t])) /\
  (forall d, igd = false -> o_default (f_opts f) = DVal d -> d <> VConst NOTSET -> yields W (S n) f arg s eid m es d []).
Proof. intros. eapply C92_ignored_lem; eauto. Qed.
Print Assumptions C92_ignored.
(** NaN is within any bounds that are not Decimals, and in no list of ignored values. *)
Theorem C92_nan_stored : forall W n f lo hi arg s eid m es pid p igd igm t v,
  mapping W s eid m es pid p igd igm -> hook_free f -> obtains W s f p arg v -> not_a_number v ->
  p_str (w_env W) (spot f arg p) = Ok t -> bounds (f_kind f) = Some (lo, hi) ->
  ~ decimal v -> (forall b, lo = Some b \/ hi = Some b -> numeric b /\ ~ decimal b) ->
  yields W (S n) f arg s eid m es v [].
Proof. intros. eapply C92_nan_lem; eauto. Qed.
Print Assumptions C92_nan_stored.
Theorem C92_nan_unbounded : forall W n f arg s eid m es pid p igd igm t v,
  mapping W s eid m es pid p igd igm -> hook_free f -> obtains W s f p arg v -> not_a_number v ->
  p_str (w_env W) (spot f arg p) = Ok t -> bounds (f_kind f) = Some (None, None) ->
  yields W (S n) f arg s eid m es v [].
Proof. intros. eapply C92_free_lem; eauto. Qed.
Print Assumptions C92_nan_unbounded.
(** Compared with a bound, one of the two a Decimal, it raises decimal.InvalidOperation. *)
Theorem C92_nan_raises : forall W n f lo hi arg s eid m es pid p igd igm t v b,
  mapping W s eid m es pid p igd igm -> hook_free f -> obtains W s f p arg v -> not_a_number v ->
  p_str (w_env W) (spot f arg p) = Ok t -> bounds (f_kind f) = Some (lo, hi) ->
  lo = Some b \/ lo = None /\ hi = Some b -> numeric b -> decimal v \/ decimal b ->
  exists s', field_map W (S n) f arg s = (Exn EDecimal, s') /\ stk s' = stk s /\ forms s' = forms s /\ errs s' = errs s.
Proof. intros. eapply C92_raises_lem; eauto. Qed.
Print Assumptions C92_nan_raises.
(** Float fields over JSON, which has NaN and the infinities as Python reads it. *)
Definition fnan : val := VFloat SpecFloat.S754_nan.
Definition finf (neg : bool) : val := VFloat (SpecFloat.S754_infinity neg).
Definition ranged (lo hi : option val) : field := MkField (opts "n" true (DUnset None) [VDec (DInf false)] []) (KFloat lo hi).
Definition got (f : field) (v : val) : res val * option (mode * list err) :=
  let s := in_map (jdict [("n", v)]) [] Collect in
  let r := field_map world0 3 f NONEv s in (fst r, nth_error (errs (snd r)) 0).
Example C92_case :
  got (ranged (Some (VInt 0)) (Some (VInt 1))) fnan = (Ok fnan, Some (Collect, [])) /\
  got (ranged (Some (VInt 0)) (Some (VInt 1))) (finf true) =
    (Ok ERRORv, Some (Collect, [MkErr (Invalid (VioMin (finf true) (VInt 0))) "n" (Some "n") (Some 0%nat)])) /\
  got (ranged None (Some (VInt 1))) (finf true) = (Ok (finf true), Some (Collect, [])) /\
  got (ranged (Some (VInt 0)) None) (finf false) = (Ok NOTSETv, Some (Collect, [MkErr Missing "n" (Some "n") (Some 0%nat)])) /\
  got (ranged (Some (VDec (DFin 0 0))) None) fnan = (Exn EDecimal, Some (Collect, [])) /\
  hook_free (ranged None None) /\ not_a_number fnan /\ ~ decimal fnan /\ measures (finf true) Leftmost /\ less Leftmost (At 0) /\
  (let s := in_map (jdict [("n", fnan)]) [] Collect in obtains world0 s (ranged None None) (at_root s) NONEv fnan) /\
  (let s := in_map (jdict [("n", finf true)]) [] Collect in obtains world0 s (ranged None None) (at_root s) NONEv (finf true)).
Proof.
  do 5 (split; [vm_compute; reflexivity|]). split; [free|]. split; [constructor|]. split; [intros (d & Q); discriminate|]. split; [constructor|]. split; [constructor|].
  split; (eapply ob_read; [reflexivity|..]; try reflexivity).
Qed.

(** ** C94: a Decimal field *)
(** Any number (int, bool, float, Decimal) becomes a decimal of exactly its value, a decimal itself;
    the bounds are met or reported with that value. *)
Theorem C94_number : forall W n f s eid m es pid p igd igm lo hi v q t,
  mapping W s eid m es pid p igd igm -> hook_free f -> f_kind f = KDecimal lo hi -> finds_value W s f p v -> number v q ->
  p_str (w_env W) (place f p) = Ok t ->
  exists d q', number (VDec d) q' /\ (q' == q)%Q /\ (forall d0, v = VDec d0 -> d = d0) /\
    (untouched f (VDec d) -> held_to W (S n) f s eid m es pid t lo hi d q).
Proof. intros; eapply C94_number_lem; eauto. Qed.
Print Assumptions C94_number.
(** A text is the decimal it spells. *)
Theorem C94_text : forall W n f s eid m es pid p igd igm lo hi x d q t,
  mapping W s eid m es pid p igd igm -> hook_free f -> f_kind f = KDecimal lo hi -> reads_text W s f p x -> e_dec (w_env W) x = Some d ->
  number (VDec d) q -> p_str (w_env W) (place f p) = Ok t -> untouched f (VDec d) ->
  held_to W (S n) f s eid m es pid t lo hi d q.
Proof. intros; eapply C94_text_lem; eauto. Qed.
Print Assumptions C94_text.
Theorem C94_special : forall W n f s eid m es pid p igd igm x d t,
  mapping W s eid m es pid p igd igm -> hook_free f -> f_kind f = KDecimal None None -> finds_value W s f p (VFloat x) -> special x d ->
  p_str (w_env W) (place f p) = Ok t -> untouched f (VDec d) -> yields W (S n) f NONEv s eid m es (VDec d) [].
Proof. intros; eapply C94_special_lem; eauto. Qed.
Print Assumptions C94_special.
(** [0.75], [True], and a bound that the former is below. *)
Definition three_quarters : val := VFloat (SpecFloat.S754_finite false 6755399441055744 (-53)).
Example C94_case :
  let f lo := fld "n" (KDecimal lo None) in let s := in_map (jdict [("n", three_quarters)]) [] Collect in
  finds_value world0 s (f None) (at_root s) three_quarters /\ number three_quarters (1 * inject_Z 6755399441055744 * Qpower 2 (-53)) /\
  (1 * inject_Z 6755399441055744 * Qpower 2 (-53) == 3 # 4)%Q /\ hook_free (f None) /\ p_str env0 (place (f None) (at_root s)) = Ok "n" /\
  fst (got (f None) (VBool true)) = Ok (VDec (DFin 1 0)) /\
  (exists m e, fst (got (f None) three_quarters) = Ok (VDec (DFin m e)) /\ (inject_Z m * Qpower 10 e == 3 # 4)%Q) /\
  fst (got (f (Some (VInt 1))) three_quarters) = Ok ERRORv /\ special (SpecFloat.S754_infinity true) (DInf true) /\
  fst (got (f None) (finf true)) = Ok (VDec (DInf true)).
Proof.
  cbv zeta. split; [do 3 eexists; repeat split; reflexivity|]. split; [apply n_float|].
  split; [vm_compute; reflexivity|]. split; [free|]. split; [vm_compute; reflexivity|]. split; [vm_compute; reflexivity|].
  split; [do 2 eexists; split; [vm_compute; reflexivity|vm_compute; reflexivity]|]. split; [vm_compute; reflexivity|]. split; [constructor|vm_compute; reflexivity].
Qed.

(** ** C22, C23: which values are ignored and translated *)
(** A value equal to an ignored one, after translation, counts as absent... *)
Theorem C22_equal : forall W n f arg s eid m es pid p igd igm t v w b,
  mapping W s eid m es pid p igd igm -> hook_free f ->
  obtains W s f p arg v -> ignored v = false -> lookable f v -> told (o_translations (f_opts f)) v w -> ignored w = false ->
  In b (o_ignores (f_opts f)) -> equal w b -> p_str (w_env W) (spot f arg p) = Ok t ->
  (igd = true \/ required f ->
   yields W (S n) f arg s eid m es NOTSETv (if igm then [] else [missing_at f pid t])) /\
  (forall d, igd = false -> o_default (f_opts f) = DVal d -> d <> VConst NOTSET ->
   yields W (S n) f arg s eid m es d []).
Proof. exact C22_equal_lem. Qed.
Print Assumptions C22_equal.
(** ...and no other: that one is checked. *)
Theorem C22_unequal : forall W n f arg s eid m es pid p igd igm t v w o,
  mapping W s eid m es pid p igd igm -> hook_free f ->
  obtains W s f p arg v -> ignored v = false -> lookable f v -> told (o_translations (f_opts f)) v w -> ignored w = false ->
  (forall b, In b (o_ignores (f_opts f)) -> ~ equal w b) -> p_str (w_env W) (spot f arg p) = Ok t ->
  field_violation (w_env W) (entries s) f w = Ok o ->
  match o with
  | None => yields W (S n) f arg s eid m es w []
  | Some x => yields W (S n) f arg s eid m es ERRORv [invalid_at f pid x t]
  end.
Proof. exact C22_unequal_lem. Qed.
Print Assumptions C22_unequal.
(** Ignored: [[1, ('a', Decimal('0.5'))]] and [{'k': 1, 2: None}] *)
Definition fussy : field := MkField (opts "n" true (DUnset None)
  [VList [VInt 1; VTuple [VStr "a"; VDec (DFin 5 (-1))]]; VDict [(VStr "k", VInt 1); (VInt 2, VNone)]] [(VInt 7, VList [])]) KAny.
Definition half : val := VFloat (SpecFloat.S754_finite false 1 (-1)).
Definition alike_list : val := VList [VBool true; VTuple [VStr "a"; half]].
Definition alike_dict : val := VDict [(VDec (DFin 2 0), VNone); (VStr "k", VBool true)].
Example C22_equal_case : hook_free fussy /\ required fussy /\
  equal alike_list (VList [VInt 1; VTuple [VStr "a"; VDec (DFin 5 (-1))]]) /\ equal alike_dict (VDict [(VStr "k", VInt 1); (VInt 2, VNone)]) /\
  told (o_translations (f_opts fussy)) (VBool true) (VBool true) /\ told (o_translations (f_opts fussy)) (VDec (DFin 7 0)) (VList []) /\
  (let given v := let s := in_map (jdict []) [] Collect in fst (field_map world0 3 (MkField (opts "n" true (DUnset None) (o_ignores (f_opts fussy)) []) KAny) v s) in
   given alike_list = Ok NOTSETv /\ given alike_dict = Ok NOTSETv /\
   given (VList [VInt 1]) = Ok (VList [VInt 1]) /\ given (VList [VInt 1; VTuple [VStr "a"; half; VInt 3]]) = Ok (VList [VInt 1; VTuple [VStr "a"; half; VInt 3]]) /\
   given (VDict [(VStr "k", VInt 1)]) = Ok (VDict [(VStr "k", VInt 1)])).
Proof.
  assert (N : forall z, equal (VInt z) (VInt z)) by (intros z; eapply eq_num; [apply ms_fin; constructor|apply ms_fin; constructor|constructor; reflexivity]).
  assert (B : equal (VBool true) (VInt 1)) by (eapply eq_num; [apply ms_fin; constructor|apply ms_fin; constructor|constructor; reflexivity]).
  split; [free|]. split; [now left|]. split.
  { apply eq_list. constructor; [exact B|]. constructor; [|constructor]. apply eq_tuple. constructor; [constructor|]. constructor; [|constructor].
    eapply eq_num; [apply ms_fin; apply n_float|apply ms_fin; apply n_dec|constructor; vm_compute; reflexivity]. }
  split.
  { apply eq_dict; [reflexivity|]. constructor; [|constructor; [|constructor]].
    - apply Exists_cons_tl, Exists_cons_hd. split; [|constructor]. eapply eq_num; [apply ms_fin; apply n_dec|apply ms_fin; constructor|constructor; vm_compute; reflexivity].
    - apply Exists_cons_hd. split; [constructor|exact B]. }
  split.
  { right. split; [reflexivity|]. intros x [<-|[]] E. cbn [fst] in E. inversion E as [|? ? ? ? M1 M2 S| | | | | | | | | | ]; subst.
    inversion M1 as [? ? N1| | | | ]; subst. inversion N1; subst. inversion M2 as [? ? N2| | | | ]; subst. inversion N2; subst. inversion S as [| |? ? Q]; subst. vm_compute in Q. discriminate Q. }
  split.
  { left. exists [], (VInt 7), []. split; [reflexivity|]. split; [|intros x []]. eapply eq_num; [apply ms_fin; constructor|apply ms_fin; apply n_dec|constructor; vm_compute; reflexivity]. }
  cbv zeta. repeat split; vm_compute; reflexivity.
Qed.
