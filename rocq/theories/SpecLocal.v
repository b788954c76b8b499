(** * SpecLocal: where errors are reported. *)
From Verif Require Import PyBase PyStr Source Field Context Fields.

(** The path [p] some keys further down. *)
Definition below (ks : list key) (p : path) : path := fold_left (fun q k => p_append k q) ks p.
(** The error is about that path object, and its text is that of a location at or below [p]. *)
Definition located (W : world) (pid : nat) (p : path) (e : err) : Prop :=
  exists kd t nm ks, e = MkErr kd t nm (Some pid) /\ p_str (w_env W) (below ks p) = Ok t.

(** User functions that do not leave the current location: they may read the source, move
    further down, set variables, report errors, change forms, map other forms from the
    current location or from any other source.  Excluded: [ctx.reset()] and reading a
    field of a form as an attribute (which may rewind the context). *)
Definition hook_ok (P : prog -> Prop) (o : option (hook prog)) : Prop :=
  forall h, o = Some h -> forall t args, P (hk_fun h t args).
Inductive local_prog : prog -> Prop :=
| lp_ret v : local_prog (PRet v)
| lp_raise e : local_prog (PRaise e)
| lp_ctx k : (forall r, local_prog (k r)) -> local_prog (PCtxForm k)
| lp_set i a v k : (forall r, local_prog (k r)) -> local_prog (PSet i a v k)
| lp_del i a k : (forall r, local_prog (k r)) -> local_prog (PDel i a k)
| lp_item i key k : (forall r, local_prog (k r)) -> local_prog (PItem i key k)
| lp_path op k : (forall r, local_prog (k r)) -> local_prog (PPath op k)
| lp_invalid v k : (forall r, local_prog (k r)) -> local_prog (PInvalid v k)
| lp_missing k : (forall r, local_prog (k r)) -> local_prog (PMissing k)
| lp_with vars b k : local_prog b -> (forall r, local_prog (k r)) -> local_prog (PWith vars b k)
| lp_push key b k : local_prog b -> (forall r, local_prog (k r)) -> local_prog (PPush key b k)
| lp_map t src tags rs u m k : local_form t -> local_unm u -> (forall r, local_prog (k r)) -> local_prog (PMap t src tags rs u m k)
(** Fields of every kind but [PolymorphicSubForm], with such functions. *)
with local : field -> Prop :=
| local_field o k :
    (forall h, o_default o = DUnset h -> hook_ok local_prog h) -> (forall p, o_default o = DCall p -> local_prog p) ->
    hook_ok local_prog (o_compute o) -> hook_ok local_prog (o_resolve o) -> hook_ok local_prog (o_parse o) ->
    hook_ok local_prog (o_munge o) -> hook_ok local_prog (o_filter o) -> hook_ok local_prog (o_validate o) ->
    local_kind k -> local (MkField o k)
with local_kind : kind -> Prop :=
| lk_any : local_kind KAny
| lk_string c : local_kind (KString c)
| lk_integer lo hi : local_kind (KInteger lo hi)
| lk_float lo hi : local_kind (KFloat lo hi)
| lk_decimal lo hi : local_kind (KDecimal lo hi)
| lk_bool : local_kind KBool
| lk_date fmts lo hi : local_kind (KDate fmts lo hi)
| lk_time fmt lo hi : local_kind (KTime fmt lo hi)
| lk_datetime fmt lo hi : local_kind (KDatetime fmt lo hi)
| lk_tuple fs : (forall f, In f fs -> local f) -> local_kind (KTuple fs)
| lk_list f lo hi a : local f -> local_kind (KList f lo hi a)
| lk_dict kf vf keyf rq mx : local kf -> local vf -> hook_ok local_prog keyf -> local_kind (KDict kf vf keyf rq mx)
| lk_code : local_kind KCode
| lk_uuid : local_kind KUUID
| lk_form t rs u : local_form t -> local_unm u -> local_kind (KSubForm t rs u)
| lk_group l : (forall m f, In (m, f) l -> local f) -> local_kind (KGroup l)
with local_form : formty -> Prop :=
| local_formty n fs : (forall f, In f fs -> local f) -> local_form (FormTy n fs)
with local_unm : unm -> Prop :=
| lu_ignore : local_unm UIgnore
| lu_capture : local_unm UCapture
| lu_falsy : local_unm UFalsy
| lu_bad s : local_unm (UBad s)
| lu_field f : local f -> local_unm (UField f)
| lu_pair kf vf : local kf -> local vf -> local_unm (UPair kf vf).

(** The error list [ctx.errors]. *)
Definition error_list (s : st) : option nat :=
  match lookup "errors" (stk s) with Some (CErrs e) => Some e | _ => None end.
(** From [s] to [s'], with the current path (number [pid]) at [p]: the errors added to the
    current error list are located at or below [p]; the other error lists are as they were. *)
Definition reports_below (W : world) (pid : nat) (p : path) (s s' : st) : Prop :=
  forall i m es, nth_error (errs s) i = Some (m, es) ->
  exists new, nth_error (errs s') i = Some (m, es ++ new) /\
    Forall (located W pid p) new /\ (error_list s <> Some i -> new = []).
