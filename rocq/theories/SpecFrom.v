(** * SpecFrom: what the theorems about [from_context] are about (C97). *)
From Verif Require Import PyBase PyStr Source Field Context Fields FromContext SpecCtx SpecField SpecMore.

(** Errors are being collected or raised: list [eid], in mode [m], with errors [es] so far.
    Unlike [SpecField.mapping], no source is needed. *)
Record underway (W : world) (s : st) (eid : nat) (m : mode) (es : list err) (igd igm : bool) : Prop := {
  uw_reach : reach W s;
  uw_eid : lookup "errors" (stk s) = Some (CErrs eid);
  uw_errs : nth_error (errs s) eid = Some (m, es);
  uw_igd : exists c, lookup "ignore_default" (stk s) = Some c /\ truthy_c c = igd;
  uw_igm : exists c, lookup "ignore_missing" (stk s) = Some c /\ truthy_c c = igm
}.

(** A name for a variable: no dot, no call, nothing the context has already, and none of the four
    names that the field's own blocks give. *)
Record variable_name (k : string) : Prop := {
  vn_dot : ~ In "."%char (list_ascii_of_string k);
  vn_call : forall x, k <> (x ++ "()")%string;
  vn_free : free_in_context k;
  vn_own : ~ In k ["field"; "parent"; "src"; "src_path"]%string
}.

(** A name that is read as one attribute: no dot, no call. *)
Record simple_name (k : string) : Prop := {
  sn_dot : ~ In "."%char (list_ascii_of_string k);
  sn_call : forall x, k <> (x ++ "()")%string
}.

(** The object that a variable of the context is. *)
Inductive stands_for : cval -> val -> Prop :=
| st_none : stands_for CNone VNone
| st_value v : stands_for (CVal v) v
| st_form id : stands_for (CForm id) (VForm id)
| st_tags l : stands_for (CTags l) (VList (map VStr l))
| st_name k : stands_for (CKey (KStr k)) (VStr k)
| st_index i : stands_for (CKey (KInt i)) (VInt i).

(** What a field of a primitive type reads of a variable: what every native source reads as that
    type, which is C96. *)
Inductive read_as (E : env) (t : ptype) : val -> val -> Prop :=
| ra_null : read_as E t VNone VNone
| ra_value v w : v <> VNone -> (forall d, psource_parse E (SDefault d [] [] None) t v = Ok w) -> read_as E t v w.

(** What a native source says of an object that is not of the type. *)
Inductive refused : ptype -> val -> exn -> Prop :=
| rf_text v : refused TyStr v (ESource (NotString v))
| rf_int v : refused TyInt v (ESource (NotInteger v))
| rf_float v : refused TyFloat v (ESource (NotFloat v))
| rf_bool v : refused TyBool v (ESource (NotBoolean v)).

(** The outcome of mapping, as [SpecField.yields]. *)
Definition from_yields (W : world) (n : nat) (f : field) (s : st)
           (eid : nat) (m : mode) (es : list err) (v : val) (new : list err) : Prop :=
  exists s',
    from_context_map W n f NONEv s =
      (match m, new with Raise, _ :: _ => Exn (EForm (es ++ new)) | _, _ => Ok v end, s') /\
    stk s' = stk s /\ forms s' = forms s /\ errs s' = replace_nth eid (m, es ++ new) (errs s).
