(** * SpecAlone: a field that is called outside every mapping (C101). *)
From Verif Require Import PyBase PyStr Source Field Context.

(** No source and no list of errors is set (the name is not set, or has something else), and nothing is to be ignored: what holds before a
    mapping and after it. *)
Record alone (s : st) : Prop := {
  al_path : lookup "src_path" (stk s) = Some CNone;
  al_errors : forall eid, lookup "errors" (stk s) <> Some (CErrs eid);
  al_default : exists c, lookup "ignore_default" (stk s) = Some c /\ truthy_c c = false;
  al_missing : exists c, lookup "ignore_missing" (stk s) = Some c /\ truthy_c c = false
}.

(** A list of errors is set, [eid], but no source: a block opened by hand around the call. *)
Record listening (s : st) (eid : nat) (m : mode) (es : list err) : Prop := {
  li_path : lookup "src_path" (stk s) = Some CNone;
  li_errors : lookup "errors" (stk s) = Some (CErrs eid);
  li_list : nth_error (errs s) eid = Some (m, es)
}.
(** What is reported there names no place. *)
Definition placeless (kd : ekind) (f : field) : err := MkErr kd "None" (f_name f) None.
