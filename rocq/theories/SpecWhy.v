(** * SpecWhy: what the theorems of PropsWhy are about (C36, C50, C56, C62, C65, C68, C70). *)
From Verif Require Import PyBase PyStr Source Field Context Fields SpecUnion SpecMount.

(** A path of a MountSource as it is after any steps, standing at its root again. *)
Fixpoint after_acts (E : env) (ents : entries_of) (acts : list act) (p : path) : path :=
  match acts with [] => p | a :: rest => after_acts E ents rest (fst (act_path E ents a p)) end.
Definition at_mounts (E : env) (ents : entries_of) (l : list (string * bsource)) (p : path) : Prop :=
  exists acts p0, source_path E ents (SMount l) = Ok p0 /\ p = after_acts E ents acts p0 /\ p_keys p = [].

(** A key that is a name or an index. *)
Definition named (k : key) : Prop := match k with KRaw _ => False | _ => True end.

(** No mapping is in progress: no form is being mapped and neither [ctx.ignore_default] nor
    [ctx.ignore_missing] is on. *)
Record outside_mapping (s : st) : Prop := {
  om_form : match lookup "form" (stk s) with None => true | Some c => is_none_c c end = true;
  om_default : exists c, lookup "ignore_default" (stk s) = Some c /\ truthy_c c = false;
  om_missing : exists c, lookup "ignore_missing" (stk s) = Some c /\ truthy_c c = false
}.

(** What may be done at a union without reading a primitive, with keys that are names or
    indices. *)
Definition browses (o : op) : Prop := match o with Enter k => named k | Prim _ => False | _ => True end.
