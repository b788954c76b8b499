(** * SpecView: contexts that look alike to a mapping (C109). *)
From Coq Require Import List.
From Verif Require Import PyBase PyStr Source Field Context Fields.

(** The variables of the context that a mapping looks at. *)
Definition seen_variables : list string := ["ignore_default"; "ignore_missing"; "tags"; "form"; "field"].
(** Two states with the same forms that bind them alike, and have made as many paths (by which errors
    are told apart). *)
Definition looks_alike (s s' : st) : Prop :=
  forms s = forms s' /\ length (paths s) = length (paths s') /\ forall k, In k seen_variables -> lookup k (stk s) = lookup k (stk s').
(** A block of the context that binds none of them, and no new source. *)
Definition unseen (kw : frame) : Prop :=
  (forall k, In k seen_variables -> alookup kw k = None) /\ forall src, alookup kw "src" <> Some (CSrc src).
