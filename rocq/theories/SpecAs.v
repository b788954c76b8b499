(** * SpecAs: forms read as data (C99). *)
From Verif Require Import PyBase PyStr Source.

(** A path at a form of which a native source was made, and one at the dict of its entries, with
    the same parts, whatever values these have cached. *)
Definition at_form (i : nat) (al : list (string * key)) (ig : list (list string)) (loc : option string) (l : list part) : ppath :=
  PPath (SDefault (VForm i) al ig loc) (VForm i) l.
Definition at_dict (d : list (val * val)) (al : list (string * key)) (ig : list (list string)) (loc : option string) (l : list part) : ppath :=
  PPath (SDefault (VDict d) al ig loc) (VDict d) l.
(** The form has no attributes beyond those of dicts. *)
Definition plain_form (E : env) (ents : entries_of) (i : nat) : Prop :=
  forall a, e_attr E (VForm i) a = e_attr E (VDict (ents i)) a.
(** Two operations on paths have the same outcome, and leave the same parts. *)
Definition same_read {A} (x y : ppath * res A) : Prop := snd x = snd y /\ pp_parts (fst x) = pp_parts (fst y).
