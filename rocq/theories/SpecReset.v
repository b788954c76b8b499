(** * SpecReset: forms that differ in the order of entries (specification for C47 with
    [unmapped='capture', reset=True]). *)
From Coq Require Import Permutation.
From Verif Require Import PyBase PyStr Source Field Context Fields.

(** The forms [h'] are the forms [h], but for the order of the entries of the form [id]. *)
Definition reordered (id : nat) (h h' : list (formty * list (val * val))) : Prop :=
  (exists t l l', nth_error h id = Some (t, l) /\ nth_error h' id = Some (t, l') /\ Permutation l' l) /\
  forall j, j <> id -> nth_error h' j = nth_error h j.
