(** * SpecPos: what it means to read a sequence by field names (specification for C71). *)
From Verif Require Import PyBase PyStr Source Field Fields SpecSrc.

(** A name as Python writes them: no dot, and it does not end in "()". *)
Definition identifier (n : string) : Prop := free_of "." n /\ strip_call n = None.
(** The dict that gives each value the name of the field at its position *)
Fixpoint by_name (fs : list field) (vs : list val) : list (val * val) :=
  match fs, vs with
  | f :: fs, v :: vs => (VStr (fname f), v) :: by_name fs vs
  | _, _ => []
  end.
(** Commands that never go above the location where they start; [d] is how far below it
    they are. *)
Fixpoint stays_below (d : nat) (l : list pathcmd) : Prop :=
  match l with
  | [] => True
  | Down _ :: rest => stays_below (S d) rest
  | Up :: rest => match d with O => False | S d => stays_below d rest end
  | Read _ :: rest => stays_below d rest
  end.
