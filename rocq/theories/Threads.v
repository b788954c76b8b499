(** * Threads: [Context] is a [threading.local] — context.py:77, 92-101, 184.

    The Python runtime gives every thread its own instance dictionary, created by
    running [__init__] on first use.  An operation of thread [t] therefore runs on
    [t]'s own state. *)
From Verif Require Import PyBase Source Field Context.

Definition thread := nat.
Definition cell := thread -> st.
(** context.py:92-101: every thread starts from its own initial stack *)
Definition cells0 : cell := fun _ => init.
Definition upd (c : cell) (t : thread) (s : st) : cell :=
  fun u => if Nat.eqb u t then s else c u.

(** One scheduled step: thread [t] performs a context operation and observes its
    outcome. *)
Definition tstep (A : Type) (c : cell) (t : thread) (op : M A) : cell * (thread * res A) :=
  let '(r, s) := op (c t) in (upd c t s, (t, r)).

(** A whole schedule. *)
Fixpoint schedule {A} (c : cell) (l : list (thread * M A)) : list (thread * res A) :=
  match l with
  | [] => []
  | (t, op) :: rest => let '(c', o) := tstep A c t op in o :: schedule c' rest
  end.
