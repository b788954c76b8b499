(** * SpecCtx: what the context theorems are about. *)
From Verif Require Import PyBase PyStr Source Field Context Fields Threads.

(** A block that does not itself name [src_path] (pilo and the hook API never do). *)
Definition block (kw : frame) : Prop := alookup kw "src_path" = None.

(** The states a program can be in: start from the fresh context and open blocks,
    close them, reset, rewind, create and change objects and error lists in any way, run
    hook programs, map fields and forms. *)
Inductive reach (W : world) : st -> Prop :=
| reach_init : reach W init
| reach_open kw s s' : reach W s -> block kw -> push W kw s = (Ok tt, s') -> reach W s'
| reach_close s : reach W s -> (1 < length (stk s))%nat -> reach W (snd (restore W s))
| reach_reset s :
    reach W s ->
    reach W (snd (push_frame [("src", CNone); ("src_path", CNone)] s))
| reach_rewind stop s frames s' :
    reach W s -> find_frame stop (stk s) <> Some O -> rewind W stop s = (Ok frames, s') ->
    reach W s'
| reach_heap h e s : reach W s -> reach W (St (stk s) h (paths s) e)
| reach_form t s : reach W s -> reach W (snd (new_form t s))
| reach_run fuel p s : reach W s -> reach W (snd (run W (field_map W fuel) p s))
| reach_field fuel f v s : reach W s -> reach W (snd (field_map W fuel f v s))
| reach_map fuel id a tags rst u m s :
    reach W s -> reach W (snd (Form_map W fuel id a tags rst u m s)).

(** The context is the same: the stack, and the keys of every path that existed. *)
Definition same_context (s s' : st) : Prop :=
  stk s' = stk s /\
  forall i p, nth_error (paths s) i = Some p ->
  exists p', nth_error (paths s') i = Some p' /\ p_keys p' = p_keys p.

(** The keys of the current source path, if there is one. *)
Definition cur_keys (s : st) : option (list key) :=
  match lookup "src_path" (stk s) with
  | Some (CPath i) => option_map p_keys (nth_error (paths s) i)
  | _ => None
  end.

(** Everything that can happen between two moments while the blocks open at the first
    stay open: open further blocks, reset, or run anything at all. *)
Inductive later (W : world) (s0 : st) : st -> list frame -> Prop :=
| later_now : later W s0 s0 []
| later_open kw s s' l :
    later W s0 s l -> block kw -> push W kw s = (Ok tt, s') ->
    later W s0 s' (firstn 1 (stk s') ++ l)
| later_reset s l :
    later W s0 s l ->
    later W s0 (snd (push_frame [("src", CNone); ("src_path", CNone)] s))
          ([("src", CNone); ("src_path", CNone)] :: l)
| later_run fuel p s l : later W s0 s l -> later W s0 (snd (run W (field_map W fuel) p s)) l.

(** The value a variable has after some blocks were opened, oldest first: the one
    given last. *)
Fixpoint latest (k : string) (blocks : list frame) (outside : option cval) : option cval :=
  match blocks with
  | [] => outside
  | kw :: rest => latest k rest (match alookup kw k with Some c => Some c | None => outside end)
  end.
Fixpoint open_all (W : world) (blocks : list frame) : M unit :=
  match blocks with [] => ret tt | kw :: rest => push W kw;; open_all W rest end.

(** What thread [t] sees when it runs its own operations alone. *)
Fixpoint alone {A} (s : st) (l : list (M A)) : list (res A) :=
  match l with [] => [] | op :: rest => let '(r, s') := op s in r :: alone s' rest end.
Definition of_thread {B} (t : thread) (l : list (thread * B)) : list B :=
  map snd (filter (fun x => Nat.eqb (fst x) t) l).
