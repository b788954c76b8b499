(** * SpecStrict: what the theorem about strict and other reading of a document is about (C106). *)
From Coq Require Import List.
From Verif Require Import PyBase PyStr Source Field Context Fields SpecSrc.
From Verif Require Export SpecHooks.

(** User functions that use only the value, the errors and the forms, and, when they read the value as
    a type and that fails, let the exception pass. *)
Definition honest (op : pathop) (k : res val -> prog) : Prop :=
  match op with OpPrimitive _ => forall e, k (Exn e) = PRaise e | _ => True end.
Fixpoint honest_prog (p : prog) : Prop :=
  match p with
  | PRet _ | PRaise _ => True
  | PCtxForm k | PSet _ _ _ k | PDel _ _ k | PItem _ _ k | PInvalid _ k | PMissing k => forall x, honest_prog (k x)
  | PPath op k => honest op k /\ forall x, honest_prog (k x)
  | _ => False
  end.
Notation honest_hook := (hooked_hook honest_prog).
Notation honest_opts := (hooked_opts honest_prog).
Notation honest_field := (hooked honest_prog).
Notation honest_kind := (hooked_kind honest_prog).
Notation honest_unmapped := (hooked_unmapped honest_prog).
