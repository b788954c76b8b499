(** * SpecOthers: what the theorem about the other forms is about (C110). *)
From Coq Require Import List.
From Verif Require Import PyBase PyStr Source Field Context Fields SpecSrc.
From Verif Require Export SpecHooks.

(** User functions that change no form: they use the value, report errors, and read forms. *)
Fixpoint reading_prog (p : prog) : Prop :=
  match p with
  | PRet _ | PRaise _ => True
  | PCtxForm k | PItem _ _ k | PPath _ k | PInvalid _ k | PMissing k => forall x, reading_prog (k x)
  | _ => False
  end.
(** A form class without a field named [parent], which attach_parent would set. *)
Definition no_parent (t : formty) : Prop := forall f, In f (ft_fields t) -> fname f <> "parent".
