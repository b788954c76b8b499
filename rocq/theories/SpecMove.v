(** * SpecMove: what the theorems about the location of a source are about (C107). *)
From Coq Require Import List.
From Verif Require Import PyBase PyStr Source Field Context Fields SpecSrc.
From Verif Require Export SpecHooks.

(** The text of a place in a source at a location. *)
Definition at_location (l : option string) (x : string) : string :=
  match l with Some a => if String.eqb a "" then x else (a ++ ":" ++ x)%string | None => x end.

(** Errors that are the same but for the location they are at, also those of forms within. *)
Inductive moved_error (l l' : option string) : err -> err -> Prop :=
| md_error k k' x n i : moved_kind l l' k k' -> moved_error l l' (MkErr k (at_location l x) n i) (MkErr k' (at_location l' x) n i)
with moved_kind (l l' : option string) : ekind -> ekind -> Prop :=
| md_same k : moved_kind l l' k k
| md_form es es' : moved_errors l l' es es' -> moved_kind l l' (Invalid (VioExn (EForm es))) (Invalid (VioExn (EForm es')))
with moved_errors (l l' : option string) : list err -> list err -> Prop :=
| md_none : moved_errors l l' [] []
| md_more e e' es es' : moved_error l l' e e' -> moved_errors l l' es es' -> moved_errors l l' (e :: es) (e' :: es').
Inductive moved_outcome (l l' : option string) : res (list err) -> res (list err) -> Prop :=
| mo_errors es es' : moved_errors l l' es es' -> moved_outcome l l' (Ok es) (Ok es')
| mo_raised es es' : moved_errors l l' es es' -> moved_outcome l l' (Exn (EForm es)) (Exn (EForm es'))
| mo_exception e : moved_outcome l l' (Exn e) (Exn e).

(** User functions that use only the value, the errors and the forms, and do not handle the FormError
    that raise mode raises. *)
Fixpoint passing_prog (p : prog) : Prop :=
  match p with
  | PRet _ | PRaise _ => True
  | PCtxForm k | PSet _ _ _ k | PDel _ _ k | PItem _ _ k | PPath _ k => forall x, passing_prog (k x)
  | PInvalid _ k | PMissing k => (forall es, k (Exn (EForm es)) = PRaise (EForm es)) /\ forall x, passing_prog (k x)
  | _ => False
  end.
