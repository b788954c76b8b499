(** * SpecPipe: mapping a field as a list of stages (C16). *)
From Verif Require Import PyBase PyStr Source Field Context Fields.

(** What a stage decides: go on with a value, use the default, or finish. *)
Inductive verdict := Next (v : val) | UseDefault | Done (v : val).
Definition stage := val -> M verdict.

(** Run stages in order; the first that does not say [Next] decides. *)
Fixpoint run_stages (dflt : M val) (l : list stage) (v : val) : M val :=
  match l with
  | [] => ret v
  | st :: rest =>
      d <- st v;
      match d with
      | Next w => run_stages dflt rest w
      | UseDefault => dflt
      | Done w => ret w
      end
  end.

(** What a hook answers for no: [None], [False], a zero, an empty text, sequence or mapping. *)
Inductive no_answer : val -> Prop :=
| na_none : no_answer VNone
| na_false : no_answer (VBool false)
| na_int : no_answer (VInt 0)
| na_float sg : no_answer (VFloat (S754_zero sg))
| na_dec e : no_answer (VDec (DFin 0 e))
| na_text : no_answer (VStr "")
| na_list : no_answer (VList [])
| na_tuple : no_answer (VTuple [])
| na_dict : no_answer (VDict []).

Section Stages.
Variable W : world.
Variable rec : field -> val -> M val.
Variable f : field.
Let o := f_opts f.

(** The default is the static value, the callable's or hook's result, or nothing. *)
Definition stage_default : M val := field_default W rec f.

(** A hook as a yes/no question; no hook says yes. *)
Definition ask (h : option (hook prog)) (v : val) : M bool :=
  match h with
  | None => ret true
  | Some h => r <- call_hook W rec h [v]; ret (truthy r)
  end.

(** munge: the translation table, then the munge hook unless there is nothing to munge *)
Definition st_translate : stage := fun v => w <- field_munge f v; ret (Next w).
Definition st_munge_hook : stage := fun v =>
  match o_munge o with
  | None => ret (Next v)
  | Some h => if ignored v then ret (Next v) else w <- call_hook W rec h [v]; ret (Next w)
  end.
(** nothing there: default; an error or unset marker: that is the result *)
Definition st_present : stage := fun v =>
  ret (if is_NONE v then UseDefault else if ignored v then Done v else Next v).
(** filter: the ignored values, then the filter hook *)
Definition st_ignores : stage := fun v => ret (if py_in v (o_ignores o) then UseDefault else Next v).
Definition st_filter_hook : stage := fun v =>
  ok <- ask (o_filter o) v; ret (if ok : bool then Next v else UseDefault).
(** validate: the built-in check, then the validate hook *)
Definition st_validate : stage := fun v =>
  ok <- field_validate W f v; ret (if ok : bool then Next v else Done ERRORv).
Definition st_validate_hook : stage := fun v =>
  ok <- ask (o_validate o) v; ret (if ok : bool then Next v else Done ERRORv).

Definition munging : list stage := [st_translate; st_munge_hook; st_present].
Definition filtering : list stage := [st_ignores; st_filter_hook].
Definition validating : list stage := [st_validate; st_validate_hook].
Definition given_plan : list stage := munging ++ filtering ++ validating.

(** compute: the hook instead of the built-in; its default is the default hook itself *)
Definition st_compute : stage := fun _ =>
  v <- (match o_compute o with Some h => call_hook W rec h [] | None => field_compute W rec f end);
  if is_NONE v then
    match o_default o with
    | DUnset (Some h) => w <- call_hook W rec h []; ret (Done w)
    | _ => ret UseDefault
    end
  else ret (if ignored v then Done v else Next v).

(** Where to read: the resolve hook instead of the field's [src]. *)
Definition at_source (body : M val) : M val :=
  k <- (match o_resolve o with
        | Some h => v <- call_hook W rec h []; ret (if is_None v then None else Some (key_of_val v))
        | None => ret (match f_kind f with KGroup _ => None | _ => o_src o end)
        end);
  match k with
  | None => body
  | Some k => with_ctx W [("src", CKey k)] body
  end.

(** The whole: [field.map()] and [field.map(v)]. *)
Definition pipeline (v : val) : M val :=
  if is_NONE v then at_source (run_stages stage_default (st_compute :: given_plan) v)
  else run_stages stage_default given_plan v.
End Stages.
