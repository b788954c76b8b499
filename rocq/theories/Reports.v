(** * Reports: the error lists of fields.py:111-167 with the classes of the errors replaced.

    The context may give [Missing] or [Invalid], which [Errors.missing] and [Errors.invalid]
    then call instead of the classes of pilo.  The mapping itself ([Context.report]) is modelled
    without them. *)
From Verif Require Import PyBase PyStr Source Field Context.

(** What is on an error list: errors of pilo, instances of an application's subclass of
    [FieldError] (of any name), other exceptions, and objects that are no exceptions. *)
Inductive item :=
| Stock (e : err)
| Derived (cls : string) (e : err)
| Other (e : exn)
| Object (v : val).

(** [isinstance(e, FieldError)], fields.py:154.  [EField] is a bare [FieldError]. *)
Definition is_field_error (i : item) : bool :=
  match i with Stock _ | Derived _ _ => true | Other (EField _) => true | _ => false end.

(** What calling an error list does to the caller. *)
Inductive outcome :=
| Quiet
| RaisedForm (l : list item)
| RaisedItem (i : item)
| RaisedType
| RaisedIndex.

(** [raise x]: a TypeError when [x] is no exception. *)
Definition raise_item (i : item) : outcome := match i with Object _ => RaisedType | _ => RaisedItem i end.

(** [self[0]] of an empty list is an IndexError (a list called with no errors).
    fields.py:150-157 [RaiseErrors.__call__] and 160-163 [CollectErrors.__call__] *)
Definition call_list (m : mode) (l new : list item) : outcome * list item :=
  let l' := l ++ new in
  match m with
  | Collect => (Quiet, l')
  | Raise =>
      match filter is_field_error l' with
      | [] => (match l' with i :: _ => raise_item i | [] => RaisedIndex end, l')
      | fs => (RaisedForm fs, l')
      end
  end.

(** What an application's class makes of the field, the current path and (for [Invalid]) the
    violation; it may raise. *)
Definition maker := cval -> st -> field -> option viol -> res item.
Definition violation_of (kd : ekind) : option viol := match kd with Invalid v => Some v | Missing => None end.
Definition class_name (kd : ekind) : string := match kd with Missing => "Missing" | Invalid _ => "Invalid" end.

(** fields.py:113-132: an error of pilo's own classes *)
Definition stock_error (W : world) (kd : ekind) (f : field) : M item :=
  tl <- path_text W;
  ret (Stock (MkErr kd (fst tl) (f_name f) (snd tl))).

(** fields.py:140-147: [getattr(ctx, 'Missing', Missing)(ctx.field)] and
    [getattr(ctx, 'Invalid', Invalid)(ctx.field, violation)].  Simplification: [ctx.field] is a
    field. *)
Definition make_error (W : world) (calls : maker) (kd : ekind) : M item :=
  fun s =>
    match lookup "field" (stk s) with
    | Some (CField f) =>
        match lookup (class_name kd) (stk s) with
        | Some c => (calls c s f (violation_of kd), s)
        | None => stock_error W kd f s
        end
    | _ => (Exn (EAttr "no attribute 'ctx'"), s)
    end.

(** [ctx.errors.missing()] and [ctx.errors.invalid(violation)] on an error list that is [l]: the
    outcome or what making the error raised, the list after it and the state. *)
Definition errors_report (W : world) (calls : maker) (m : mode) (l : list item) (kd : ekind) (s : st)
  : res outcome * list item * st :=
  match make_error W calls kd s with
  | (Ok i, s') => let (o, l') := call_list m l [i] in (Ok o, l', s')
  | (Exn e, s') => (Exn e, l, s')
  end.

(** Several calls of one list, the caller catching whatever is raised. *)
Fixpoint call_all (m : mode) (l : list item) (news : list (list item)) : list outcome * list item :=
  match news with
  | [] => ([], l)
  | new :: rest => let (o, l') := call_list m l new in let (os, l2) := call_all m l' rest in (o :: os, l2)
  end.
