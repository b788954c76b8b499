(** * SpecTame: fields without hooks and without sub-forms (specification for C38 and C47). *)
From Verif Require Import PyBase PyStr Source Field Context Fields.

(** No hook of any sort and no [attach_parent]; a [src] that is a string or an integer; no form
    among the translations. *)
Record tame_opts (o : fopts prog) : Prop := {
  to_src : forall k, o_src o = Some k -> match k with KRaw _ => False | _ => True end;
  to_default : match o_default o with DUnset None | DVal _ => True | _ => False end;
  to_compute : o_compute o = None;
  to_resolve : o_resolve o = None;
  to_parse : o_parse o = None;
  to_munge : o_munge o = None;
  to_filter : o_filter o = None;
  to_validate : o_validate o = None;
  to_attach : o_attach_parent o = false;
  to_translations : forall k i, ~ In (k, VForm i) (o_translations o)
}.
(** The same of every field inside; the containers nest at most [d] deep. *)
Fixpoint tame (d : nat) (f : field) : Prop :=
  match d with
  | O => False
  | S d =>
      tame_opts (f_opts f) /\
      match f_kind f with
      | KTuple fs => forall g, In g fs -> tame d g
      | KList g _ _ _ => tame d g
      | KDict kf vf keyf _ _ => tame d kf /\ tame d vf /\ keyf = None
      | KGroup l => forall m g, In (m, g) l -> tame d g
      | KSubForm _ _ _ | KPoly _ _ _ _ _ => False
      | _ => True
      end
  end.
Definition tame_form (d : nat) (t : formty) : Prop := forall f, In f (ft_fields t) -> tame d f.

(** An error without the identity of the path object it remembers: what was wrong, where, and
    at which field. *)
Definition said (e : err) : ekind * string * option string :=
  match e with MkErr k p n _ => (k, p, n) end.
(** Two mappings report the same: the same errors returned, or the same exception raised. *)
Definition same_report (x y : res (list err)) : Prop :=
  match x, y with
  | Ok es, Ok es' => map said es' = map said es
  | Exn e, Exn e' => e' = e
  | _, _ => False
  end.

(** The same exception: for a [FormError] or [FieldError], about the same errors. *)
Inductive same_exn : exn -> exn -> Prop :=
| se_form es es' : map said es' = map said es -> same_exn (EForm es) (EForm es')
| se_field x x' : said x' = said x -> same_exn (EField x) (EField x')
| se_other e : same_exn e e.
(** Where errors are raised. *)
Definition same_raised (x y : res (list err)) : Prop :=
  match x, y with
  | Ok es, Ok es' => es = [] /\ es' = []
  | Exn e, Exn e' => same_exn e e'
  | _, _ => False
  end.

(** A [SubForm(t, flat=True)] without further options: it names no key of its own. *)
Definition flat_sub (f : field) (t : formty) : Prop :=
  exists n tags igm rs, f = MkField (MkOpts (Some n) None igm (DUnset None) [] [] tags false None None None None None None) (KSubForm t rs UIgnore).
(** The names of some fields *)
Definition has_name (fs : list field) (a : string) : Prop := exists f, In f fs /\ fname f = a.
