(** * SpecClock: dates, times and datetimes with formats and ranges (C82). *)
From Verif Require Import PyBase PyStr Source Field Context Fields Build SpecCtx SpecField SpecBuild.
From Coq Require Import Lia.
Open Scope Z_scope.

Inductive clock := CDate | CTime | CDatetime.
Definition clock_init (c : clock) : list arg -> kwargs -> res bfield :=
  match c with CDate => Date_init | CTime => Time_init | CDatetime => Datetime_init end.
(** an instant of the class, as a number: of days for a date, of microseconds otherwise *)
Inductive at_clock : clock -> val -> Z -> Prop :=
| ac_date z : at_clock CDate (VDate z) z
| ac_time z : at_clock CTime (VTime z) z
| ac_datetime z : at_clock CDatetime (VDatetime z) z.
(** [format]: one, or several for a date *)
Inductive formats_said : option arg -> list string -> Prop :=
| fo_unsaid : formats_said None []
| fo_none : formats_said (Some (AV VNone)) []
| fo_one x : x <> "" -> formats_said (Some (AV (VStr x))) [x]
| fo_list l : formats_said (Some (AV (VList (map VStr l)))) l
| fo_tuple l : formats_said (Some (AV (VTuple (map VStr l)))) l.
(** what the formats make of a text: for a date, the first that accepts it *)
Inductive reads_as (E : env) (x : string) : clock -> list string -> val -> Prop :=
| ra_date pre fmt post z : (forall g, In g pre -> stamp E g x = None) -> stamp E fmt x = Some z ->
    reads_as E x CDate (pre ++ fmt :: post) (VDate (z / 86400000000))
| ra_time fmt z : e_strptime_time E x fmt = Some z -> reads_as E x CTime [fmt] (VTime z)
| ra_datetime fmt z : stamp E fmt x = Some z -> reads_as E x CDatetime [fmt] (VDatetime z).
Inductive unreadable (E : env) (x : string) : clock -> list string -> Prop :=
| un_time fmt : e_strptime_time E x fmt = None -> unreadable E x CTime [fmt]
| un_datetime fmt : stamp E fmt x = None -> unreadable E x CDatetime [fmt].
(** The document has the instant itself. *)
Definition has_instant (W : world) (s : st) (f : field) (p : path) (w : val) : Prop :=
  exists q1 q2 q3, p_exists (w_env W) (entries s) (place f p) = (q1, Ok true) /\
    p_is_null (w_env W) (entries s) q1 = (q2, Ok false) /\ p_value (w_env W) (entries s) q2 = (q3, Ok w).
(** outside the range *)
Definition early (c : clock) (lo : option val) (z : Z) (a : val) : Prop := lo = Some a /\ exists y, at_clock c a y /\ z < y.
Definition late (c : clock) (hi : option val) (z : Z) (a : val) : Prop := hi = Some a /\ exists y, at_clock c a y /\ y < z.
