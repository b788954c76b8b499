(** * SpecFormat: what the theorems about [format] are about (C100). *)
From Verif Require Import PyBase PyStr Source Field Context Fields Build Formats SpecCtx SpecField SpecBuild SpecClock.
Open Scope Z_scope.

Definition clock_format (c : clock) : strftime_oracle -> val -> moment -> res answer :=
  match c with CDate => Date_format | CTime => Time_format | CDatetime => Datetime_format end.
(** The instants each class writes. *)
Inductive writes : clock -> moment -> Prop :=
| wr_day z : writes CDate (Day z)
| wr_date_instant z : writes CDate (Instant z)
| wr_struct z : writes CTime (StructTime z)
| wr_instant z : writes CDatetime (Instant z)
| wr_datetime_day z : writes CDatetime (Day z).
(** The format given when the field was made, and the one it writes with. *)
Inductive given_format (kw : kwargs) : val -> Prop :=
| gf_none : alookup kw "format" = None -> given_format kw VNone
| gf_some v : alookup kw "format" = Some (AV v) -> given_format kw v.
Inductive writes_with : clock -> val -> string -> Prop :=
| ww_one c x : writes_with c (VStr x) x
| ww_list x l : writes_with CDate (VList (VStr x :: l)) x
| ww_tuple x l : writes_with CDate (VTuple (VStr x :: l)) x.
(** Reading with a format what was written with it gives [w]: for a date the day, for a datetime
    and a time the instant. *)
Inductive inverts (E : env) (x fmt : string) : clock -> moment -> val -> Prop :=
| inv_day z t : e_strp E x fmt = Some t -> t / 86400000000 = z -> inverts E x fmt CDate (Day z) (VDate z)
| inv_date_instant z t : e_strp E x fmt = Some t -> t / 86400000000 = z / 86400000000 ->
    inverts E x fmt CDate (Instant z) (VDate (z / 86400000000))
| inv_struct z : e_strptime_time E x fmt = Some z -> inverts E x fmt CTime (StructTime z) (VTime z)
| inv_instant z : e_strp E x fmt = Some z -> inverts E x fmt CDatetime (Instant z) (VDatetime z)
| inv_datetime_day z : e_strp E x fmt = Some (z * 86400000000) -> inverts E x fmt CDatetime (Day z) (VDatetime (z * 86400000000)).
(** [strftime] copies what is no directive. *)
Definition copies_text (sf : strftime_oracle) : Prop :=
  forall m fmt, ~ In "%"%char (list_ascii_of_string fmt) -> sf m fmt = Ok fmt.
