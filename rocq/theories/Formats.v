(** * Formats: [format] of [Date], [Time] and [Datetime] called with an instant — fields.py:894-902,
    954-958, 993-997. *)
From Verif Require Import PyBase PyStr Source Field.

(** The instants of Python that [format] tells apart: [datetime.date] in days, [datetime.datetime]
    (a [date] too), [time.struct_time] and [datetime.time].  Everywhere else the last two are one
    kind of value. *)
Inductive moment := Day (z : Z) | Instant (z : Z) | StructTime (z : Z) | ClockTime (z : Z).
Definition value_of (m : moment) : val :=
  match m with Day z => VDate z | Instant z => VDatetime z | StructTime z | ClockTime z => VTime z end.
Definition is_date (m : moment) : bool := match m with Day _ | Instant _ => true | _ => false end.
Definition is_struct (m : moment) : bool := match m with StructTime _ => true | _ => false end.

(** [value.strftime(format)] and [time.strftime(format, value)]: an oracle for texts, a TypeError for
    any other format. *)
Definition strftime_oracle := moment -> string -> res string.
Definition write_with (sf : strftime_oracle) (m : moment) (fmt : val) : res string :=
  match fmt with VStr s => sf m s | _ => Exn (EType "strftime() argument 1 must be str") end.

(** What calling [format] gives: a text, or the field with a new format. *)
Inductive answer := Wrote (x : string) | Became (m : moment).
Definition wrote (r : res string) : res answer := match r with Ok x => Ok (Wrote x) | Exn e => Exn e end.

(** fields.py:894-902 [Date.format]; [fmt] is [self._format] *)
Definition first_of (fmt : val) : res val :=
  match fmt with
  | VList (v :: _) | VTuple (v :: _) => Ok v
  | VList [] | VTuple [] => Exn EIndex
  | v => Ok v
  end.
Definition Date_format (sf : strftime_oracle) (fmt : val) (m : moment) : res answer :=
  if is_date m then match first_of fmt with Ok v => wrote (write_with sf m v) | Exn e => Exn e end
  else Ok (Became m).
(** fields.py:954-958 [Time.format] *)
Definition Time_format (sf : strftime_oracle) (fmt : val) (m : moment) : res answer :=
  if is_struct m then wrote (write_with sf m fmt) else Ok (Became m).
(** fields.py:993-997 [Datetime.format] *)
Definition Datetime_format (sf : strftime_oracle) (fmt : val) (m : moment) : res answer :=
  if is_date m then wrote (write_with sf m fmt) else Ok (Became m).
(** Anything that is no instant becomes the format ([Build.set_format]). *)
