(** * SpecNum: numbers with the infinities, and NaN. *)
From Coq Require Import QArith.
From Verif Require Import PyBase Field Fields SpecField.

(** Where a number is on the line: left of every finite one, at one, right of every one. *)
Inductive extent := Leftmost | At (q : Q) | Rightmost.
Inductive measures : val -> extent -> Prop :=
| ms_fin v q : number v q -> measures v (At q)
| ms_float_neg : measures (VFloat (SpecFloat.S754_infinity true)) Leftmost
| ms_float_pos : measures (VFloat (SpecFloat.S754_infinity false)) Rightmost
| ms_dec_neg : measures (VDec (DInf true)) Leftmost
| ms_dec_pos : measures (VDec (DInf false)) Rightmost.
Inductive less : extent -> extent -> Prop :=
| ls_fin p q : (p < q)%Q -> less (At p) (At q)
| ls_left q : less Leftmost (At q)
| ls_right q : less (At q) Rightmost
| ls_ends : less Leftmost Rightmost.
Inductive same : extent -> extent -> Prop :=
| sm_left : same Leftmost Leftmost
| sm_right : same Rightmost Rightmost
| sm_fin p q : (p == q)%Q -> same (At p) (At q).

Inductive not_a_number : val -> Prop :=
| nan_float : not_a_number (VFloat SpecFloat.S754_nan)
| nan_dec : not_a_number (VDec DNaN).
Definition decimal (v : val) : Prop := exists d, v = VDec d.
(** A number of any sort *)
Definition numeric (v : val) : Prop := not_a_number v \/ exists x, measures v x.

(** What [==] holds between: numbers of any class that are the same number; the same text, constant, instant, object;
    lists and tuples with equal elements in the same places; dicts as long as each other, every
    entry of the one with an equal in the other. *)
Inductive equal : val -> val -> Prop :=
| eq_none : equal VNone VNone
| eq_num a b x y : measures a x -> measures b y -> same x y -> equal a b
| eq_str s : equal (VStr s) (VStr s)
| eq_list l m : Forall2 equal l m -> equal (VList l) (VList m)
| eq_tuple l m : Forall2 equal l m -> equal (VTuple l) (VTuple m)
| eq_dict l m : length l = length m ->
    Forall (fun kx => Exists (fun jy => equal (fst kx) (fst jy) /\ equal (snd kx) (snd jy)) m) l -> equal (VDict l) (VDict m)
| eq_form i : equal (VForm i) (VForm i)
| eq_date z : equal (VDate z) (VDate z)
| eq_datetime z : equal (VDatetime z) (VDatetime z)
| eq_time z : equal (VTime z) (VTime z)
| eq_obj c i : equal (VObj c i) (VObj c i)
| eq_const c : equal (VConst c) (VConst c).
(** What a table of translations makes of a value: the value of its first key that is equal to it, or the value itself *)
Definition told (table : list (val * val)) (v w : val) : Prop :=
  (exists pre k post, table = (pre ++ (k, w) :: post)%list /\ equal k v /\ forall x, In x pre -> ~ equal (fst x) v) \/
  (w = v /\ forall x, In x table -> ~ equal (fst x) v).
