(** * SpecRound: what [float(int)] is. *)
From Coq Require Import QArith Qabs.
From Verif Require Import PyBase Field Fields SpecField.

(** A number with 53 binary digits, at any exponent. *)
Definition binary53 (q : Q) : Prop := exists m e : Z, Z.abs m < 2 ^ 53 /\ (q == inject_Z m * Qpower 2 e)%Q.
(** The last of the 53 digits of [q] is 0. *)
Definition ends_in_zero (q : Q) : Prop := exists m e : Z, 2 ^ 52 <= Z.abs m < 2 ^ 53 /\ Z.even m = true /\ (q == inject_Z m * Qpower 2 e)%Q.
(** [q] is [z] rounded: no number with 53 digits is nearer, and of two at the same distance
    it is the one that ends in 0. *)
Definition rounds (z : Z) (q : Q) : Prop :=
  binary53 q /\
  forall p, binary53 p ->
    (Qabs (q - inject_Z z) <= Qabs (p - inject_Z z))%Q /\
    ((Qabs (q - inject_Z z) == Qabs (p - inject_Z z))%Q -> (p == q)%Q \/ ends_in_zero q).
(** [float(z)]: [z] rounded; there is no negative zero. *)
Definition float_of (z : Z) (v : val) : Prop :=
  (exists q, number v q /\ rounds z q) /\ v <> VFloat (SpecFloat.S754_zero true).
