(** * PyStr: the string operations pilo uses. *)
From Verif Require Import PyBase.

Fixpoint chars (s : string) : list ascii :=
  match s with EmptyString => [] | String c s' => c :: chars s' end.

Fixpoint of_chars (l : list ascii) : string :=
  match l with [] => EmptyString | c :: l' => String c (of_chars l') end.

(** [s.split(sep)] for a one-character separator — default.py:66, json.py:29. *)
Fixpoint split_on (sep : ascii) (s : string) : list string :=
  match s with
  | EmptyString => [EmptyString]
  | String c s' =>
      if Ascii.eqb c sep then EmptyString :: split_on sep s'
      else match split_on sep s' with
           | [] => [String c EmptyString]
           | w :: ws => String c w :: ws
           end
  end.

Definition dot : ascii := "."%char.

(** ['.' in s] — json.py:26. *)
Definition has_char (c : ascii) (s : string) : bool := existsb (Ascii.eqb c) (chars s).

(** [s.endswith('()')] and [s[:-2]] — default.py:54-56. *)
Fixpoint strip_call (s : string) : option string :=
  match s with
  | EmptyString => None
  | String c s' =>
      if String.eqb s "()" then Some EmptyString
      else option_map (String c) (strip_call s')
  end.

(** ASCII lower-casing — source/__init__.py:257-259. *)
Definition lower_char (c : ascii) : ascii :=
  let n := nat_of_ascii c in
  if (Nat.leb 65 n && Nat.leb n 90)%bool then ascii_of_nat (n + 32) else c.
Definition lower (s : string) : string := of_chars (map lower_char (chars s)).

(** Whitespace recognised by [int()] and [str.strip()]: 9-13 and 32. *)
Definition is_space (c : ascii) : bool :=
  let n := nat_of_ascii c in ((Nat.leb 9 n && Nat.leb n 13) || Nat.eqb n 32)%bool.

Fixpoint drop_space (l : list ascii) : list ascii :=
  match l with
  | c :: l' => if is_space c then drop_space l' else l
  | [] => []
  end.
Definition strip_chars (l : list ascii) : list ascii := rev (drop_space (rev (drop_space l))).
Definition strip (s : string) : string := of_chars (strip_chars (chars s)).

Definition digit_of (c : ascii) : option Z :=
  let n := nat_of_ascii c in
  if (Nat.leb 48 n && Nat.leb n 57)%bool then Some (Z.of_nat n - 48) else None.

Fixpoint parse_digits (acc : Z) (l : list ascii) : option Z :=
  match l with
  | [] => Some acc
  | c :: l' => match digit_of c with Some d => parse_digits (10 * acc + d) l' | None => None end
  end.

Definition parse_nat (l : list ascii) : option Z :=
  match l with [] => None | _ => parse_digits 0 l end.

(** [int(str)] in base 10 (ASCII digits): optional surrounding whitespace,
    optional sign, at least one digit — source/__init__.py:230, json.py:61.
    [None] is [ValueError]. *)
Definition parse_int (s : string) : option Z :=
  match strip_chars (chars s) with
  | c :: l =>
      if Ascii.eqb c "-" then option_map Z.opp (parse_nat l)
      else if Ascii.eqb c "+" then parse_nat l
      else parse_nat (c :: l)
  | [] => None
  end.

(** [str(int)]: used to render list indices — source/__init__.py:85. *)
Fixpoint print_pos_fuel (fuel : nat) (z : Z) (acc : list ascii) : list ascii :=
  match fuel with
  | O => acc
  | S f =>
      let acc' := ascii_of_nat (Z.to_nat (48 + z mod 10)) :: acc in
      if z / 10 =? 0 then acc' else print_pos_fuel f (z / 10) acc'
  end.
Definition print_nat (z : Z) : list ascii := print_pos_fuel (S (Z.to_nat (Z.log2 z))) z [].
Definition print_int (z : Z) : string :=
  if z <? 0 then of_chars ("-"%char :: print_nat (- z)) else of_chars (print_nat z).

Definition newline : ascii := ascii_of_nat 10.

(** [str.splitlines()] restricted to '\n' and '\r' boundaries — configparser.py:45. *)
Definition lines (s : string) : list string :=
  flat_map (split_on (ascii_of_nat 13)) (split_on newline s).
