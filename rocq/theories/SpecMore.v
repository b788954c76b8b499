(** * SpecMore: what the theorems about names in the context and about configuration files are about (C83-C85, C90). *)
From Verif Require Import PyBase PyStr Source Field Context More SpecCtx.

(** What the blocks give for a name, oldest first. *)
Fixpoint given_by (k : string) (blocks : list frame) : list cval :=
  match blocks with
  | [] => []
  | kw :: rest => match alookup kw k with Some c => c :: given_by k rest | None => given_by k rest end
  end.
(** The methods of Python's dicts: of all versions, and of Python 2 alone. *)
Inductive dict_method : bool -> string -> Prop :=
| dm_all py3 k : In k ["get"; "setdefault"; "pop"; "popitem"; "update"; "clear"; "copy"; "fromkeys"; "keys"; "values"; "items"]%string -> dict_method py3 k
| dm_two k : In k ["has_key"; "iterkeys"; "itervalues"; "iteritems"; "viewkeys"; "viewvalues"; "viewitems"]%string -> dict_method false k.
(** What [Context] defines (context.py:62-190). *)
Definition context_method (k : string) : Prop :=
  In k ["stack"; "push"; "restore"; "rewind"; "RewindDidNotStop"; "values_for"; "reset"]%string.
(** A name that is no attribute of dicts. *)
Definition free_name (E : env) (k : string) : Prop := ~ dict_method (py3 E) k.
Definition free_in_context (k : string) : Prop := ~ context_method k.

(** ** Lines of a file *)
(** A line: no line break but the last character. *)
Definition a_line (l : list ascii) : Prop := exists x, l = x ++ [newline_char] /\ ~ In newline_char x.
Definition indented (l : list ascii) : Prop := exists c r, l = c :: r /\ is_space c = true.
Definition spaces (l : list ascii) : Prop := forall c, In c l -> is_space c = true.
(** Space around [x], which begins and ends with other characters. *)
Definition around (x l : list ascii) : Prop := exists a b, spaces a /\ spaces b /\ l = a ++ x ++ b.
Definition solid (x : list ascii) : Prop := (exists c r, x = c :: r /\ is_space c = false) /\ (exists c r, x = r ++ [c] /\ is_space c = false).
Definition header_of (section : string) : list ascii := ["["%char] ++ chars section ++ ["]"%char].
(** A line begins, but for space, with a text. *)
Definition leads (x l : list ascii) : Prop := exists a r, spaces a /\ l = a ++ x ++ r.
(** The lines [body] are what follows the first line that leads with the option, after the header
    of the section: indented lines up to the next one that is not. *)
Record lines_below (section option : string) (file : list (list ascii)) (body : list (list ascii)) : Prop := {
  lb_parts : exists pre h mid o rest, file = pre ++ h :: mid ++ o :: body ++ rest /\
    Forall a_line file /\
    around (header_of section) h /\ (forall l, In l pre -> ~ around (header_of section) l) /\
    leads (chars option) o /\ (forall l, In l mid -> ~ leads (chars option) l) /\
    Forall indented body /\ match rest with l :: _ => ~ indented l | [] => True end
}.

(** ** Options written over several lines (C90) *)
Definition a_break (c : ascii) : Prop := c = newline_char \/ c = ascii_of_nat 13.
(** A text cut at its line breaks. *)
Inductive broken : list ascii -> list (list ascii) -> Prop :=
| broken_end x : (forall c, In c x -> ~ a_break c) -> broken x [x]
| broken_at x c r ps : (forall c, In c x -> ~ a_break c) -> a_break c -> broken r ps -> broken (x ++ c :: r) (x :: ps).
(** Lines without the space around them, blank ones left out. *)
Inductive stripped : list (list ascii) -> list (list ascii) -> Prop :=
| stripped_nil : stripped [] []
| stripped_blank p ps xs : spaces p -> stripped ps xs -> stripped (p :: ps) xs
| stripped_line p x ps xs : around x p -> solid x -> stripped ps xs -> stripped (p :: ps) (x :: xs).
