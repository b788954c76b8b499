(** * PyBase: the fragment of Python that pilo manipulates.

    Values, exceptions, results, equality, ordering, dictionaries.  Nothing in
    this file is specific to one pilo class; each definition says which pilo
    line needs it. *)
From Coq Require Export String Ascii ZArith List Bool QArith.
From Coq Require Export Floats.SpecFloat.
Export ListNotations.
Open Scope string_scope.
Open Scope Z_scope.
Open Scope list_scope.

(** pilo/__init__.py:22-38  the three sentinels; [IGNORE = (NONE, ERROR, NOT_SET)]. *)
Inductive const := NONE | ERROR | NOTSET.

(** Decimal values (pilo/fields.py:852-860): m * 10^e, infinities, NaN. *)
Inductive dec := DFin (m e : Z) | DInf (neg : bool) | DNaN.

(** Python values seen by pilo.  Strings are byte/ASCII strings (simplification:
    no unicode).  Floats are IEEE doubles as [spec_float].  [VForm] is a
    reference to a mutable [Form] object in the heap.  [VObj] is any other
    object; its behaviour comes from the environment oracles below.
    The last group are the container objects pilo itself creates:
    - [VJoin], [VUMap], [VUSeq]: pilo/source/union.py:119-235 [Join], [Mapping],
      [Sequence]; they hold references to the union's sub-paths, here indices;
    - [VCfgRoot], [VCfgSec]: pilo/source/configparser.py:57-106 [Mapping],
      [SectionMapping]. *)
Inductive val :=
| VNone
| VBool (b : bool)
| VInt (z : Z)
| VFloat (f : spec_float)
| VStr (s : string)
| VList (l : list val)
| VTuple (l : list val)
| VDict (l : list (val * val))
| VForm (id : nat)
| VDec (d : dec)
| VDate (ordinal : Z)
| VDatetime (micros : Z)
| VTime (micros : Z)
| VObj (cls : string) (id : Z)
| VConst (c : const)
| VJoin (idx : list nat)
| VUMap (ms : list (nat * list val))
| VUSeq (ss : list (nat * Z))
| VCfgRoot (cfg : list (string * list (string * string))) (defaults : val)
| VCfgSec (opts : list (string * string)) (defaults : val).

(** Keys of path parts (pilo/source/__init__.py:51-58, 159-162): [insert] wraps
    strings and integers in a [PathPart]; anything else is stored raw.  A Python
    bool is an int, so [key_of_val] turns it into one (simplification: the
    rendering of such a part is then "[1]" instead of "[True]"). *)
Inductive key := KStr (s : string) | KInt (z : Z) | KRaw (v : val).

Definition key_of_val (v : val) : key :=
  match v with
  | VStr s => KStr s
  | VInt z => KInt z
  | VBool b => KInt (Z.b2z b)
  | _ => KRaw v
  end.

Definition val_of_key (k : key) : val :=
  match k with KStr s => VStr s | KInt z => VInt z | KRaw v => v end.

(** Messages of [SourceError] (pilo/source/*.py): kept structured. *)
Inductive smsg :=
| NotString (v : val)     (* '"{0}" is not a string'   source/__init__.py:218, json.py:50 *)
| NotInteger (v : val)    (* '"{0}" is not an integer' source/__init__.py:225-234, json.py:64 *)
| NotFloat (v : val)      (* '"{0}" is not a float'    source/__init__.py:246-248, json.py:77 *)
| NotBoolean (v : val)    (* '"{0}" is not a boolean'  source/__init__.py:261, json.py:85 *)
| NotSequence             (* 'is not a sequence'       default.py:98, json.py:121, ... *)
| NotMapping.             (* 'is not a mapping'        default.py:107, json.py:126, ... *)

(** Exceptions, field errors and violations.
    - [ESource]      pilo/source/__init__.py:40-48  (an [Exception], not a [ValueError])
    - [EForm]        pilo/fields.py:90-110          (a [ValueError])
    - [EField]       pilo/fields.py:113-135         (raised directly, a [ValueError])
    - [EValue]       any other [ValueError]
    - the rest: the Python built-in of the same name;
      [EDecimal] is [decimal.InvalidOperation], an [ArithmeticError];
      [ERecursion] is Python's recursion-limit error (a [RuntimeError]);
      [EOther] is any exception class not listed.
    An [err] is a [Missing]/[Invalid] instance: its kind, the text of the source
    path at the time it was made (the part of the message before " - "), the name
    of its field and the identity of the live [Path] object in its [.path]. *)
Inductive exn :=
| ESource (m : smsg)
| EForm (es : list err)
| EField (e : err)
| EValue (m : string)
| EAttr (m : string)
| EKey
| EIndex
| EType (m : string)
| EOverflow
| EDecimal
| ERewind
| ERecursion
| EOther (cls : string)
with err := MkErr (kind : ekind) (path : string) (field : option string) (live : option nat)
with ekind := Missing | Invalid (v : viol)
(** pilo/fields.py: the argument of [ctx.errors.invalid(...)], kept structured. *)
with viol :=
| VioNotNullable                       (* 517 *)
| VioChars (bad : list ascii)          (* 738-740 *)
| VioMinLen (v : val) (n : Z)          (* 743-745 *)
| VioMaxLen (v : val) (n : Z)          (* 748-750 *)
| VioPattern (v : val) (p : string)    (* 753-755 *)
| VioChoice (v : val) (l : list val)   (* 758-765 *)
| VioMin (v b : val)                   (* 797-799 *)
| VioMax (v b : val)                   (* 802-804 *)
| VioAfter (b : val)                   (* 938, 977, 1021 *)
| VioBefore (b : val)                  (* 941, 980, 1024 *)
| VioFormat (v : val)                  (* 909, 968, 1012 *)
| VioItems (n : nat)                   (* 1056-1058 *)
| VioMinItems (n : Z)                  (* 1130-1132 *)
| VioMaxItems (n : Z)                  (* 1135-1137 *)
| VioMissingKeys (l : list val)        (* 1181-1183 *)
| VioMaxKeys (n : Z)                   (* 1186-1188 *)
| VioIdentity (v : val)                (* 1368 *)
| VioCode (v : val)                    (* 1249-1250 *)
| VioExn (e : exn)                     (* invalid(str(ex)): 485, 700, 1007, 1236, 1246, 1363 *)
| VioText (s : string).                (* any text reported by user code *)

(** Python outcome: a value or a raised exception. *)
Inductive res (A : Type) := Ok (a : A) | Exn (e : exn).
Arguments Ok {A}. Arguments Exn {A}.

(** [str(ex)] of a [FormError] or [FieldError] (fields.py:91-113): the texts of its errors,
    which no longer know the path objects they were reported at. *)
Definition untied (e : err) : err := match e with MkErr k p n _ => MkErr k p n None end.
Definition spoken (e : exn) : exn :=
  match e with
  | EForm es => EForm (map untied es)
  | EField x => EField (untied x)
  | _ => e
  end.

(** [except (SourceError, ValueError)] — pilo/fields.py:484. *)
Definition caught_by_compute (e : exn) : bool :=
  match e with
  | ESource _ | EForm _ | EField _ | EValue _ => true
  | _ => false
  end.

(** [except ValueError] — pilo/fields.py:1362. *)
Definition is_value_error (e : exn) : bool :=
  match e with
  | EForm _ | EField _ | EValue _ => true
  | _ => false
  end.

(** [except AttributeError] — pilo/fields.py:699. *)
Definition is_attribute_error (e : exn) : bool :=
  match e with EAttr _ => true | _ => false end.

(** [except (IndexError, KeyError, TypeError)] — default.py:24, json.py:32,
    union.py:42, configparser.py:36. *)
Definition is_lookup_or_type (e : exn) : bool :=
  match e with EKey | EIndex | EType _ => true | _ => false end.

(** The environment: everything the Python runtime decides and pilo does not.
    Each theorem quantifies over every environment. *)
Record env := {
  py3 : bool;                                        (* interpreter: 3.5 or 2.7 *)
  e_attr : val -> string -> option val;              (* getattr on an object; side-effect free *)
  e_item : val -> key -> res val;                    (* obj[key] on a [VObj] *)
  e_call : val -> res val;                           (* obj() *)
  e_float : string -> option spec_float;             (* float(str), None = ValueError *)
  e_dec : string -> option dec;                      (* decimal.Decimal(str), None = InvalidOperation *)
  e_str : val -> string;                             (* str(value) *)
  e_iso : string -> option Z;                        (* iso8601.parse_date, in microseconds; None = ParseError *)
  e_strp : string -> string -> option Z;             (* strptime(value, format); None = ValueError *)
  e_strptime_time : string -> string -> option Z;    (* time.strptime; None = ValueError *)
  e_uuid : string -> option val;                     (* uuid.UUID(str); None = ValueError *)
  e_re : string -> string -> option (list (key * val)); (* pattern.match(s): its groups, 0 first *)
  e_compile : string -> res val;                     (* Code.compile *)
  e_import : string -> option (res val);             (* Code.import_match + Code.load; None = no match *)
  e_shlex : string -> res (list string);             (* shlex.split *)
  e_format : string -> list (string * val) -> res val (* fmt.format( **values ) *)
}.

(** [value in IGNORE] — pilo/__init__.py:38; identity suffices for the sentinels. *)
Definition ignored (v : val) : bool := match v with VConst _ => true | _ => false end.
Definition is_NONE (v : val) : bool := match v with VConst NONE => true | _ => false end.
Definition is_None (v : val) : bool := match v with VNone => true | _ => false end.

(** Python truthiness, used by [if not self.nullable], filter and validate hooks.  Simplification:
    a form is true, also when it is empty. *)
Definition truthy (v : val) : bool :=
  match v with
  | VNone => false
  | VBool b => b
  | VInt z => negb (z =? 0)
  | VFloat f => match f with S754_zero _ => false | _ => true end
  | VStr s => negb (String.eqb s "")
  | VList l => match l with [] => false | _ => true end
  | VTuple l => match l with [] => false | _ => true end
  | VDict l => match l with [] => false | _ => true end
  | VDec (DFin m _) => negb (m =? 0)
  | _ => true
  end.

(** ** Numbers *)

(** Exact numeric value of a number, for [==], [<], [>]. *)
Inductive xnum := XFin (q : Q) | XInf (neg : bool) | XNaN.

Definition pow2Q (e : Z) : Q := if 0 <=? e then inject_Z (2 ^ e) else (1 # Z.to_pos (2 ^ (- e))).
Definition pow10Q (e : Z) : Q := if 0 <=? e then inject_Z (10 ^ e) else (1 # Z.to_pos (10 ^ (- e))).

Definition xnum_of_float (f : spec_float) : xnum :=
  match f with
  | S754_zero _ => XFin 0
  | S754_infinity s => XInf s
  | S754_nan => XNaN
  | S754_finite s m e =>
      XFin (inject_Z (if s then Z.neg m else Z.pos m) * pow2Q e)
  end.

Definition xnum_of (v : val) : option xnum :=
  match v with
  | VBool b => Some (XFin (inject_Z (Z.b2z b)))
  | VInt z => Some (XFin (inject_Z z))
  | VFloat f => Some (xnum_of_float f)
  | VDec (DFin m e) => Some (XFin (inject_Z m * pow10Q e))
  | VDec (DInf s) => Some (XInf s)
  | VDec DNaN => Some XNaN
  | _ => None
  end.

Definition xnum_eqb (a b : xnum) : bool :=
  match a, b with
  | XFin p, XFin q => Qeq_bool p q
  | XInf s, XInf t => Bool.eqb s t
  | _, _ => false
  end.

Definition Qlt_bool (p q : Q) : bool := negb (Qle_bool q p).

Definition xnum_ltb (a b : xnum) : bool :=
  match a, b with
  | XFin p, XFin q => Qlt_bool p q
  | XInf s, XInf t => s && negb t
  | XInf s, XFin _ => s
  | XFin _, XInf t => negb t
  | _, _ => false
  end.

(** [float.is_integer()] — source/__init__.py:224, json.py:57. *)
Definition float_is_integer (f : spec_float) : bool :=
  match f with
  | S754_zero _ => true
  | S754_finite _ m e => if 0 <=? e then true else Z.pos m mod 2 ^ (- e) =? 0
  | _ => false
  end.

(** [int(float)], only applied when [float_is_integer]. *)
Definition float_to_Z (f : spec_float) : Z :=
  match f with
  | S754_finite s m e =>
      let a := if 0 <=? e then Z.pos m * 2 ^ e else Z.pos m / 2 ^ (- e) in
      if s then - a else a
  | _ => 0
  end.

(** [float(int)] — source/__init__.py:241, json.py:70: round to nearest even,
    [OverflowError] beyond the double range. *)
Definition float_of_Z (z : Z) : res spec_float :=
  match binary_normalize 53 1024 z 0 false with
  | S754_infinity _ => Exn EOverflow
  | f => Ok f
  end.

(** ** Equality: [a == b] *)

Definition const_eqb (a b : const) : bool :=
  match a, b with NONE, NONE | ERROR, ERROR | NOTSET, NOTSET => true | _, _ => false end.

Fixpoint py_eq (a b : val) {struct a} : bool :=
  match a, b with
  | VNone, VNone => true
  | VStr s, VStr t => String.eqb s t
  | VList l, VList m =>
      (fix go (l m : list val) : bool :=
         match l, m with
         | [], [] => true
         | x :: l', y :: m' => py_eq x y && go l' m'
         | _, _ => false
         end) l m
  | VTuple l, VTuple m =>
      (fix go (l m : list val) : bool :=
         match l, m with
         | [], [] => true
         | x :: l', y :: m' => py_eq x y && go l' m'
         | _, _ => false
         end) l m
  | VDict l, VDict m =>
      Nat.eqb (length l) (length m) &&
      forallb (fun '(k, x) => existsb (fun '(k', y) => py_eq k k' && py_eq x y) m) l
  (* simplification: forms compare by identity, not by contents *)
  | VForm i, VForm j => Nat.eqb i j
  | VDate x, VDate y => x =? y
  | VDatetime x, VDatetime y => x =? y
  | VTime x, VTime y => x =? y
  | VObj c i, VObj d j => String.eqb c d && (i =? j)
  | VConst c, VConst d => const_eqb c d
  | _, _ =>
      match xnum_of a, xnum_of b with
      | Some x, Some y => xnum_eqb x y
      | _, _ => false
      end
  end.

(** [v in list] — e.g. pilo/fields.py:507, 757. *)
Definition py_in (v : val) (l : list val) : bool := existsb (fun w => py_eq v w) l.

(** Hashability: using a list, dict or form as a dict key raises [TypeError]; so does any other
    mapping ([collections.Mapping] sets [__hash__] to [None]). *)
Fixpoint hashable (v : val) : bool :=
  match v with
  | VList _ | VDict _ | VForm _ | VUMap _ | VCfgRoot _ _ | VCfgSec _ _ => false
  | VTuple l => forallb hashable l
  | _ => true
  end.

(** [a < b].  Mixed types raise [TypeError] (Python 3 behaviour; simplification
    for Python 2, which orders them arbitrarily); ordering a Decimal and a NaN, of either
    class, raises [InvalidOperation]. *)
Definition is_dec (v : val) : bool := match v with VDec _ => true | _ => false end.
Definition xnum_nan (x : xnum) : bool := match x with XNaN => true | _ => false end.

Definition py_lt (a b : val) : res bool :=
  match xnum_of a, xnum_of b with
  | Some x, Some y =>
      if (is_dec a || is_dec b) && (xnum_nan x || xnum_nan y) then Exn EDecimal else Ok (xnum_ltb x y)
  | _, _ =>
      match a, b with
      | VDate x, VDate y => Ok (x <? y)
      | VDatetime x, VDatetime y => Ok (x <? y)
      | VTime x, VTime y => Ok (x <? y)
      | VStr s, VStr t => Ok (match String.compare s t with Lt => true | _ => false end)
      | _, _ => Exn (EType "unorderable")
      end
  end.

(** ** Dictionaries: insertion-ordered association lists. *)

Definition dict_get (l : list (val * val)) (k : val) : option val :=
  option_map snd (find (fun kv => py_eq (fst kv) k) l).

Definition dict_has (l : list (val * val)) (k : val) : bool :=
  existsb (fun kv => py_eq (fst kv) k) l.

(** [d[k] = v]: an existing key keeps its place. *)
Fixpoint dict_set (l : list (val * val)) (k v : val) : list (val * val) :=
  match l with
  | [] => [(k, v)]
  | (k', v') :: l' => if py_eq k' k then (k', v) :: l' else (k', v') :: dict_set l' k v
  end.

(** [del d[k]] *)
Definition dict_del (l : list (val * val)) (k : val) : list (val * val) :=
  filter (fun kv => negb (py_eq (fst kv) k)) l.

(** [d.update(e)] — pilo/fields.py:1609. *)
Definition dict_update (l m : list (val * val)) : list (val * val) :=
  fold_left (fun acc kv => dict_set acc (fst kv) (snd kv)) m l.

(** ** Lists *)

Definition replace_nth {A} (n : nat) (x : A) (l : list A) : list A :=
  match nth_error l n with
  | Some _ => firstn n l ++ x :: skipn (S n) l
  | None => l
  end.

(** Python indexing with negative wrap-around. *)
Definition py_index {A} (l : list A) (i : Z) : option A :=
  let n := Z.of_nat (length l) in
  let j := if i <? 0 then n + i else i in
  if (j <? 0) || (n <=? j) then None else nth_error l (Z.to_nat j).

Fixpoint alookup {A} (l : list (string * A)) (k : string) : option A :=
  match l with
  | [] => None
  | (k', v) :: l' => if String.eqb k' k then Some v else alookup l' k
  end.
