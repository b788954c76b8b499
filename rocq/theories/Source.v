(** * Source: pilo/source — parsers, paths and sources. *)
From Verif Require Import PyBase PyStr.

(** ** Parsers *)

(** The argument of [path.primitive(...)]: [six.string_types[0]], [int], [float],
    [bool] or [None]/nothing — source/__init__.py:266-272, json.py:90-96. *)
Inductive ptype := TyStr | TyInt | TyFloat | TyBool | TyAuto.

(** source/__init__.py:215-218 *)
Definition as_string (v : val) : res val :=
  match v with VStr _ => Ok v | _ => Exn (ESource (NotString v)) end.

(** source/__init__.py:220-235 *)
Definition as_int (v : val) : res val :=
  match v with
  | VInt z => Ok (VInt z)
  | VFloat f => if float_is_integer f then Ok (VInt (float_to_Z f))
                else Exn (ESource (NotInteger v))
  | VStr s => match parse_int s with
              | Some z => Ok (VInt z)
              | None => Exn (ESource (NotInteger v))
              end
  | _ => Exn (ESource (NotInteger v))
  end.

(** source/__init__.py:237-249.  [bool] is a subclass of [int]. *)
Definition as_float (E : env) (v : val) : res val :=
  match v with
  | VFloat f => Ok v
  | VInt z => match float_of_Z z with Ok f => Ok (VFloat f) | Exn e => Exn e end
  | VBool b => match float_of_Z (Z.b2z b) with Ok f => Ok (VFloat f) | Exn e => Exn e end
  | VStr s => match e_float E s with
              | Some f => Ok (VFloat f)
              | None => Exn (ESource (NotFloat v))
              end
  | _ => Exn (ESource (NotFloat v))
  end.

(** source/__init__.py:251-261 *)
Definition as_bool (v : val) : res val :=
  match v with
  | VBool b => Ok v
  | VInt z => Ok (VBool (negb (z =? 0)))
  | VStr s =>
      if existsb (String.eqb (lower s)) ["0"; "f"; "false"] then Ok (VBool false)
      else if existsb (String.eqb (lower s)) ["1"; "t"; "true"] then Ok (VBool true)
      else Exn (ESource (NotBoolean v))
  | _ => Exn (ESource (NotBoolean v))
  end.

(** source/__init__.py:263-289: [parser(types)(self, path, value)] *)
Definition mixin_parse (E : env) (t : ptype) (v : val) : res val :=
  match t with
  | TyStr => as_string v
  | TyInt => as_int v
  | TyFloat => as_float E v
  | TyBool => as_bool v
  | TyAuto => Ok v
  end.

(** json.py:45-50 *)
Definition json_as_string (E : env) (strict : bool) (v : val) : res val :=
  match v with
  | VStr _ => Ok v
  | _ => if strict then Exn (ESource (NotString v)) else Ok (VStr (e_str E v))
  end.

(** json.py:52-64 *)
Definition json_as_int (strict : bool) (v : val) : res val :=
  let bad := Exn (ESource (NotInteger v)) in
  match v with
  | VInt z => Ok (VInt z)
  | VFloat f => if strict then bad
                else if float_is_integer f then Ok (VInt (float_to_Z f)) else bad
  | VStr s => if strict then bad
              else match parse_int s with Some z => Ok (VInt z) | None => bad end
  | _ => bad
  end.

(** json.py:66-77 *)
Definition json_as_float (E : env) (strict : bool) (v : val) : res val :=
  let bad := Exn (ESource (NotFloat v)) in
  match v with
  | VFloat f => Ok v
  | VInt z => match float_of_Z z with Ok f => Ok (VFloat f) | Exn e => Exn e end
  | VBool b => match float_of_Z (Z.b2z b) with Ok f => Ok (VFloat f) | Exn e => Exn e end
  | VStr s => if strict then bad
              else match e_float E s with Some f => Ok (VFloat f) | None => bad end
  | _ => bad
  end.

(** json.py:79-85 *)
Definition json_as_bool (strict : bool) (v : val) : res val :=
  match v with
  | VBool b => Ok v
  | VInt z => if strict then Exn (ESource (NotBoolean v)) else Ok (VBool (negb (z =? 0)))
  | _ => Exn (ESource (NotBoolean v))
  end.

(** json.py:87-112 *)
Definition json_parse (E : env) (strict : bool) (t : ptype) (v : val) : res val :=
  match t with
  | TyStr => json_as_string E strict v
  | TyInt => json_as_int strict v
  | TyFloat => json_as_float E strict v
  | TyBool => json_as_bool strict v
  | TyAuto => Ok v
  end.

(** ** Plain sources *)

(** A parsed ConfigParser: sections, each with its options (lower-cased names,
    interpolated values, defaults included) — what [config.sections()],
    [config.items(section)], [has_option] and [get] return. *)
Definition config := list (string * list (string * string)).

(** The sources whose path is an ordinary [Path]:
    - [SDefault]: default.py:75-110 ([ignores] already split on '.', 82)
    - [SJson]: json.py:36-43 ([data] is the decoded text)
    - [SConfig]: configparser.py:109-141 (only the form where [config] is a parser
      object; [preserve_whitespace] is not modelled). *)
Inductive psource :=
| SDefault (data : val) (aliases : list (string * key)) (ignores : list (list string))
           (location : option string)
| SJson (data : val) (strict : bool) (location : option string)
| SConfig (cfg : config) (section : option string) (defaults : val)
          (location : option string).

(** source/__init__.py:51-58 [PathPart]; [pc = None] is [value is NOT_SET]. *)
Record part := Part { pk : key; pc : option val }.

(** source/__init__.py:61-77 [Path] for a plain source, parts root first. *)
Record ppath := PPath { pp_src : psource; pp_root : val; pp_parts : list part }.

Definition pp_keys (p : ppath) : list key := map pk (pp_parts p).

(** Contents of the forms in the heap, needed when a form is itself used as a
    source container. *)
Definition entries_of := nat -> list (val * val).

(** configparser.py:62-69: the regular expression
    "(?P<name>[\w\_]+)\[(?P<key>[\w\_\-\.]+)\]" matched at the start. *)
Definition is_word (c : ascii) : bool :=
  let n := nat_of_ascii c in
  ((Nat.leb 48 n && Nat.leb n 57) || (Nat.leb 65 n && Nat.leb n 90)
   || (Nat.leb 97 n && Nat.leb n 122) || Nat.eqb n 95)%bool.
Definition is_keychar (c : ascii) : bool :=
  (is_word c || Ascii.eqb c "-" || Ascii.eqb c ".")%bool.
Fixpoint take_while (f : ascii -> bool) (l : list ascii) : list ascii * list ascii :=
  match l with
  | c :: l' => if f c then let '(a, b) := take_while f l' in (c :: a, b) else ([], l)
  | [] => ([], [])
  end.
Definition sub_option (s : string) : option (string * string) :=
  let '(n, r) := take_while is_word (chars s) in
  match n, r with
  | _ :: _, c :: r' =>
      if Ascii.eqb c "[" then
        let '(k, r2) := take_while is_keychar r' in
        match k, r2 with
        | _ :: _, d :: _ => if Ascii.eqb d "]" then Some (of_chars n, of_chars k) else None
        | _, _ => None
        end
      else None
  | _, _ => None
  end.

(** configparser.py:64-69 [sub_mappings]: name -> {key: value} (insertion order). *)
Definition sub_mappings (opts : list (string * string)) : list (val * val) :=
  fold_left
    (fun acc ov =>
       match sub_option (fst ov) with
       | None => acc
       | Some (n, k) =>
           let d := match dict_get acc (VStr n) with Some (VDict d) => d | _ => [] end in
           dict_set acc (VStr n) (VDict (dict_set d (VStr k) (VStr (snd ov))))
       end) opts [].

(** configparser.py:71-78 [SectionMapping.__getitem__] *)
Definition section_getitem (opts : list (string * string)) (defaults : val) (k : key) : res val :=
  match k with
  | KStr s =>
      match dict_get (sub_mappings opts) (VStr s) with
      | Some d => Ok d
      | None =>
          match alookup opts (lower s) with
          | Some v => Ok (VStr v)
          | None =>
              match defaults with
              | VDict d => match dict_get d (VStr s) with Some v => Ok v | None => Exn EKey end
              | _ => Exn (EType "argument is not iterable")
              end
          end
      end
  | _ => Exn (EAttr "optionxform: no attribute 'lower'")
  end.

(** configparser.py:96-99 [Mapping.__getitem__] *)
Definition cfgroot_getitem (cfg : config) (defaults : val) (k : key) : res val :=
  match k with
  | KStr s =>
      match alookup cfg s with
      | None => Exn EKey
      | Some opts =>
          match defaults with
          | VDict d =>
              Ok (VCfgSec opts (match dict_get d (VStr s) with Some v => v | None => VNone end))
          | _ => Exn (EAttr "'NoneType' object has no attribute 'get'")
          end
      end
  | _ => Exn EKey
  end.

(** Python's [container[atom]] — default.py:23, json.py:27-30, configparser.py:35,
    union.py:41. *)
Definition py_getitem (E : env) (ents : entries_of) (c : val) (k : key) : res val :=
  match c with
  | VDict l => match dict_get l (val_of_key k) with Some v => Ok v | None => Exn EKey end
  | VForm i => match dict_get (ents i) (val_of_key k) with Some v => Ok v | None => Exn EKey end
  | VList l | VTuple l =>
      match k with
      | KInt i => match py_index l i with Some v => Ok v | None => Exn EIndex end
      | _ => Exn (EType "indices must be integers")
      end
  | VStr s =>
      match k with
      | KInt i => match py_index (chars s) i with
                  | Some a => Ok (VStr (String a EmptyString))
                  | None => Exn EIndex
                  end
      | _ => Exn (EType "indices must be integers")
      end
  | VObj _ _ => e_item E c k
  | VCfgRoot cfg d => cfgroot_getitem cfg d k
  | VCfgSec opts d => section_getitem opts d k
  | _ => Exn (EType "not subscriptable")
  end.

(** [except (IndexError, KeyError, TypeError): return NONE] *)
Definition or_NONE (r : res val) : res val :=
  match r with
  | Exn e => if is_lookup_or_type e then Ok (VConst NONE) else Exn e
  | ok => ok
  end.

(** pilo/__init__.py:22-28: the sentinels have a [name] attribute. *)
Definition const_name (c : const) : string :=
  match c with NONE => "NONE" | ERROR => "ERROR" | NOTSET => "NOT_SET" end.

(** [getattr(container, atom)] — default.py:36.  Side-effect free: when the
    container is a form this stands for the already computed attribute. *)
Definition py_getattr (E : env) (c : val) (a : string) : option val :=
  match c with
  | VConst s => if String.eqb a "name" then Some (VStr (const_name s)) else e_attr E c a
  | _ => e_attr E c a
  end.

(** default.py:21-25 [_as_item] *)
Definition as_item (E : env) (ents : entries_of) (c : val) (k : key) : res val :=
  or_NONE (py_getitem E ents c k).

(** default.py:27-31 [_as_alias]; [depth] is [len(self)]. *)
Definition as_alias (E : env) (ents : entries_of) (aliases : list (string * key))
           (depth : nat) (c : val) (k : key) : res val :=
  match k with
  | KStr s =>
      match alookup aliases s with
      | Some a => if Nat.eqb depth 1 then as_item E ents c a else Ok (VConst NONE)
      | None => Ok (VConst NONE)
      end
  | _ => Ok (VConst NONE)
  end.

(** default.py:33-39 [_as_attr] *)
Definition as_attr (E : env) (c : val) (k : key) : val :=
  match k with
  | KStr s => match py_getattr E c s with Some v => v | None => VConst NONE end
  | _ => VConst NONE
  end.

(** default.py:85-88 [DefaultSource.ignore]: the whole current path is compared. *)
Definition key_is (k : key) (s : string) : bool :=
  match k with KStr t => String.eqb t s | _ => false end.
Fixpoint keys_are (ks : list key) (l : list string) : bool :=
  match ks, l with
  | [], [] => true
  | k :: ks', s :: l' => key_is k s && keys_are ks' l'
  | _, _ => false
  end.
Definition is_ignored (ignores : list (list string)) (ks : list key) : bool :=
  existsb (keys_are ks) ignores.

(** default.py:10-19 [DefaultPath._resolve]; [ks] are the keys of the whole path. *)
Definition default_resolve1 (E : env) (ents : entries_of) (aliases : list (string * key))
           (ignores : list (list string)) (ks : list key) (c : val) (k : key) : res val :=
  if is_ignored ignores ks then Ok (VConst NONE)
  else
    match as_item E ents c k with
    | Exn e => Exn e
    | Ok v =>
        if negb (is_NONE v) then Ok v
        else
          match as_alias E ents aliases (length ks) c k with
          | Exn e => Exn e
          | Ok v => if negb (is_NONE v) then Ok v else Ok (as_attr E c k)
          end
    end.

(** default.py:65-69: one step per '.'-separated atom, stopping at [NONE]. *)
Fixpoint walk_atoms (step : val -> string -> res val) (c : val) (atoms : list string) : res val :=
  match atoms with
  | [] => Ok c
  | a :: rest =>
      match step c a with
      | Exn e => Exn e
      | Ok v => if is_NONE v then Ok v else walk_atoms step v rest
      end
  end.

(** default.py:53-72 [DefaultPath.resolve].  A key ending in "()" is resolved
    without it and called; [fuel] bounds the number of "()" suffixes and is the
    length of the key, so it is never exhausted. *)
Fixpoint default_resolve (fuel : nat) (E : env) (ents : entries_of)
         (aliases : list (string * key)) (ignores : list (list string)) (ks : list key)
         (c : val) (k : key) : res val :=
  let step := default_resolve1 E ents aliases ignores ks in
  match k with
  | KStr s =>
      match strip_call s, fuel with
      | Some s', S fuel' =>
          match default_resolve fuel' E ents aliases ignores ks c (KStr s') with
          | Exn e => Exn e
          | Ok v => if is_NONE v then Ok v else e_call E v
          end
      | _, _ =>
          match step c k with
          | Exn e => Exn e
          | Ok v =>
              if is_NONE v then walk_atoms (fun c a => step c (KStr a)) c (split_on dot s)
              else Ok v
          end
      end
  | _ => step c k
  end.

(** json.py:24-33 [JsonPath.resolve] *)
Fixpoint json_walk (E : env) (ents : entries_of) (c : val) (atoms : list string) : res val :=
  match atoms with
  | [] => Ok c
  | a :: rest => match py_getitem E ents c (KStr a) with
                 | Ok v => json_walk E ents v rest
                 | Exn e => Exn e
                 end
  end.
Definition json_resolve (E : env) (ents : entries_of) (c : val) (k : key) : res val :=
  or_NONE
    match k with
    | KStr s => if has_char dot s then json_walk E ents c (split_on dot s)
                else py_getitem E ents c k
    | _ => py_getitem E ents c k
    end.

(** configparser.py:40-54 [Sequence] *)
Definition cfg_sequence (E : env) (s : string) : res (list string) :=
  if has_char newline s
  then Ok (filter (fun l => negb (String.eqb l "")) (map strip (lines s)))
  else e_shlex E s.

(** configparser.py:31-37 [ConfigPath.resolve] *)
Definition config_resolve (E : env) (ents : entries_of) (c : val) (k : key) : res val :=
  match c with
  | VStr s =>
      match cfg_sequence E s with
      | Exn e => or_NONE (Exn e)
      | Ok l => or_NONE (py_getitem E ents (VList (map VStr l)) k)
      end
  | _ => or_NONE (py_getitem E ents c k)
  end.

(** [Path.resolve] dispatch; [ks] are the keys of the whole path. *)
Definition psource_resolve (E : env) (ents : entries_of) (src : psource) (ks : list key)
           (c : val) (k : key) : res val :=
  match src with
  | SDefault _ aliases ignores _ =>
      default_resolve (match k with KStr s => String.length s | _ => O end)
                      E ents aliases ignores ks c k
  | SJson _ _ _ => json_resolve E ents c k
  | SConfig _ _ _ _ => config_resolve E ents c k
  end.

(** source/__init__.py:96-101: look back from the last part for a cached value.
    [Some (n, v)]: [n] trailing parts are not cached, the one before holds [v].
    A raw part has no [value] attribute. *)
Fixpoint last_cached (rev_parts : list part) : res (option (nat * val)) :=
  match rev_parts with
  | [] => Ok None
  | p :: rest =>
      match pk p, pc p with
      | KRaw _, _ => Exn (EAttr "no attribute 'value'")
      | _, Some v => Ok (Some (O, v))
      | _, None =>
          match last_cached rest with
          | Ok (Some (n, v)) => Ok (Some (S n, v))
          | r => r
          end
      end
  end.

(** source/__init__.py:103-106: resolve and cache the remaining parts, stopping
    after the first [NONE]. *)
Fixpoint walk_parts (resolve : val -> key -> res val) (cur : val) (ps : list part)
  : list part * res val :=
  match ps with
  | [] => ([], Ok cur)
  | p :: rest =>
      match resolve cur (pk p) with
      | Exn e => (p :: rest, Exn e)
      | Ok v =>
          let p' := Part (pk p) (Some v) in
          if is_NONE v then (p' :: rest, Ok v)
          else let '(rest', r) := walk_parts resolve v rest in (p' :: rest', r)
      end
  end.

(** source/__init__.py:91-108 [Path.value] (getter) *)
Definition pp_value (E : env) (ents : entries_of) (p : ppath) : ppath * res val :=
  let parts := pp_parts p in
  match last_cached (rev parts) with
  | Exn e => (p, Exn e)
  | Ok o =>
      let '(n, cur) := match o with
                       | Some (n, v) => (n, v)
                       | None => (length parts, pp_root p)
                       end in
      let i := (length parts - n)%nat in
      let '(rest, r) :=
        walk_parts (psource_resolve E ents (pp_src p) (pp_keys p)) cur (skipn i parts) in
      (PPath (pp_src p) (pp_root p) (firstn i parts ++ rest), r)
  end.

(** source/__init__.py:124-130 [exists], [is_null] *)
Definition pp_exists (E : env) (ents : entries_of) (p : ppath) : ppath * res bool :=
  let '(p', r) := pp_value E ents p in
  (p', match r with Ok v => Ok (negb (is_NONE v)) | Exn e => Exn e end).
Definition pp_is_null (E : env) (ents : entries_of) (p : ppath) : ppath * res bool :=
  let '(p', r) := pp_value E ents p in
  (p', match r with Ok v => Ok (is_None v) | Exn e => Exn e end).

(** [primitive]: default.py:109-110, json.py:129-130, configparser.py:178-185. *)
Definition psource_parse (E : env) (src : psource) (t : ptype) (v : val) : res val :=
  match src with
  | SJson _ strict _ => json_parse E strict t v
  | _ => mixin_parse E t v
  end.
Definition pp_primitive (E : env) (ents : entries_of) (t : ptype) (p : ppath) : ppath * res val :=
  let '(p', r) := pp_value E ents p in
  (p', match r with Ok v => psource_parse E (pp_src p) t v | Exn e => Exn e end).

(** [sequence]: default.py:95-98, json.py:119-122, configparser.py:165-171.  A
    Python string is a [collections.Sequence]. *)
Definition psource_sequence (E : env) (src : psource) (v : val) : res nat :=
  match src with
  | SDefault _ _ _ _ =>
      match v with
      | VList l | VTuple l => Ok (length l)
      | VStr s => Ok (String.length s)
      | _ => Exn (ESource NotSequence)
      end
  | SJson _ _ _ =>
      match v with
      | VList l | VTuple l => Ok (length l)
      | _ => Exn (ESource NotSequence)
      end
  | SConfig _ _ _ _ =>
      match v with
      | VStr s => match cfg_sequence E s with Ok l => Ok (length l) | Exn e => Exn e end
      | VList l | VTuple l => Ok (length l)
      | _ => Exn (ESource NotSequence)
      end
  end.
Definition pp_sequence (E : env) (ents : entries_of) (p : ppath) : ppath * res nat :=
  let '(p', r) := pp_value E ents p in
  (p', match r with Ok v => psource_sequence E (pp_src p) v | Exn e => Exn e end).

(** What [mapping()] returns: a key view.  Iterating it is a second step, which can
    itself fail: [SectionMapping.__iter__] (configparser.py:80-84) uses
    [iteritems], which Python 3 dicts lack. *)
Definition view := res (list val).
Definition keys_view (E : env) (ents : entries_of) (v : val) : option view :=
  match v with
  | VDict l => Some (Ok (map fst l))
  | VForm i => Some (Ok (map fst (ents i)))
  | VCfgRoot cfg _ => Some (Ok (map (fun so => VStr (fst so)) cfg))
  | VCfgSec opts _ =>
      Some (if py3 E then Exn (EAttr "'collections.defaultdict' object has no attribute 'iteritems'")
            else Ok (map fst (sub_mappings opts) ++ map (fun ov => VStr (fst ov)) opts))
  | _ => None
  end.

(** [mapping]: default.py:100-107, json.py:124-127, configparser.py:173-176. *)
Definition psource_mapping (E : env) (ents : entries_of) (src : psource) (depth : nat)
           (v : val) : res view :=
  match src with
  | SDefault _ aliases _ _ =>
      let use_alias := match aliases with [] => false | _ => Nat.eqb depth 0 end in
      match keys_view E ents v with
      | Some kv =>
          if use_alias then Ok (Ok (map (fun a => VStr (fst a)) aliases)) else Ok kv
      | None =>
          match v with
          | VList _ | VTuple _ | VStr _ =>
              if use_alias then Ok (Ok (map (fun a => VStr (fst a)) aliases))
              else Exn (ESource NotMapping)
          | _ => Exn (ESource NotMapping)
          end
      end
  | SJson _ _ _ =>
      match v with
      | VDict _ | VForm _ =>
          match keys_view E ents v with Some kv => Ok kv | None => Exn (ESource NotMapping) end
      | _ => Exn (ESource NotMapping)
      end
  | SConfig _ _ _ _ =>
      match keys_view E ents v with Some kv => Ok kv | None => Exn (ESource NotMapping) end
  end.
Definition pp_mapping (E : env) (ents : entries_of) (p : ppath) : ppath * res view :=
  let '(p', r) := pp_value E ents p in
  (p', match r with
       | Ok v => psource_mapping E ents (pp_src p) (length (pp_parts p)) v
       | Exn e => Exn e
       end).

(** source/__init__.py:159-162 [insert] at the end (= [append]) and
    [MutableSequence.pop]: [v = self[-1]; del self[-1]]. *)
Definition pp_append (k : key) (p : ppath) : ppath :=
  PPath (pp_src p) (pp_root p) (pp_parts p ++ [Part k None]).
Definition pp_pop (p : ppath) : ppath * res unit :=
  match pp_parts p with
  | [] => (p, Exn EIndex)
  | _ => (PPath (pp_src p) (pp_root p) (removelast (pp_parts p)), Ok tt)
  end.

(** source/__init__.py:79-89 [Path.__str__] *)
Definition first_str (E : env) (k : key) : string :=
  match k with KStr s => s | KInt z => print_int z | KRaw v => e_str E v end.
Fixpoint rest_str (ks : list key) : res string :=
  match ks with
  | [] => Ok ""
  | k :: ks' =>
      match k with
      | KRaw _ => Exn (EAttr "no attribute 'key'")
      | _ =>
          let part := match k with
                      | KInt z => ("[" ++ print_int z ++ "]")%string
                      | KStr s => ("." ++ s)%string
                      | KRaw _ => ""
                      end in
          match rest_str ks' with Ok r => Ok (part ++ r)%string | Exn e => Exn e end
      end
  end.
Definition keys_str (E : env) (ks : list key) : res string :=
  match ks with
  | [] => Ok ""
  | k :: ks' => match rest_str ks' with
                | Ok r => Ok (first_str E k ++ r)%string
                | Exn e => Exn e
                end
  end.

(** default.py:46-51, json.py:17-22, configparser.py:22-29: location and section
    are joined with ':'. *)
Definition opt_str (o : option string) : list string :=
  match o with Some s => if String.eqb s "" then [] else [s] | None => [] end.
Definition psource_prefix (src : psource) : list string :=
  match src with
  | SDefault _ _ _ loc => opt_str loc
  | SJson _ _ loc => opt_str loc
  | SConfig _ sec _ loc =>
      opt_str loc ++ map (fun s => "[" ++ s ++ "]")%string (opt_str sec)
  end.
Definition pkeys_str (E : env) (src : psource) (ks : list key) : res string :=
  match keys_str E ks with
  | Ok s => Ok (String.concat ":" (psource_prefix src ++ [s]))
  | Exn e => Exn e
  end.
Definition pp_str (E : env) (p : ppath) : res string := pkeys_str E (pp_src p) (pp_keys p).

(** [Source.path()]: default.py:43-44/92-93, json.py:14-15/116-117,
    configparser.py:14-20/162-163.  [SectionMapping.__init__] reads the section and
    fails if there is none. *)
Definition psource_root (src : psource) : res val :=
  match src with
  | SDefault d _ _ _ => Ok d
  | SJson d _ _ => Ok d
  | SConfig cfg sec d _ =>
      match opt_str sec with
      | s :: _ => match alookup cfg s with
                  | Some opts => Ok (VCfgSec opts d)
                  | None => Exn (EOther "NoSectionError")
                  end
      | [] => Ok (VCfgRoot cfg d)
      end
  end.
Definition psource_path (src : psource) : res ppath :=
  match psource_root src with
  | Ok v => Ok (PPath src v [])
  | Exn e => Exn e
  end.

(** ** Union sources — union.py *)

Inductive merge := MFirst | MLast | MCombine | MBad (s : string).

(** union.py:67-92 *)
Record usource := USource {
  us_srcs : list psource;
  us_mapping : merge;
  us_sequence : merge;
  us_depth : option Z
}.

(** union.py:6-25.  Sub-paths are owned by the union path and referred to by index
    (simplification: [Join.path], union.py:138-141, which shares them with a second
    union path, is not modelled; nor is a union or mount inside a union). *)
Record upath := UPath {
  up_src : usource;
  up_root : val;
  up_parts : list part;
  up_paths : list ppath
}.
Definition up_keys (p : upath) : list key := map pk (up_parts p).

(** union.py:144-173 [Mapping.__init__]: [n] is [len(paths)], compared with
    [merge_depth] at line 150. *)
Definition umap_merge (src : usource) (n : nat) (m : option merge) : merge :=
  match m with
  | Some m => m
  | None =>
      match us_depth src with
      | Some d => if d <=? Z.of_nat n then MFirst else us_mapping src
      | None => us_mapping src
      end
  end.

(** One iteration of union.py:154-171 on path [p]; [inl] continues with the new
    list, [inr] is [break].  Simplification: the keys are listed at once, so that a
    configuration section raises here on Python 3 (there only listing them would). *)
Definition umap_step (E : env) (ents : entries_of) (m : merge) (i : nat) (p : ppath)
           (acc : list (nat * list val))
  : ppath * res (list (nat * list val) + list (nat * list val)) :=
  let '(p1, r) := pp_exists E ents p in
  match r with
  | Exn e => (p1, Exn e)
  | Ok false => (p1, Ok (inl acc))
  | Ok true =>
      let '(p2, r) := pp_is_null E ents p1 in
      match r with
      | Exn e => (p2, Exn e)
      | Ok true => (p2, Ok (match m with MFirst => inr acc | _ => inl acc end))
      | Ok false =>
          let '(p3, r) := pp_mapping E ents p2 in
          match r with
          | Exn e | Ok (Exn e) => (p3, Exn e)
          | Ok (Ok ks) =>
              (p3, Ok match m with
                      | MFirst => inr (acc ++ [(i, ks)])
                      | MCombine => inl (acc ++ [(i, ks)])
                      | _ => inl [(i, ks)]
                      end)
          end
      end
  end.

(** The loop over the selected sub-paths (increasing indices). *)
Fixpoint umap_loop (E : env) (ents : entries_of) (m : merge) (idx : list nat)
         (paths : list ppath) (acc : list (nat * list val))
  : list ppath * res (list (nat * list val)) :=
  match idx with
  | [] => (paths, Ok acc)
  | i :: rest =>
      match nth_error paths i with
      | None => (paths, Exn EIndex)
      | Some p =>
          let '(p', r) := umap_step E ents m i p acc in
          let paths' := replace_nth i p' paths in
          match r with
          | Exn e => (paths', Exn e)
          | Ok (inr acc') => (paths', Ok acc')
          | Ok (inl acc') => umap_loop E ents m rest paths' acc'
          end
      end
  end.

Definition umap_make (E : env) (ents : entries_of) (src : usource) (paths : list ppath)
           (idx : list nat) (m : option merge) : list ppath * res val :=
  match umap_merge src (length idx) m with
  | MBad s => (paths, Exn (EValue "merge invalid"))
  | mg => let '(paths', r) := umap_loop E ents mg idx paths [] in
          (paths', match r with Ok ms => Ok (VUMap ms) | Exn e => Exn e end)
  end.

(** union.py:195-219 [Sequence.__init__].  [merge] is decided when the second
    usable path is met and then kept; an invalid one makes the error message itself
    fail ('{1}' with one argument, line 217), an [IndexError]. *)
Definition useq_merge (src : usource) (depth : nat) (m : option merge) : merge :=
  match m with
  | Some m => m
  | None =>
      match us_depth src with
      | Some d => if d <=? Z.of_nat depth then MFirst else us_sequence src
      | None => us_sequence src
      end
  end.

Definition useq_step (E : env) (ents : entries_of) (src : usource) (m : option merge)
           (i : nat) (p : ppath) (acc : list (nat * Z))
  : ppath * res (option merge * list (nat * Z)) :=
  let '(p1, r) := pp_exists E ents p in
  match r with
  | Exn e => (p1, Exn e)
  | Ok false => (p1, Ok (m, acc))
  | Ok true =>
      let '(p2, r) := pp_is_null E ents p1 in
      match r with
      | Exn e => (p2, Exn e)
      | Ok true => (p2, Ok (m, acc))
      | Ok false =>
          let '(p3, r) := pp_sequence E ents p2 in
          match r with
          | Exn e => (p3, Exn e)
          | Ok n =>
              let here := (i, Z.of_nat n) in
              match acc with
              | [] => (p3, Ok (m, [here]))
              | _ :: acc_tl =>
                  let mg := useq_merge src (length (pp_parts p)) m in
                  (p3, match mg with
                       | MCombine => Ok (Some mg, acc ++ [here])
                       | MFirst => Ok (Some mg, acc)
                       | MLast => Ok (Some mg, here :: acc_tl)
                       | MBad _ => Exn EIndex
                       end)
              end
          end
      end
  end.

Fixpoint useq_loop (E : env) (ents : entries_of) (src : usource) (m : option merge)
         (idx : list nat) (paths : list ppath) (acc : list (nat * Z))
  : list ppath * res (list (nat * Z)) :=
  match idx with
  | [] => (paths, Ok acc)
  | i :: rest =>
      match nth_error paths i with
      | None => (paths, Exn EIndex)
      | Some p =>
          let '(p', r) := useq_step E ents src m i p acc in
          let paths' := replace_nth i p' paths in
          match r with
          | Exn e => (paths', Exn e)
          | Ok (m', acc') => useq_loop E ents src m' rest paths' acc'
          end
      end
  end.

Definition useq_make (E : env) (ents : entries_of) (src : usource) (paths : list ppath)
           (idx : list nat) : list ppath * res val :=
  let '(paths', r) := useq_loop E ents src None idx paths [] in
  (paths', match r with Ok ss => Ok (VUSeq ss) | Exn e => Exn e end).

(** union.py:177-184 [Mapping.__getitem__] *)
Definition umap_getitem (ms : list (nat * list val)) (k : key) : res val :=
  match map fst (filter (fun ik => py_in (val_of_key k) (snd ik)) ms) with
  | [] => Exn EKey
  | idx => Ok (VJoin idx)
  end.

(** union.py:223-232 [Sequence.__getitem__]: which sub-path, and the offset. *)
Fixpoint useq_find (ss : list (nat * Z)) (offset k : Z) : option (nat * Z) :=
  match ss with
  | [] => None
  | (i, n) :: rest => if k <? offset + n then Some (i, offset) else useq_find rest (offset + n) k
  end.

(** union.py:231: [path[-1].key -= offset] *)
Definition shift_last (offset : Z) (p : ppath) : res ppath :=
  match rev (pp_parts p) with
  | [] => Exn EIndex
  | q :: rest =>
      match pk q with
      | KInt z => Ok (PPath (pp_src p) (pp_root p) (rev rest ++ [Part (KInt (z - offset)) (pc q)]))
      | _ => Exn (EType "unsupported operand type(s) for -=")
      end
  end.

Definition useq_getitem (paths : list ppath) (ss : list (nat * Z)) (k : key)
  : list ppath * res val :=
  match k with
  | KInt z =>
      match useq_find ss 0 z with
      | None => (paths, Exn EIndex)
      | Some (i, offset) =>
          match nth_error paths i with
          | None => (paths, Exn EIndex)
          | Some p => match shift_last offset p with
                      | Ok p' => (replace_nth i p' paths, Ok (VJoin [i]))
                      | Exn e => (paths, Exn e)
                      end
          end
      end
  (* a string key: IndexError on Python 2, TypeError on Python 3; both become NONE *)
  | _ => (paths, Exn EIndex)
  end.

(** union.py:39-43 [UnionPath.resolve] *)
Definition union_resolve (E : env) (ents : entries_of) (paths : list ppath) (c : val) (k : key)
  : list ppath * res val :=
  match c with
  | VUMap ms => (paths, or_NONE (umap_getitem ms k))
  | VUSeq ss => let '(paths', r) := useq_getitem paths ss k in (paths', or_NONE r)
  | _ => (paths, or_NONE (py_getitem E ents c k))
  end.

(** source/__init__.py:103-106 for a union path *)
Fixpoint union_walk (E : env) (ents : entries_of) (paths : list ppath) (cur : val)
         (ps : list part) : list ppath * (list part * res val) :=
  match ps with
  | [] => (paths, ([], Ok cur))
  | p :: rest =>
      let '(paths1, r) := union_resolve E ents paths cur (pk p) in
      match r with
      | Exn e => (paths1, (p :: rest, Exn e))
      | Ok v =>
          let p' := Part (pk p) (Some v) in
          if is_NONE v then (paths1, (p' :: rest, Ok v))
          else let '(paths2, (rest', r)) := union_walk E ents paths1 v rest in
               (paths2, (p' :: rest', r))
      end
  end.

(** source/__init__.py:91-108 for a union path *)
Definition up_value (E : env) (ents : entries_of) (p : upath) : upath * res val :=
  let parts := up_parts p in
  match last_cached (rev parts) with
  | Exn e => (p, Exn e)
  | Ok o =>
      let '(n, cur) := match o with
                       | Some (n, v) => (n, v)
                       | None => (length parts, up_root p)
                       end in
      let i := (length parts - n)%nat in
      let '(paths', (rest, r)) := union_walk E ents (up_paths p) cur (skipn i parts) in
      (UPath (up_src p) (up_root p) (firstn i parts ++ rest) paths', r)
  end.

(** source/__init__.py:110-115 [Path.value] (setter) *)
Definition set_last_cache (v : val) (ps : list part) : list part :=
  match rev ps with
  | [] => []
  | q :: rest => rev rest ++ [Part (pk q) (Some v)]
  end.
Definition up_set_value (v : val) (p : upath) : upath :=
  match up_parts p with
  | [] => UPath (up_src p) v [] (up_paths p)
  | ps => UPath (up_src p) (up_root p) (set_last_cache v ps) (up_paths p)
  end.

Definition up_exists (E : env) (ents : entries_of) (p : upath) : upath * res bool :=
  let '(p', r) := up_value E ents p in
  (p', match r with Ok v => Ok (negb (is_NONE v)) | Exn e => Exn e end).

(** union.py:29-37 [UnionPath.is_null] *)
Definition up_is_null (E : env) (ents : entries_of) (p : upath) : upath * res bool :=
  let '(p', r) := up_value E ents p in
  (p', match r with
       | Ok v => Ok match v with
                    | VNone => true
                    | VUMap ms => match ms with [] => true | _ => false end
                    | VUSeq ss => match ss with [] => true | _ => false end
                    | _ => false
                    end
       | Exn e => Exn e
       end).

(** union.py:186-192: the distinct keys (simplification: first-occurrence order
    instead of set order). *)
Fixpoint dedup (l : list val) : list val :=
  match l with
  | [] => []
  | v :: l' => v :: filter (fun w => negb (py_eq v w)) (dedup l')
  end.
Definition umap_keys (ms : list (nat * list val)) : list val := dedup (flat_map snd ms).

(** union.py:99-104 [UnionSource.mapping] with 125-126 [Join.mapping] *)
Definition up_mapping (E : env) (ents : entries_of) (p : upath) : upath * res view :=
  let '(p1, r) := up_value E ents p in
  match r with
  | Exn e => (p1, Exn e)
  | Ok (VJoin idx) =>
      let '(paths', r) := umap_make E ents (up_src p1) (up_paths p1) idx None in
      let p2 := UPath (up_src p1) (up_root p1) (up_parts p1) paths' in
      match r with
      | Exn e => (p2, Exn e)
      | Ok (VUMap ms) => (up_set_value (VUMap ms) p2, Ok (Ok (umap_keys ms)))
      | Ok _ => (p2, Exn (ESource NotMapping))
      end
  | Ok (VUMap ms) => (p1, Ok (Ok (umap_keys ms)))
  | Ok _ => (p1, Exn (ESource NotMapping))
  end.

(** union.py:106-111 [UnionSource.sequence] with 128-129, 234-235 *)
Definition useq_len (ss : list (nat * Z)) : nat :=
  Z.to_nat (fold_left Z.add (map snd ss) 0).
Definition up_sequence (E : env) (ents : entries_of) (p : upath) : upath * res nat :=
  let '(p1, r) := up_value E ents p in
  match r with
  | Exn e => (p1, Exn e)
  | Ok (VJoin idx) =>
      let '(paths', r) := useq_make E ents (up_src p1) (up_paths p1) idx in
      let p2 := UPath (up_src p1) (up_root p1) (up_parts p1) paths' in
      match r with
      | Exn e => (p2, Exn e)
      | Ok (VUSeq ss) => (up_set_value (VUSeq ss) p2, Ok (useq_len ss))
      | Ok _ => (p2, Exn (ESource NotSequence))
      end
  | Ok (VUSeq ss) => (p1, Ok (useq_len ss))
  | Ok _ => (p1, Exn (ESource NotSequence))
  end.

(** union.py:113-116 [UnionSource.primitive] with 131-134 [Join.primitive] *)
Definition up_primitive (E : env) (ents : entries_of) (t : ptype) (p : upath) : upath * res val :=
  let '(p1, r) := up_value E ents p in
  match r with
  | Exn e => (p1, Exn e)
  | Ok (VJoin idx) =>
      match idx with
      | [] => (up_set_value (VConst NONE) p1, Ok (VConst NONE))
      | i :: _ =>
          match nth_error (up_paths p1) i with
          | None => (p1, Exn EIndex)
          | Some q =>
              let '(q', r) := pp_primitive E ents t q in
              let p2 := UPath (up_src p1) (up_root p1) (up_parts p1)
                              (replace_nth i q' (up_paths p1)) in
              match r with
              | Exn e => (p2, Exn e)
              | Ok v => (up_set_value v p2, Ok v)
              end
          end
      end
  | Ok v => (p1, Ok v)
  end.

(** union.py:47-64: every structural change is repeated on each sub-path. *)
Definition up_append (k : key) (p : upath) : upath :=
  UPath (up_src p) (up_root p) (up_parts p ++ [Part k None]) (map (pp_append k) (up_paths p)).
Fixpoint pop_all (ps : list ppath) : list ppath * res unit :=
  match ps with
  | [] => ([], Ok tt)
  | p :: rest =>
      let '(p', r) := pp_pop p in
      match r with
      | Exn e => (p' :: rest, Exn e)
      | Ok _ => let '(rest', r) := pop_all rest in (p' :: rest', r)
      end
  end.
Definition up_pop (p : upath) : upath * res unit :=
  match up_parts p with
  | [] => (p, Exn EIndex)
  | ps => let '(paths', r) := pop_all (up_paths p) in
          (UPath (up_src p) (up_root p) (removelast ps) paths', r)
  end.

(** union.py:8-25, 96-97: [UnionSource.path()]; the root mapping is built at once,
    and a union of no sources has no path. *)
Fixpoint sub_paths (srcs : list psource) : res (list ppath) :=
  match srcs with
  | [] => Ok []
  | s :: rest =>
      match psource_path s with
      | Exn e => Exn e
      | Ok p => match sub_paths rest with Ok ps => Ok (p :: ps) | Exn e => Exn e end
      end
  end.
Definition usource_path (E : env) (ents : entries_of) (src : usource) : res upath :=
  match sub_paths (us_srcs src) with
  | Exn e => Exn e
  | Ok ps =>
      let '(ps', r) := umap_make E ents src ps (seq 0 (length ps)) (Some MCombine) in
      match r with
      | Exn e => Exn e
      | Ok v => match ps' with
                | [] => Exn (EValue "All paths must have equal length")
                | _ => Ok (UPath src v [] ps')
                end
      end
  end.

(** ** Plain-or-union, then mounts *)

Inductive bsource := BPlain (s : psource) | BUnion (u : usource).
Inductive bpath := BP (p : ppath) | BU (u : upath).

(** mount.py:121-142 [MountSource]: keys to sources (simplification: no mount
    inside a mount). *)
Inductive source := SBase (b : bsource) | SMount (srcs : list (string * bsource)).

(** mount.py:7-33 [MountPath]: [sel] is [self.part]. *)
Inductive path :=
| PBase (b : bpath)
| PMount (sel : option key) (dne : ppath) (paths : list (string * bpath)).

Definition on_bp {A} (fp : ppath -> ppath * A) (fu : upath -> upath * A) (b : bpath) : bpath * A :=
  match b with
  | BP p => let '(p', a) := fp p in (BP p', a)
  | BU u => let '(u', a) := fu u in (BU u', a)
  end.

Definition bp_value (E : env) (ents : entries_of) : bpath -> bpath * res val :=
  on_bp (pp_value E ents) (up_value E ents).
Definition bp_exists (E : env) (ents : entries_of) : bpath -> bpath * res bool :=
  on_bp (pp_exists E ents) (up_exists E ents).
Definition bp_is_null (E : env) (ents : entries_of) : bpath -> bpath * res bool :=
  on_bp (pp_is_null E ents) (up_is_null E ents).
Definition bp_mapping (E : env) (ents : entries_of) : bpath -> bpath * res view :=
  on_bp (pp_mapping E ents) (up_mapping E ents).
Definition bp_sequence (E : env) (ents : entries_of) : bpath -> bpath * res nat :=
  on_bp (pp_sequence E ents) (up_sequence E ents).
Definition bp_primitive (E : env) (ents : entries_of) (t : ptype) : bpath -> bpath * res val :=
  on_bp (pp_primitive E ents t) (up_primitive E ents t).
Definition bp_append (k : key) (b : bpath) : bpath :=
  match b with BP p => BP (pp_append k p) | BU u => BU (up_append k u) end.
Definition bp_pop : bpath -> bpath * res unit := on_bp pp_pop up_pop.
Definition bp_keys (b : bpath) : list key :=
  match b with BP p => pp_keys p | BU u => up_keys u end.
Definition bp_str (E : env) (b : bpath) : res string :=
  match b with BP p => pp_str E p | BU u => keys_str E (up_keys u) end.

(** mount.py:16-18: [self.paths.get(self.part.key, self.dne)]; [on_mount] runs an
    operation on the selected path. *)
Fixpoint aupdate {A B} (f : A -> A * B) (l : list (string * A)) (k : string)
  : list (string * A) * option B :=
  match l with
  | [] => ([], None)
  | (k', a) :: l' =>
      if String.eqb k' k then let '(a', b) := f a in ((k', a') :: l', Some b)
      else let '(l2, o) := aupdate f l' k in ((k', a) :: l2, o)
  end.
Definition mount_sel (k : key) : string := match k with KStr s => s | _ => "" end.
Definition mount_has (k : key) (paths : list (string * bpath)) : bool :=
  match k with
  | KStr s => match alookup paths s with Some _ => true | None => false end
  | _ => false
  end.
Definition on_mount {A} (fb : bpath -> bpath * A) (fp : ppath -> ppath * A)
           (k : key) (dne : ppath) (paths : list (string * bpath)) : path * A :=
  if mount_has k paths then
    match aupdate fb paths (mount_sel k) with
    | (paths', Some a) => (PMount (Some k) dne paths', a)
    | (_, None) => let '(d', a) := fp dne in (PMount (Some k) d' paths, a)
    end
  else let '(d', a) := fp dne in (PMount (Some k) d' paths, a).

(** mount.py:35-39 [value] *)
Definition p_value (E : env) (ents : entries_of) (p : path) : path * res val :=
  match p with
  | PBase b => let '(b', r) := bp_value E ents b in (PBase b', r)
  | PMount None _ _ => (p, Ok (VConst NONE))
  | PMount (Some k) dne paths => on_mount (bp_value E ents) (pp_value E ents) k dne paths
  end.

(** mount.py:49-59 [exists], [is_null] *)
Definition p_exists (E : env) (ents : entries_of) (p : path) : path * res bool :=
  match p with
  | PBase b => let '(b', r) := bp_exists E ents b in (PBase b', r)
  | PMount None _ _ => (p, Ok true)
  | PMount (Some _) _ _ =>
      let '(p', r) := p_value E ents p in
      (p', match r with Ok v => Ok (negb (is_NONE v)) | Exn e => Exn e end)
  end.
Definition p_is_null (E : env) (ents : entries_of) (p : path) : path * res bool :=
  match p with
  | PBase b => let '(b', r) := bp_is_null E ents b in (PBase b', r)
  | PMount None _ _ => (p, Ok false)
  | PMount (Some _) _ _ =>
      let '(p', r) := p_value E ents p in
      (p', match r with Ok v => Ok (is_None v) | Exn e => Exn e end)
  end.

(** mount.py:61-69: [primitive] and [sequence] index [self.paths] directly, so a
    missing mount is a [KeyError]; at the root they use the undefined [self.error]. *)
Definition p_primitive (E : env) (ents : entries_of) (t : ptype) (p : path) : path * res val :=
  match p with
  | PBase b => let '(b', r) := bp_primitive E ents t b in (PBase b', r)
  | PMount None _ _ => (p, Exn (EAttr "'MountPath' object has no attribute 'error'"))
  | PMount (Some k) dne paths =>
      if mount_has k paths
      then on_mount (bp_primitive E ents t) (pp_primitive E ents t) k dne paths
      else (p, Exn EKey)
  end.
Definition p_sequence (E : env) (ents : entries_of) (p : path) : path * res nat :=
  match p with
  | PBase b => let '(b', r) := bp_sequence E ents b in (PBase b', r)
  | PMount None _ _ => (p, Exn (EAttr "'MountPath' object has no attribute 'error'"))
  | PMount (Some k) dne paths =>
      if mount_has k paths
      then on_mount (bp_sequence E ents) (pp_sequence E ents) k dne paths
      else (p, Exn EKey)
  end.

(** mount.py:71-74 [mapping] *)
Definition p_mapping (E : env) (ents : entries_of) (p : path) : path * res view :=
  match p with
  | PBase b => let '(b', r) := bp_mapping E ents b in (PBase b', r)
  | PMount None _ paths => (p, Ok (Ok (map (fun kp => VStr (fst kp)) paths)))
  | PMount (Some k) dne paths => on_mount (bp_mapping E ents) (pp_mapping E ents) k dne paths
  end.

(** mount.py:20-33, 78-82: the visible keys *)
Definition p_keys (p : path) : list key :=
  match p with
  | PBase b => bp_keys b
  | PMount None _ _ => []
  | PMount (Some k) dne paths =>
      k :: (if mount_has k paths
            then match alookup paths (mount_sel k) with Some b => bp_keys b | None => [] end
            else pp_keys dne)
  end.

(** mount.py:110-118 [insert] at the end *)
Definition p_append (k : key) (p : path) : path :=
  match p with
  | PBase b => PBase (bp_append k b)
  | PMount None dne paths => PMount (Some k) dne paths
  | PMount (Some m) dne paths =>
      fst (on_mount (fun b => (bp_append k b, tt)) (fun d => (pp_append k d, tt)) m dne paths)
  end.

(** mount.py:96-108 [__delitem__] at the end *)
Definition p_pop (p : path) : path * res unit :=
  match p with
  | PBase b => let '(b', r) := bp_pop b in (PBase b', r)
  | PMount None _ _ => (p, Exn EIndex)
  | PMount (Some m) dne paths =>
      match p_keys p with
      | [_] => (PMount None dne paths, Ok tt)
      | _ => on_mount bp_pop pp_pop m dne paths
      end
  end.

(** mount.py:28-33 [__str__] *)
Definition p_str (E : env) (p : path) : res string :=
  match p with
  | PBase b => bp_str E b
  | PMount None _ _ => Ok ""
  | PMount (Some k) dne paths =>
      match p_keys p with
      | [_] => Ok ("@" ++ first_str E k)%string
      | _ =>
          let r := if mount_has k paths
                   then match alookup paths (mount_sel k) with
                        | Some b => bp_str E b
                        | None => Ok ""
                        end
                   else pp_str E dne in
          match r with
          | Ok s => Ok ("@" ++ first_str E k ++ ":" ++ s)%string
          | Exn e => Exn e
          end
      end
  end.

(** [src.path()]: mount.py:9-14/138-139.  [iteritems] does not exist on Python 3. *)
Definition bsource_path (E : env) (ents : entries_of) (b : bsource) : res bpath :=
  match b with
  | BPlain s => match psource_path s with Ok p => Ok (BP p) | Exn e => Exn e end
  | BUnion u => match usource_path E ents u with Ok p => Ok (BU p) | Exn e => Exn e end
  end.
Fixpoint mount_paths (E : env) (ents : entries_of) (l : list (string * bsource))
  : res (list (string * bpath)) :=
  match l with
  | [] => Ok []
  | (k, b) :: rest =>
      match bsource_path E ents b with
      | Exn e => Exn e
      | Ok p => match mount_paths E ents rest with
                | Ok ps => Ok ((k, p) :: ps)
                | Exn e => Exn e
                end
      end
  end.
Definition empty_path : ppath := PPath (SDefault (VDict []) [] [] None) (VDict []) [].
Definition source_path (E : env) (ents : entries_of) (s : source) : res path :=
  match s with
  | SBase b => match bsource_path E ents b with Ok p => Ok (PBase p) | Exn e => Exn e end
  | SMount l =>
      if py3 E then Exn (EAttr "'dict' object has no attribute 'iteritems'")
      else match mount_paths E ents l with
           | Ok ps => Ok (PMount None empty_path ps)
           | Exn e => Exn e
           end
  end.
