(** * Build: pilo/fields.py — the constructors of fields, their options and the methods that
    register a hook ([constant], [format], [capture], [pattern]).

    Simplifications: a constructor or method returns the field or the exception; a method
    that fails half-way has no effect (in Python the assignments before the exception stay).
    Options that only fail when the field is used are rejected when it is built: bounds of a
    length that are no integers, choices that are no list, an alphabet that is no text,
    translations that are no dict.  A function where a plain value is expected, and a field
    or class as a default or ignored value, are not modelled ([unmodelled]).  A hook that
    uses its field's name is given that name, which the field gets when it is attached, as
    an argument. *)
From Verif Require Import PyBase PyStr Source Field.

(** ** Arguments *)

(** A field that is not attached yet; [b_src] says that [src] is set, be it to [None]. *)
Record bfield := BF { b_src : bool; b_opts : fopts prog; b_kind : kind }.

(** An argument of a constructor: a value, a function, a compiled pattern, a field, a form
    class, a list or a tuple of arguments that are no values. *)
Inductive arg :=
| AV (v : val)
| AFn (p : prog)
| ARe (pattern : string)
| AF (f : bfield)
| ACls (t : formty)
| AList (l : list arg)
| ATuple (l : list arg).

Definition kwargs : Type := list (string * arg).
Definition unmodelled : exn := EOther "not modelled".

(** [kwargs.pop(n, None)] *)
Definition kw_rest (n : string) (kw : kwargs) : kwargs := filter (fun kv => negb (String.eqb (fst kv) n)) kw.
Definition kw_pop (n : string) (kw : kwargs) : arg * kwargs :=
  (match alookup kw n with Some a => a | None => AV VNone end, kw_rest n kw).
(** the same, for an option that is a plain value *)
Definition as_value (a : arg) : res val := match a with AV v => Ok v | _ => Exn unmodelled end.
Definition bindr {A B} (r : res A) (k : A -> res B) : res B := match r with Ok a => k a | Exn e => Exn e end.
Definition pop_value (n : string) (kw : kwargs) : res (val * kwargs) :=
  let '(a, rest) := kw_pop n kw in bindr (as_value a) (fun v => Ok (v, rest)).

(** [if x:] *)
Definition arg_truthy (a : arg) : bool :=
  match a with
  | AV v => truthy v
  | AList [] | ATuple [] => false
  | _ => true
  end.

(** ** Options *)

Definition set_src (k : option key) (o : fopts prog) : fopts prog :=
  MkOpts (o_name o) k (o_nullable o) (o_default o) (o_ignores o) (o_translations o) (o_tags o)
         (o_attach_parent o) (o_compute o) (o_resolve o) (o_parse o) (o_munge o) (o_filter o) (o_validate o).
Definition set_nullable (b : bool) (o : fopts prog) : fopts prog :=
  MkOpts (o_name o) (o_src o) b (o_default o) (o_ignores o) (o_translations o) (o_tags o)
         (o_attach_parent o) (o_compute o) (o_resolve o) (o_parse o) (o_munge o) (o_filter o) (o_validate o).
Definition set_default (d : dflt prog) (o : fopts prog) : fopts prog :=
  MkOpts (o_name o) (o_src o) (o_nullable o) d (o_ignores o) (o_translations o) (o_tags o)
         (o_attach_parent o) (o_compute o) (o_resolve o) (o_parse o) (o_munge o) (o_filter o) (o_validate o).
Definition set_ignores (l : list val) (o : fopts prog) : fopts prog :=
  MkOpts (o_name o) (o_src o) (o_nullable o) (o_default o) l (o_translations o) (o_tags o)
         (o_attach_parent o) (o_compute o) (o_resolve o) (o_parse o) (o_munge o) (o_filter o) (o_validate o).
Definition set_translations (l : list (val * val)) (o : fopts prog) : fopts prog :=
  MkOpts (o_name o) (o_src o) (o_nullable o) (o_default o) (o_ignores o) l (o_tags o)
         (o_attach_parent o) (o_compute o) (o_resolve o) (o_parse o) (o_munge o) (o_filter o) (o_validate o).
Definition set_tags (l : list string) (o : fopts prog) : fopts prog :=
  MkOpts (o_name o) (o_src o) (o_nullable o) (o_default o) (o_ignores o) (o_translations o) l
         (o_attach_parent o) (o_compute o) (o_resolve o) (o_parse o) (o_munge o) (o_filter o) (o_validate o).
Definition set_attach (b : bool) (o : fopts prog) : fopts prog :=
  MkOpts (o_name o) (o_src o) (o_nullable o) (o_default o) (o_ignores o) (o_translations o) (o_tags o)
         b (o_compute o) (o_resolve o) (o_parse o) (o_munge o) (o_filter o) (o_validate o).
Definition set_compute (h : option (hook prog)) (o : fopts prog) : fopts prog :=
  MkOpts (o_name o) (o_src o) (o_nullable o) (o_default o) (o_ignores o) (o_translations o) (o_tags o)
         (o_attach_parent o) h (o_resolve o) (o_parse o) (o_munge o) (o_filter o) (o_validate o).
Definition set_parse (h : option (hook prog)) (o : fopts prog) : fopts prog :=
  MkOpts (o_name o) (o_src o) (o_nullable o) (o_default o) (o_ignores o) (o_translations o) (o_tags o)
         (o_attach_parent o) (o_compute o) (o_resolve o) h (o_munge o) (o_filter o) (o_validate o).
Definition set_munge (h : option (hook prog)) (o : fopts prog) : fopts prog :=
  MkOpts (o_name o) (o_src o) (o_nullable o) (o_default o) (o_ignores o) (o_translations o) (o_tags o)
         (o_attach_parent o) (o_compute o) (o_resolve o) (o_parse o) h (o_filter o) (o_validate o).

(** fields.py:453-455 [Field.ignore] *)
Definition add_ignores (vs : list val) (o : fopts prog) : fopts prog := set_ignores (o_ignores o ++ vs) o.
(** fields.py:457-459 [Field.translate]: [dict.update] takes a dict or a sequence of pairs, a pair
    being any sequence of two (a text of two characters, a dict of two keys). *)
Definition pair_of (v : val) : res (val * val) :=
  let pair (l : list val) :=
    match l with
    | [a; b] => if hashable a then Ok (a, b) else Exn (EType "unhashable type")
    | _ => Exn (EValue "dictionary update sequence element; 2 is required")
    end in
  match v with
  | VList l | VTuple l => pair l
  | VStr s => pair (map (fun c => VStr (String c EmptyString)) (list_ascii_of_string s))
  | VDict d => pair (map fst d)
  | VForm _ | VObj _ _ => Exn unmodelled
  | _ => Exn (EType "cannot convert dictionary update sequence element to a sequence")
  end.
Fixpoint pairs_of (l : list val) : res (list (val * val)) :=
  match l with
  | [] => Ok []
  | v :: rest => bindr (pair_of v) (fun p => bindr (pairs_of rest) (fun ps => Ok (p :: ps)))
  end.
Definition table_arg (v : val) : res (list (val * val)) :=
  match v with
  | VDict d => Ok d
  | VList l | VTuple l => pairs_of l
  | VStr s => pairs_of (map (fun c => VStr (String c EmptyString)) (list_ascii_of_string s))
  | VForm _ | VObj _ _ => Exn unmodelled
  | _ => Exn (EType "object is not iterable")
  end.
(** A failing update may have entered some pairs before; the field is then not used any more. *)
Definition add_translations (v : val) (o : fopts prog) : res (fopts prog) :=
  bindr (table_arg v) (fun d => Ok (set_translations (dict_update (o_translations o) d) o)).
(** fields.py:464-467 [Field.tag]: the tags are the keys of a dict.  A tag that is no text
    equals no tag that is asked for, and is left out. *)
Fixpoint merge_tags (l : list string) (ts : list val) : list string :=
  match ts with
  | [] => l
  | VStr t :: rest => merge_tags (if existsb (String.eqb t) l then l else l ++ [t]) rest
  | _ :: rest => merge_tags l rest
  end.
Definition add_tags (ts : list val) (o : fopts prog) : res (fopts prog) :=
  if forallb hashable ts then Ok (set_tags (merge_tags (o_tags o) ts) o) else Exn (EType "unhashable type").

(** fields.py:364-398 [Field.options].  NOT_SET given for an option is the same as not giving it. *)
Definition option_names : list string := ["nullable"; "default"; "optional"; "ignore"; "translate"; "attach_parent"; "tags"].
Definition given (n : string) (kw : kwargs) : option arg :=
  match alookup kw n with Some (AV (VConst NOTSET)) => None | x => x end.
Definition opt_nullable (a : option arg) (o : fopts prog) : fopts prog :=
  match a with Some a => set_nullable (arg_truthy a) o | None => o end.
Definition opt_optional (a : option arg) (o : fopts prog) : fopts prog :=
  match a with Some a => if arg_truthy a then set_default (DVal (VConst NONE)) o else o | None => o end.
Definition opt_default (a : option arg) (o : fopts prog) : res (fopts prog) :=
  match a with
  | None => Ok o
  | Some (AV VNone) => Ok (set_nullable true (set_default (DVal VNone) o))
  | Some (AV v) => Ok (set_default (DVal v) o)
  | Some (AFn p) => Ok (set_default (DCall p) o)
  | Some _ => Exn unmodelled
  end.
(** 386-387: [self.ignore(ignore)] — the one argument is one value to ignore *)
Definition opt_ignore (a : option arg) (o : fopts prog) : res (fopts prog) :=
  match a with
  | None => Ok o
  | Some (AV v) => Ok (add_ignores [v] o)
  | Some _ => Exn unmodelled
  end.
Definition opt_translate (a : option arg) (o : fopts prog) : res (fopts prog) :=
  match a with
  | None => Ok o
  | Some (AV v) => add_translations v o
  | Some _ => Exn unmodelled
  end.
Definition opt_attach (a : option arg) (o : fopts prog) : fopts prog :=
  match a with Some a => set_attach (arg_truthy a) o | None => o end.
(** 395-396: [self.tag(tags)] — the one argument is one tag *)
Definition opt_tags (a : option arg) (o : fopts prog) : res (fopts prog) :=
  match a with
  | None => Ok o
  | Some (AV v) => add_tags [v] o
  | Some _ => Exn unmodelled
  end.
Definition known_option (n : string) : bool := existsb (String.eqb n) option_names.
Definition field_options (kw : kwargs) (o : fopts prog) : res (fopts prog) :=
  if forallb (fun kv => known_option (fst kv)) kw then
    bindr (opt_default (given "default" kw)
             (opt_optional (given "optional" kw) (opt_nullable (given "nullable" kw) o))) (fun o =>
    bindr (opt_ignore (given "ignore" kw) o) (fun o =>
    bindr (opt_translate (given "translate" kw) o) (fun o =>
    opt_tags (given "tags" kw) (opt_attach (given "attach_parent" kw) o))))
  else Exn (EType "options() got an unexpected keyword argument").

(** fields.py:339-362 [Field.__init__]: [src] is the one positional argument, or a keyword. *)
Definition src_key (v : val) : option key :=
  match v with
  | VNone | VConst NONE => None
  | _ => Some (key_of_val v)
  end.
Definition field_init (args : list arg) (kw : kwargs) (k : kind) : res bfield :=
  let src := alookup kw "src" in
  match args, src with
  | [], None => bindr (field_options (kw_rest "src" kw) no_opts) (fun o => Ok (BF false o k))
  | [AV v], None | [], Some (AV v) =>
      bindr (field_options (kw_rest "src" kw) (set_src (src_key v) no_opts)) (fun o => Ok (BF (negb (is_NONE v)) o k))
  | [_], None | [], Some _ => Exn unmodelled
  | _, _ => Exn (EType "__init__() got multiple values")
  end.
(** [field.options(...)] on a field *)
Definition with_options (kw : kwargs) (b : bfield) : res bfield :=
  bindr (field_options kw (b_opts b)) (fun o => Ok (BF (b_src b) o (b_kind b))).

(** [field.ignore(...)], [field.translate(...)] and [field.tag(...)] on a field; the keywords of
    [tag] are tags as well *)
Definition with_ignores (vs : list val) (b : bfield) : bfield := BF (b_src b) (add_ignores vs (b_opts b)) (b_kind b).
Definition with_translations (v : val) (b : bfield) : res bfield :=
  bindr (add_translations v (b_opts b)) (fun o => Ok (BF (b_src b) o (b_kind b))).
Definition with_tags (ts : list val) (kwags : list string) (b : bfield) : res bfield :=
  bindr (add_tags (ts ++ map VStr kwags) (b_opts b)) (fun o => Ok (BF (b_src b) o (b_kind b))).

(** fields.py:410-413 [Field.attach]: to a class under a name, or to another field without one *)
Definition set_name (n : option string) (o : fopts prog) : fopts prog :=
  MkOpts n (o_src o) (o_nullable o) (o_default o) (o_ignores o) (o_translations o) (o_tags o)
         (o_attach_parent o) (o_compute o) (o_resolve o) (o_parse o) (o_munge o) (o_filter o) (o_validate o).
Definition attach_as (n : string) (b : bfield) : field :=
  let o := set_name (Some n) (b_opts b) in
  MkField (if b_src b then o else set_src (Some (KStr n)) o) (b_kind b).
Definition attach_inside (b : bfield) : field := MkField (set_name None (b_opts b)) (b_kind b).

(** ** Kinds *)

(** [lo, hi = x] *)
Definition unpack2 (v : val) : res (val * val) :=
  match v with
  | VList [a; b] | VTuple [a; b] => Ok (a, b)
  | VList _ | VTuple _ => Exn (EValue "values to unpack")
  | VInt _ | VBool _ | VFloat _ | VNone => Exn (EType "object is not iterable")
  | _ => Exn unmodelled
  end.
Definition as_length (v : val) : res (option Z) :=
  match v with
  | VNone => Ok None
  | VInt z => Ok (Some z)
  | VBool b => Ok (Some (Z.b2z b))
  | _ => Exn unmodelled
  end.
Definition as_lengths (p : val * val) : res (option Z * option Z) :=
  bindr (as_length (fst p)) (fun lo => bindr (as_length (snd p)) (fun hi => Ok (lo, hi))).
Definition is_sequence (v : val) : bool := match v with VList _ | VTuple _ => true | _ => false end.
Definition pop_min_max (kw : kwargs) : res (option Z * option Z * kwargs) :=
  bindr (pop_value "min_length" kw) (fun '(lo, kw) =>
  bindr (pop_value "max_length" kw) (fun '(hi, kw) =>
  bindr (as_lengths (lo, hi)) (fun b => Ok (b, kw)))).

(** fields.py:669-677 *)
Definition string_lengths (kw : kwargs) : res (option Z * option Z * kwargs) :=
  bindr (pop_value "length" kw) (fun '(len, kw) =>
  if truthy len then
    bindr (if is_sequence len then unpack2 len else Ok (len, len)) (fun p =>
    bindr (as_lengths p) (fun b => Ok (b, kw)))
  else pop_min_max kw).
(** fields.py:678-684; [re.compile] of a text *)
Definition string_pattern (kw : kwargs) : res (option string * kwargs) :=
  let '(a, kw) := kw_pop "pattern" kw in
  match a with
  | ARe p => Ok (Some p, kw)
  | AV (VStr p) => Ok (if String.eqb p "" then None else Some p, kw)
  | AV v => if truthy v then Exn (EAttr "match") else Ok (None, kw)
  | _ => Exn unmodelled
  end.
Definition string_alphabet (kw : kwargs) : res (list ascii * kwargs) :=
  bindr (pop_value "alphabet" kw) (fun '(v, kw) =>
  match v with
  | VStr s => Ok (list_ascii_of_string s, kw)
  | VNone => Ok ([], kw)
  | _ => Exn unmodelled
  end).
Definition string_choices (kw : kwargs) : res (list val * kwargs) :=
  bindr (pop_value "choices" kw) (fun '(v, kw) =>
  match v with
  | VList l => Ok (l, kw)
  | VNone => Ok ([], kw)
  | _ => Exn unmodelled
  end).
(** fields.py:668-687 [String.__init__] *)
Definition String_init (args : list arg) (kw : kwargs) : res bfield :=
  bindr (string_lengths kw) (fun '(b, kw) =>
  bindr (string_pattern kw) (fun '(p, kw) =>
  bindr (string_alphabet kw) (fun '(al, kw) =>
  bindr (string_choices kw) (fun '(ch, kw) =>
  field_init args kw (KString (MkStrc (fst b) (snd b) p al ch)))))).

(** fields.py:772-779 [Number.__init__] *)
Definition as_bound (v : val) : option val := match v with VNone => None | _ => Some v end.
Definition number_bounds (kw : kwargs) : res (option val * option val * kwargs) :=
  bindr (pop_value "range" kw) (fun '(r, kw) =>
  if is_None r then
    bindr (pop_value "min_value" kw) (fun '(lo, kw) =>
    bindr (pop_value "max_value" kw) (fun '(hi, kw) => Ok ((as_bound lo, as_bound hi), kw)))
  else bindr (unpack2 r) (fun p => Ok ((as_bound (fst p), as_bound (snd p)), kw))).
Inductive number_class := NInteger | NFloat | NDecimal.
Definition number_kind (c : number_class) (lo hi : option val) : kind :=
  match c with NInteger => KInteger lo hi | NFloat => KFloat lo hi | NDecimal => KDecimal lo hi end.
Definition Number_init (c : number_class) (args : list arg) (kw : kwargs) : res bfield :=
  bindr (number_bounds kw) (fun '(b, kw) => field_init args kw (number_kind c (fst b) (snd b))).
(** fields.py:781-790 [min], [max], [range]; 1095-1104 of [List] *)
Definition set_min (v : val) (b : bfield) : res bfield :=
  match b_kind b with
  | KInteger _ hi => Ok (BF (b_src b) (b_opts b) (KInteger (as_bound v) hi))
  | KFloat _ hi => Ok (BF (b_src b) (b_opts b) (KFloat (as_bound v) hi))
  | KDecimal _ hi => Ok (BF (b_src b) (b_opts b) (KDecimal (as_bound v) hi))
  | KList f _ hi al => bindr (as_length v) (fun lo => Ok (BF (b_src b) (b_opts b) (KList f lo hi al)))
  | _ => Exn (EAttr "min")
  end.
Definition set_max (v : val) (b : bfield) : res bfield :=
  match b_kind b with
  | KInteger lo _ => Ok (BF (b_src b) (b_opts b) (KInteger lo (as_bound v)))
  | KFloat lo _ => Ok (BF (b_src b) (b_opts b) (KFloat lo (as_bound v)))
  | KDecimal lo _ => Ok (BF (b_src b) (b_opts b) (KDecimal lo (as_bound v)))
  | KList f lo _ al => bindr (as_length v) (fun hi => Ok (BF (b_src b) (b_opts b) (KList f lo hi al)))
  | _ => Exn (EAttr "max")
  end.
Definition set_range (l r : val) (b : bfield) : res bfield := bindr (set_min l b) (set_max r).

(** fields.py:888-892, 948-952, 987-991 [__init__] of [Date], [Time] and [Datetime] *)
Definition pop_between (kw : kwargs) : res (option val * option val * kwargs) :=
  bindr (pop_value "after" kw) (fun '(lo, kw) =>
  bindr (pop_value "before" kw) (fun '(hi, kw) => Ok ((as_bound lo, as_bound hi), kw))).
Definition date_formats (v : val) : res (list string) :=
  match v with
  | VStr s => Ok (if String.eqb s "" then [] else [s])
  | VNone => Ok []
  | VList l | VTuple l =>
      fold_right (fun x r => bindr r (fun l => match x with VStr s => Ok (s :: l) | _ => Exn unmodelled end)) (Ok []) l
  | _ => Exn unmodelled
  end.
Definition one_format (v : val) : res (option string) :=
  match v with VStr s => Ok (Some s) | VNone => Ok None | _ => Exn unmodelled end.
Definition Date_init (args : list arg) (kw : kwargs) : res bfield :=
  bindr (pop_between kw) (fun '(b, kw) =>
  bindr (pop_value "format" kw) (fun '(v, kw) =>
  bindr (date_formats v) (fun l => field_init args kw (KDate l (fst b) (snd b))))).
Definition Time_init (args : list arg) (kw : kwargs) : res bfield :=
  bindr (pop_between kw) (fun '(b, kw) =>
  bindr (pop_value "format" kw) (fun '(v, kw) =>
  bindr (one_format v) (fun l => field_init args kw (KTime l (fst b) (snd b))))).
Definition Datetime_init (args : list arg) (kw : kwargs) : res bfield :=
  bindr (pop_between kw) (fun '(b, kw) =>
  bindr (pop_value "format" kw) (fun '(v, kw) =>
  bindr (one_format v) (fun l => field_init args kw (KDatetime l (fst b) (snd b))))).
(** fields.py:872-883 [RangeMixin] *)
Definition set_after (v : val) (b : bfield) : res bfield :=
  match b_kind b with
  | KDate l _ hi => Ok (BF (b_src b) (b_opts b) (KDate l (as_bound v) hi))
  | KTime l _ hi => Ok (BF (b_src b) (b_opts b) (KTime l (as_bound v) hi))
  | KDatetime l _ hi => Ok (BF (b_src b) (b_opts b) (KDatetime l (as_bound v) hi))
  | _ => Exn (EAttr "after")
  end.
Definition set_before (v : val) (b : bfield) : res bfield :=
  match b_kind b with
  | KDate l lo _ => Ok (BF (b_src b) (b_opts b) (KDate l lo (as_bound v)))
  | KTime l lo _ => Ok (BF (b_src b) (b_opts b) (KTime l lo (as_bound v)))
  | KDatetime l lo _ => Ok (BF (b_src b) (b_opts b) (KDatetime l lo (as_bound v)))
  | _ => Exn (EAttr "before")
  end.
Definition set_between (l r : val) (b : bfield) : res bfield := bindr (set_after l b) (set_before r).

(** fields.py:894-902, 954-958, 993-997 [format] of [Date], [Time] and [Datetime].  With a
    date or a time it gives that as a text: [Formats]. *)
Definition set_format (v : val) (b : bfield) : res bfield :=
  match b_kind b with
  | KDate _ lo hi => bindr (date_formats v) (fun l => Ok (BF (b_src b) (b_opts b) (KDate l lo hi)))
  | KTime _ lo hi => bindr (one_format v) (fun l => Ok (BF (b_src b) (b_opts b) (KTime l lo hi)))
  | KDatetime _ lo hi => bindr (one_format v) (fun l => Ok (BF (b_src b) (b_opts b) (KDatetime l lo hi)))
  | _ => Exn (EAttr "format")
  end.

(** fields.py:233-239 [pluck]: the first argument that matches, and the others *)
Fixpoint pluck {A} (match_ : A -> bool) (args : list A) : list A * option A :=
  match args with
  | [] => ([], None)
  | a :: rest => if match_ a then (rest, Some a) else let '(l, x) := pluck match_ rest in (a :: l, x)
  end.

(** fields.py:1324-1342 [SubForm.__init__], [SubForm.options] *)
Definition as_unmapped (a : arg) : res unm :=
  match a with
  | AV (VStr s) => Ok (if String.eqb s "ignore" then UIgnore else if String.eqb s "capture" then UCapture
                       else if String.eqb s "" then UFalsy else UBad s)
  | AV v => if truthy v then Exn unmodelled else Ok UFalsy
  | AF f => Ok (UField (attach_inside f))
  | ATuple [AF k; AF v] | AList [AF k; AF v] => Ok (UPair (attach_inside k) (attach_inside v))
  | _ => Exn unmodelled
  end.
Definition subform_options (kw : kwargs) (b : bfield) : res bfield :=
  match b_kind b with
  | KSubForm ft reset u =>
      let reset := match given "reset" kw with Some a => arg_truthy a | None => reset end in
      bindr (match given "unmapped" kw with Some a => as_unmapped a | None => Ok u end) (fun u =>
      let flat := match given "flat" kw with Some a => arg_truthy a | None => false end in
      let kw := kw_rest "reset" (kw_rest "unmapped" (kw_rest "flat" kw)) in
      bindr (field_options kw (if flat then set_src None (b_opts b) else b_opts b)) (fun o =>
      Ok (BF (flat || b_src b) o (KSubForm ft reset u))))
  | _ => Exn (EAttr "form_type")
  end.
Definition is_form_class (a : arg) : bool := match a with ACls _ => true | _ => false end.
Definition SubForm_init (args : list arg) (kw : kwargs) : res bfield :=
  let '(args, t) := pluck is_form_class args in
  match t with
  | Some (ACls t) =>
      let src := match alookup kw "src" with Some a => [("src", a)] | None => [] end in
      bindr (field_init args src (KSubForm t false UIgnore)) (subform_options (kw_rest "src" kw))
  | _ => Exn (EOther "Exception")
  end.

(** fields.py:1353-1357 [PolymorphicSubForm.__init__]: the type field with its probe and table,
    then as for any field *)
Definition Poly_init (probe : formty) (tf : field) (table : list (val * string)) (args : list arg) (kw : kwargs) : res bfield :=
  let reset := match alookup kw "reset" with Some a => arg_truthy a | None => false end in
  bindr (match alookup kw "unmapped" with Some a => as_unmapped a | None => Ok UIgnore end) (fun u =>
  field_init args (kw_rest "unmapped" (kw_rest "reset" kw)) (KPoly probe tf table reset u)).

(** fields.py:1072-1093 [List.__init__] *)
Definition is_item (a : arg) : bool := match a with AF _ | ACls _ => true | _ => false end.
Definition item_field (a : arg) : res bfield :=
  match a with
  | AF f => Ok f
  | ACls t => SubForm_init [ACls t] []
  | _ => Exn unmodelled
  end.
Definition list_lengths (kw : kwargs) : res (option Z * option Z * kwargs) :=
  bindr (pop_value "length" kw) (fun '(len, kw) =>
  if truthy len then bindr (unpack2 len) (fun p => bindr (as_lengths p) (fun b => Ok (b, kw)))
  else pop_min_max kw).
Definition List_init (args : list arg) (kw : kwargs) : res bfield :=
  let '(args, x) := pluck is_item args in
  bindr (match x, alookup kw "field" with
         | Some a, _ => bindr (item_field a) (fun f => Ok (f, kw))
         | None, Some (AF f) => Ok (f, kw_rest "field" kw)
         | None, Some (AV _) => Exn (EAttr "attach")
         | None, Some _ => Exn unmodelled
         | None, None => Exn (EOther "Exception")
         end) (fun '(f, kw) =>
  bindr (list_lengths kw) (fun '(b, kw) =>
  let '(al, kw) := kw_pop "allow_field" kw in
  field_init args kw (KList (attach_inside f) (fst b) (snd b) (arg_truthy al)))).

(** fields.py:1031-1051 [Tuple.__init__].  The check of line 1046 never fails: [default] is
    a hook until it is set, and cannot be set to NOT_SET.  Line 1041: the format ["{0:r}"]
    is itself an error, whose class depends on the object: numbers and texts do not know the
    format, dates write an "r" so that the intended error is raised, other objects take no format. *)
Fixpoint tuple_fields (l : list arg) : res (list field) :=
  match l with
  | [] => Ok []
  | AF f :: rest => bindr (tuple_fields rest) (fun fs => Ok (MkField (b_opts f) (b_kind f) :: fs))
  | AV (VBool _) :: _ | AV (VInt _) :: _ | AV (VFloat _) :: _ | AV (VStr _) :: _ => Exn (EValue "Unknown format code 'r'")
  | AV (VDec _) :: _ => Exn (EValue "invalid format string")
  | _ => Exn (EType "unsupported format string")
  end.
Definition Tuple_init (args : list arg) (kw : kwargs) : res bfield :=
  match args with
  | [] => Exn EIndex
  | a :: rest =>
      let '(src, fields) := match a with AV (VStr _) => ([a], rest) | _ => ([], args) end in
      bindr (match fields with
             | [AList l] | [ATuple l] => Ok l
             | [AV (VList l)] | [AV (VTuple l)] => Ok (map AV l)
             | [_] => Exn (EType "is not a field sequence")
             | _ => Ok fields
             end) (fun l =>
      bindr (tuple_fields l) (fun fs => field_init src (kw_rest "allow_field" kw) (KTuple fs)))
  end.

(** fields.py:1144-1150 [Dict.__init__]; [required_keys] is a set, here a list *)
Definition Dict_init (kf vf : bfield) (args : list arg) (kw : kwargs) : res bfield :=
  bindr (pop_value "required_keys" kw) (fun '(req, kw) =>
  bindr (pop_value "max_keys" kw) (fun '(mx, kw) =>
  bindr (as_length mx) (fun mx =>
  bindr (match req with VNone => Ok [] | VList l => Ok l | _ => Exn unmodelled end) (fun req =>
  field_init args kw (KDict (attach_inside kf) (attach_inside vf) None req mx))))).

(** ** Groups *)

(** fields.py:1387-1388 *)
Definition group_path (parts : list nat) : string :=
  String.concat "" (map (fun i => "[" ++ print_int (Z.of_nat i) ++ "]")%string (rev parts)).
(** fields.py:1390-1417: [path] has the innermost index first *)
Definition add_bare (f : bfield) (path : list nat) : res (list (gmatch * field)) :=
  if b_src f then
    match o_src (b_opts f) with
    | Some (KStr s) => Ok [(GName s, MkField (b_opts f) (b_kind f))]
    | _ => Exn unmodelled
    end
  else Exn (EValue ("field" ++ group_path path ++ ".src is not set")).
Definition add_tuple (l : list arg) (path : list nat) : res (list (gmatch * field)) :=
  match l with
  | [AV (VStr s); AF f] => Ok [(GName s, MkField (b_opts f) (b_kind f))]
  | [ARe p; AF f] => Ok [(GRe p, MkField (b_opts f) (b_kind f))]
  | [_; _] => Exn unmodelled
  | _ => Exn (EValue ("field" ++ group_path path ++ " tuple be (src, field)"))
  end.
Section AddList.
Variable add_item : arg -> list nat -> res (list (gmatch * field)).
Fixpoint add_items (i : nat) (l : list arg) (path : list nat) : res (list (gmatch * field)) :=
  match l with
  | [] => Ok []
  | a :: rest => bindr (add_item a (i :: path)) (fun x => bindr (add_items (S i) rest path) (fun y => Ok (x ++ y)))
  end.
End AddList.
Fixpoint add_item (a : arg) (path : list nat) : res (list (gmatch * field)) :=
  match a with
  | AF f => add_bare f path
  | ATuple l => add_tuple l path
  | AV (VTuple l) => if Nat.eqb (length l) 2 then Exn unmodelled else add_tuple (map AV l) path
  | AList l => add_items add_item 0 l path
  | AV (VList []) => Ok []
  | AV (VList _) => Exn (EValue ("field" ++ group_path path ++ " should be field, (src, field) or [(src, field), ...]"))
  | _ => Exn (EValue ("field" ++ group_path (tl path) ++ " should be field, (src, field) or [(src, field), ...]"))
  end.
(** fields.py:1385-1425 [Group.__init__] *)
Definition Group_init (fields : list arg) (kw : kwargs) : res bfield :=
  bindr (add_items add_item 0 fields []) (fun l =>
  let kw := match alookup kw "default" with Some _ => kw | None => kw ++ [("default", AFn (PRet (VList [])))] end in
  field_init [] kw (KGroup l)).

(** ** Methods that register a hook *)

(** fields.py:212-224 [Hook.__call__] with a function: a hook that has one calls it with
    that argument too many. *)
Definition register (old : option (hook prog)) (h : hook prog) : res (option (hook prog)) :=
  match old with
  | None => Ok (Some h)
  | Some _ => Exn (EType "takes a different number of arguments")
  end.

(** fields.py:442-451 [Field.constant]; on an attached field the compute hook is replaced in
    a clone, so a registered one does not matter. *)
Definition constant_hook (v : val) : hook prog := MkHook true (fun _ _ => PRet v).
Definition constant (v : val) (b : bfield) : res bfield :=
  bindr (register (o_compute (b_opts b)) (constant_hook v)) (fun h =>
  Ok (BF (b_src b) (set_compute h (b_opts b)) (b_kind b))).
Definition attached_constant (v : val) (f : field) : bfield :=
  BF true (set_compute (Some (constant_hook v)) (f_opts f)) (f_kind f).

(** fields.py:689-704 [String.format]: [reduce(getattr, field.split('.'), ctx.form)] for each
    keyword, then [fmt.format]. *)
Section Format.
Variable E : env.
Fixpoint getattrs (v : val) (names : list string) (k : res val -> prog) : prog :=
  match names with
  | [] => k (Ok v)
  | n :: rest =>
      match v with
      | VForm id => PGet id n (fun r => match r with Ok w => getattrs w rest k | Exn e => k (Exn e) end)
      | _ => match py_getattr E v n with
             | Some w => getattrs w rest k
             | None => k (Exn (EAttr n))
             end
      end
  end.
(** 701-702: reports the error, then returns ERROR *)
Definition invalid_attribute (e : exn) : prog :=
  PInvalid (VioExn e) (fun r => match r with Ok _ => PRet (VConst ERROR) | Exn e => PRaise e end).
Fixpoint format_values (form : val) (kw : list (string * string)) (acc : list (string * val)) (fmt : string) : prog :=
  match kw with
  | [] => match e_format E fmt acc with Ok v => PRet v | Exn e => PRaise e end
  | (n, dotted) :: rest =>
      getattrs form (split_on dot dotted)
        (fun r => match r with
                  | Ok v => format_values form rest (acc ++ [(n, v)]) fmt
                  | Exn e => if is_attribute_error e
                             then invalid_attribute e
                             else PRaise e
                  end)
  end.
Definition format_hook (fmt : string) (kw : list (string * string)) : hook prog :=
  MkHook true (fun _ _ => PCtxForm (fun r => match r with
                                             | Ok form => format_values form kw [] fmt
                                             | Exn e => match kw with [] => format_values VNone [] [] fmt
                                                                    | _ => if is_attribute_error e
                                                                           then invalid_attribute e
                                                                           else PRaise e end
                                             end)).
Definition string_format (fmt : string) (kw : list (string * string)) (b : bfield) : res bfield :=
  bindr (register (o_compute (b_opts b)) (format_hook fmt kw)) (fun h =>
  Ok (BF (b_src b) (set_compute h (b_opts b)) (b_kind b))).

(** fields.py:706-725 [String.capture]; [match.group(g)] raises [IndexError] for a group that
    is not there, and for [None] *)
Definition group_of (groups : list (key * val)) (g : option key) : option val :=
  match g with
  | Some k => option_map snd (find (fun kv => py_eq (val_of_key (fst kv)) (val_of_key k)) groups)
  | None => None
  end.
Definition name_key (n : option string) : option key := match n with Some s => Some (KStr s) | None => None end.
Definition capture_value (pattern : string) (name own : option string) (v : val) : prog :=
  match v with
  | VStr s =>
      match e_re E pattern s with
      | None => PRet (VConst NONE)
      | Some groups =>
          let first := match name with Some "" | None => own | n => n end in
          match group_of groups (name_key first) with
          | Some w => PRet w
          | None => match group_of groups (Some (KInt 1)) with
                    | Some w => PRet w
                    | None => PRet (VConst NONE)
                    end
          end
      end
  | _ => PRaise (EType "expected string or bytes-like object")
  end.
Definition capture_hook (pattern : string) (name own : option string) : hook prog :=
  MkHook true (fun _ args => match args with
                             | [v] => capture_value pattern name own v
                             | _ => PRaise (EType "takes 2 positional arguments")
                             end).
Definition string_capture (pattern : string) (name own : option string) (b : bfield) : res bfield :=
  bindr (register (o_munge (b_opts b)) (capture_hook pattern name own)) (fun h =>
  Ok (BF (b_src b) (set_munge h (b_opts b)) (b_kind b))).

(** fields.py:811-823 [Integer.pattern], 833-846 [Float.pattern]: the same function, which
    makes an [int] of the whole match.  The hook is not attached to the field, it is called
    on the form. *)
Definition pattern_hook (pattern : string) : hook prog :=
  MkHook false (fun _ _ => PPath (OpPrimitive TyStr) (fun r =>
    match r with
    | Ok (VStr s) =>
        match e_re E pattern s with
        | None => PRaise (EValue "does not match pattern")
        | Some groups =>
            match group_of groups (Some (KInt 0)) with
            | Some (VStr t) => match parse_int t with Some z => PRet (VInt z) | None => PRaise (EValue "invalid literal for int()") end
            | _ => PRaise (EType "int() argument")
            end
        end
    | Ok _ => PRaise (EType "expected string or bytes-like object")
    | Exn e => PRaise e
    end)).
Definition number_pattern (pattern : string) (b : bfield) : res bfield :=
  bindr (register (o_parse (b_opts b)) (pattern_hook pattern)) (fun h =>
  Ok (BF (b_src b) (set_parse h (b_opts b)) (b_kind b))).
End Format.

(** ** Type fields *)

(** fields.py:1267-1289 [Type.abstract], [Type.instance], [Type.constant] *)
Definition type_abstract (args : list arg) (kw : kwargs) : res bfield := String_init args kw.
Definition type_instance (choices : list val) (kw : kwargs) : res bfield :=
  if existsb (fun kv => String.eqb (fst kv) "default" || String.eqb (fst kv) "choices") kw
  then Exn (EType "got multiple values for keyword argument")
  else String_init [] ([("default", AV (match choices with [c] => c | _ => VConst NONE end)); ("choices", AV (VList choices))] ++ kw).
Definition type_constant (v : val) : res bfield := bindr (type_instance [v] []) (constant v).
(** fields.py:1295-1301 [Type.value]: the attribute [default], whatever it is *)
Definition type_value (b : bfield) : res (dflt prog) :=
  match o_default (b_opts b) with
  | DVal (VConst _) => Exn (EType "is abstract or polymorphic")
  | d => Ok d
  end.
