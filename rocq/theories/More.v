(** * More: smaller pieces of pilo that nothing else of the model uses: attributes of the
    context and of its frames, the constructor of [ConfigSource] and its [preserve_whitespace]. *)
From Verif Require Import PyBase PyStr Source Field Context.

(** ** context.py: names *)

(** What [getattr] finds on a frame or on the context: an entry or a method of the class. *)
Inductive attribute := Entry (c : cval) | Method (n : string).

(** The public attributes of [dict].  Names that begin with two underscores are left out. *)
Definition dict_attributes (E : env) : list string :=
  ["clear"; "copy"; "fromkeys"; "get"; "items"; "keys"; "pop"; "popitem"; "setdefault"; "update"; "values"] ++
  (if py3 E then [] else ["has_key"; "iteritems"; "iterkeys"; "itervalues"; "viewitems"; "viewkeys"; "viewvalues"]).
(** context.py:62-190: the attributes of [Context] *)
Definition context_attributes : list string :=
  ["RewindDidNotStop"; "stack"; "values_for"; "reset"; "rewind"; "push"; "restore"].

(** context.py:33-41 [Frame.__getattr__], which Python calls when the class has no such attribute *)
Definition frame_attr (E : env) (f : frame) (k : string) : option attribute :=
  if existsb (String.eqb k) (dict_attributes E) then Some (Method k) else option_map Entry (alookup f k).
(** context.py:111-115 [Context.values_for]; the stack has the outermost frame first *)
Definition values_for (E : env) (k : string) (s : st) : list attribute :=
  flat_map (fun f => match frame_attr E f k with Some a => [a] | None => [] end) (rev (stk s)).
(** [ctx.k]: context.py:103-109 is called when [Context] has no such attribute *)
Definition ctx_attr (k : string) (s : st) : option attribute :=
  if existsb (String.eqb k) context_attributes then Some (Method k) else option_map Entry (lookup k (stk s)).

(** ** configparser.py: the constructor *)

(** A configuration: a text, or a parser that has read one. *)
Inductive config_arg := CfgText (x : string) | CfgParser (c : config).
(** configparser.py:111-115, 117-141 [ConfigSource.__init__]: the source, and [preserve_whitespace].
    Line 133 sets an attribute of a text; line 134 asks [six.moves.StringIO], which is the class
    already, for an attribute [StringIO]. *)
Definition ConfigSource_init (a : config_arg) (section location : option string) (defaults : val) (keep_space keep_case : bool) : res (psource * bool) :=
  if (keep_space && match location with None => true | Some _ => false end)%bool then Exn (EValue "preserve_white_space=True without location")
  else match a with
       | CfgParser c => if keep_case then Exn (EValue "preserve_case=True but config is not string")
                        else Ok (SConfig c section defaults location, keep_space)
       | CfgText _ => if keep_case then Exn (EAttr "'str' object has no attribute 'optionxform'")
                      else Exn (EAttr "class StringIO has no attribute 'StringIO'")
       end.

(** ** configparser.py: the text of an option as it is in the file *)

Definition newline_char : ascii := ascii_of_nat 10.
(** [for line in fo]: each line with its line break *)
Fixpoint file_lines (l : list ascii) : list (list ascii) :=
  match l with
  | [] => []
  | c :: r =>
      if Ascii.eqb c newline_char then [c] :: file_lines r
      else match file_lines r with
           | [] => [[c]]
           | x :: rest => (c :: x) :: rest
           end
  end.
(** [text.startswith(x)] *)
Fixpoint starts_with (x l : list ascii) : bool :=
  match x, l with
  | [], _ => true
  | a :: x', b :: l' => (Ascii.eqb a b && starts_with x' l')%bool
  | _ :: _, [] => false
  end.
Definition same_chars (a b : list ascii) : bool := String.eqb (of_chars a) (of_chars b).
(** [for line in fo: if p(line): break]: the lines after *)
Fixpoint after_line (p : list ascii -> bool) (ls : list (list ascii)) : list (list ascii) :=
  match ls with
  | [] => []
  | l :: rest => if p l then rest else after_line p rest
  end.
(** configparser.py:153-156 *)
Fixpoint value_lines (ls : list (list ascii)) : list (list ascii) :=
  match ls with
  | [] => []
  | l :: rest => match l with
                 | c :: _ => if is_space c then l :: value_lines rest else []
                 | [] => l :: value_lines rest
                 end
  end.
Section Raw.
(** [textwrap.dedent] *)
Variable dedent : string -> string.
(** configparser.py:143-158 [as_raw]; a source without a section looks for "[None]" *)
Definition section_header (section : option string) : list ascii :=
  chars ("[" ++ match section with Some s => s | None => "None" end ++ "]")%string.
Definition as_raw (section : option string) (option : string) (file : string) : string :=
  let ls := file_lines (chars file) in
  let ls := after_line (fun l => same_chars (strip_chars l) (section_header section)) ls in
  let ls := after_line (fun l => starts_with (chars option) (strip_chars l)) ls in
  dedent (of_chars (concat (value_lines ls))).
(** configparser.py:178-185 [ConfigSource.primitive]: the path and the text of the file that [location] names *)
Definition raw_primitive (E : env) (ents : entries_of) (keep_space : bool) (file : string) (t : ptype) (p : ppath) : ppath * res val :=
  let '(p', r) := pp_primitive E ents t p in
  (p', match r with
       | Ok (VStr v) =>
           if (keep_space && has_char newline_char v)%bool then
             match rev (pp_keys p), pp_src p with
             | k :: _, SConfig _ section _ _ => Ok (VStr (as_raw section (first_str E k) file))
             | _, _ => Exn EIndex
             end
           else Ok (VStr v)
       | r => r
       end).
End Raw.
