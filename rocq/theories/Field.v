(** * Field: what a field and a form class are (pilo/fields.py, declarations).

    A field is data: options, hooks and a kind.  User functions given as hooks or
    callable defaults are programs over the API a hook can use. *)
From Verif Require Import PyBase PyStr Source.

(** fields.py:179-230 [Hook] with a registered function.  [hk_attached]: the hook
    was [attach]ed to a field (203-205), so its target is that field and not
    [ctx.form].  [hk_fun target args] is the program run by line 230. *)
Record hook (P : Type) := MkHook { hk_attached : bool; hk_fun : val -> list val -> P }.
Arguments MkHook {P}. Arguments hk_attached {P}. Arguments hk_fun {P}.

(** [Field.default] (fields.py:346, 377-384, 529-551): the unset [Hook] (possibly
    with a registered function), a plain value, or a callable/type. *)
Inductive dflt (P : Type) := DUnset (h : option (hook P)) | DVal (v : val) | DCall (p : P).
Arguments DUnset {P}. Arguments DVal {P}. Arguments DCall {P}.

(** fields.py:339-362 [Field.__init__].
    - [o_src]: [None] stands for [None] or [NONE] (492)
    - [o_nullable]: truth value of [nullable]; the initial sentinel [NONE] is truthy
    - [o_resolve]: a resolve hook returns [None] or the result of [ctx(src=key)];
      here it returns [VNone] or that key. *)
Record fopts (P : Type) := MkOpts {
  o_name : option string;
  o_src : option key;
  o_nullable : bool;
  o_default : dflt P;
  o_ignores : list val;
  o_translations : list (val * val);
  o_tags : list string;
  o_attach_parent : bool;
  o_compute : option (hook P);
  o_resolve : option (hook P);
  o_parse : option (hook P);
  o_munge : option (hook P);
  o_filter : option (hook P);
  o_validate : option (hook P)
}.
Arguments MkOpts {P}. Arguments o_name {P}. Arguments o_src {P}. Arguments o_nullable {P}.
Arguments o_default {P}. Arguments o_ignores {P}. Arguments o_translations {P}.
Arguments o_tags {P}. Arguments o_attach_parent {P}. Arguments o_compute {P}.
Arguments o_resolve {P}. Arguments o_parse {P}. Arguments o_munge {P}.
Arguments o_filter {P}. Arguments o_validate {P}.

(** fields.py:666-687 [String] constraints ([Type], 1263-1315, has the same). *)
Record strc := MkStrc {
  sc_min : option Z;
  sc_max : option Z;
  sc_pattern : option string;
  sc_alphabet : list ascii;        (* [] : no alphabet *)
  sc_choices : list val            (* [] : no choices *)
}.

(** fields.py:1395, 1403: a [Group] entry is selected by name or by pattern. *)
Inductive gmatch := GName (s : string) | GRe (pattern : string).

(** Operations on the current source path that a hook can perform. *)
Inductive pathop := OpValue | OpExists | OpIsNull | OpPrimitive (t : ptype) | OpSequence | OpMapping.

(** Error mode of [Form.map] (fields.py:1660). *)
Inductive mode := Collect | Raise.

(** The programs of user functions.  Continuations receive outcomes, so a program
    can catch exceptions.
    - [PCtxForm]: [ctx.form]
    - [PGet]/[PSet]/[PDel]: attribute access on a form
    - [PItem]: [form[key]]
    - [PPath]: an operation on [ctx.src_path]
    - [PInvalid]/[PMissing]: [ctx.errors.invalid(..)], [ctx.errors.missing()]
    - [PWith]: [with ctx( **vars ): body]
    - [PPush]: [with ctx(src=key): body]
    - [PReset]: [with ctx.reset(): body]
    - [PMap]: build a form of a class and [map] it from a source (or from the
      current context when there is none), giving the form and its errors.

    Kinds of fields, form classes and [unmapped] directives are mutually
    recursive with programs. *)
Inductive prog :=
| PRet (v : val)
| PRaise (e : exn)
| PCtxForm (k : res val -> prog)
| PGet (form : nat) (attr : string) (k : res val -> prog)
| PSet (form : nat) (attr : string) (v : val) (k : res val -> prog)
| PDel (form : nat) (attr : string) (k : res val -> prog)
| PItem (form : nat) (key : val) (k : res val -> prog)
| PPath (op : pathop) (k : res val -> prog)
| PInvalid (v : viol) (k : res val -> prog)
| PMissing (k : res val -> prog)
| PWith (vars : list (string * val)) (body : prog) (k : res val -> prog)
| PPush (key : val) (body : prog) (k : res val -> prog)
| PReset (body : prog) (k : res val -> prog)
| PMap (ft : formty) (src : option source) (tags : list string) (reset : bool)
       (u : unm) (m : mode) (k : res (nat * list err) -> prog)

(** A field: options and kind. *)
with field := MkField (o : fopts prog) (k : kind)

(** The field classes of fields.py:
    - [KAny]       242-663   [Field] itself
    - [KString]    666-767   and [Type] 1263-1315
    - [KInteger], [KFloat], [KDecimal] 770-860
    - [KBool]      863-869
    - [KDate]      886-943;  [fmts = []] is a falsy format
    - [KTime]      946-982,  [KDatetime] 985-1026
    - [KTuple]     1029-1067, [KList] 1070-1139, [KDict] 1142-1190
    - [KCode]      1193-1251, [KUUID] 1254-1260
    - [KSubForm]   1318-1348
    - [KPoly]      1351-1380: [probe] is the [TypeProbe] form (__init__.py:74-85),
                   [tf] the type field, [table] its [types] (identity to class name)
    - [KGroup]     1383-1465 *)
with kind :=
| KAny
| KString (c : strc)
| KInteger (lo hi : option val)
| KFloat (lo hi : option val)
| KDecimal (lo hi : option val)
| KBool
| KDate (fmts : list string) (after before : option val)
| KTime (fmt : option string) (after before : option val)
| KDatetime (fmt : option string) (after before : option val)
| KTuple (fs : list field)
| KList (f : field) (lo hi : option Z) (allow_field : bool)
| KDict (kf vf : field) (key_filter : option (hook prog)) (required : list val) (max_keys : option Z)
| KCode
| KUUID
| KSubForm (ft : formty) (reset : bool) (u : unm)
| KPoly (probe : formty) (tf : field) (table : list (val * string)) (reset : bool) (u : unm)
| KGroup (l : list (gmatch * field))

(** A form class: its name and its sorted field list (fields.py:1498-1499). *)
with formty := FormTy (name : string) (fields : list field)

(** The [unmapped] directive of [Form.map] (fields.py:1611-1627). *)
with unm :=
| UIgnore | UCapture | UFalsy | UBad (s : string)
| UField (f : field) | UPair (kf vf : field).

Definition f_opts (f : field) : fopts prog := let 'MkField o _ := f in o.
Definition f_kind (f : field) : kind := let 'MkField _ k := f in k.
Definition f_name (f : field) : option string := o_name (f_opts f).
Definition f_tags (f : field) : list string := o_tags (f_opts f).
Definition ft_name (t : formty) : string := let 'FormTy n _ := t in n.
Definition ft_fields (t : formty) : list field := let 'FormTy _ l := t in l.

(** fields.py:339-362: a field with no options, as [String()], [Field()]. *)
Definition no_opts : fopts prog :=
  MkOpts None None true (DUnset None) [] [] [] false None None None None None None.
Definition named (n : string) (o : fopts prog) : fopts prog :=
  MkOpts (Some n) (match o_src o with None => Some (KStr n) | s => s end)
         (o_nullable o) (o_default o) (o_ignores o) (o_translations o) (o_tags o)
         (o_attach_parent o) (o_compute o) (o_resolve o) (o_parse o) (o_munge o)
         (o_filter o) (o_validate o).
Definition no_strc : strc := MkStrc None None None [] [].

(** The world: the environment and the form classes by name (class objects are
    global, so a class table can be recursive). *)
Record world := MkWorld { w_env : env; w_class : string -> option formty }.

Definition name_is (n : string) (f : field) : bool :=
  match f_name f with Some m => String.eqb m n | None => false end.

(** Class attribute lookup of a field. *)
Definition find_field (n : string) (t : formty) : option field := find (name_is n) (ft_fields t).
