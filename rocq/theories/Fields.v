(** * Fields: pilo/fields.py — mapping of fields and forms.

    Every function takes [rec], the meaning of [Field.map] (fields.py:597) on
    fields met further down; the knot is tied at the end of the file. *)
From Verif Require Import PyBase PyStr Source Field Context.

Section Open.
Variable W : world.
Variable rec : field -> val -> M val.
Let E := w_env W.

(** ** Path operations on a given path object *)
Definition path_value (pid : nat) : M val := on_path W pid p_value.
Definition path_exists (pid : nat) : M bool := on_path W pid p_exists.
Definition path_is_null (pid : nat) : M bool := on_path W pid p_is_null.
Definition path_primitive (t : ptype) (pid : nat) : M val :=
  on_path W pid (fun E e => p_primitive E e t).
Definition path_sequence (pid : nat) : M nat := on_path W pid p_sequence.
(** iterating the result of [path.mapping()] *)
Definition path_mapping (pid : nat) : M view := on_path W pid p_mapping.

(** ** Form attribute access *)

Definition dict_unhashable : exn := EType "unhashable type".
Definition name_val (n : string) : val := VStr n.


Definition fname (f : field) : string := match f_name f with Some n => n | None => "" end.

(** The empty source used outside a mapping — fields.py:631, 643. *)
Definition empty_src : source := SBase (BPlain (SDefault (VDict []) [] [] None)).

(** [frame.parent is form] — fields.py:637-638 *)
Definition parent_is (id : nat) (f : frame) : bool :=
  match alookup f "parent" with Some (CForm i) => Nat.eqb i id | _ => false end.

(** fields.py:622-653 [Field.__get__] on an instance.  A form class with a field
    named "src" makes line 631 read that field: found in the form it is used as a
    key with no current path, otherwise the read recurses for ever. *)
Definition field_get (f : field) (id : nat) : M val :=
  l <- form_entries id;
  match dict_get l (VStr (fname f)) with
  | Some v => ret v
  | None =>
      c <- ctx_get_opt "form";
      let finish := fun value : val =>
        if ignored value then raise (EAttr "form cannot map field")
        else form_set id (VStr (fname f)) value;; ret value in
      if (match c with None => true | Some c => is_none_c c end) then
        t <- form_type id;
        src <- (match find_field "src" t with
                | None => ret (CSrc empty_src)
                | Some _ => match dict_get l (VStr "src") with
                            | Some v => ret (CVal v)
                            | None => raise ERecursion
                            end
                end);
        eid <- new_errs Raise;
        value <- with_ctx W [("form", CForm id); ("parent", CForm id);
                             ("src", src); ("errors", CErrs eid)] (rec f (VConst NONE));
        finish value
      else
        p <- ctx_get_opt "parent";
        if (match p with Some (CForm i) => Nat.eqb i id | _ => false end) then
          value <- rec f (VConst NONE);
          finish value
        else
          catch (with_rewind W (parent_is id) (rec f (VConst NONE)))
                (fun r => match r with
                          | Ok v => ret v
                          | Exn ERewind =>
                              value <- with_ctx W [("form", CForm id); ("parent", CForm id);
                                                   ("src", CSrc empty_src)]
                                                (rec f (VConst NONE));
                              finish value
                          | Exn e => raise e
                          end)
  end.

(** What every form has besides its fields: the methods of [Form] and its bases in Python
    (fields.py:1551-1751), those of [dict], and data (fields.py:176, 192-194, 1549).  Simplification:
    names with two leading underscores, what the classes of an application define besides fields,
    and what was set on the form are not modelled. *)
Definition form_methods : list string :=
  ["from_fields"; "_map_source"; "_seq_source"; "_reset"; "_map"; "_unmapped"; "_root_map"; "_nested_map";
   "map"; "has"; "flatten"; "munge"; "filter"; "copy"].
Definition dict_methods (py3 : bool) : list string :=
  ["clear"; "fromkeys"; "get"; "items"; "keys"; "pop"; "popitem"; "setdefault"; "update"; "values"] ++
  (if py3 then [] else ["has_key"; "iteritems"; "iterkeys"; "itervalues"; "viewitems"; "viewkeys"; "viewvalues"]).
Definition form_data : list string := ["ctx"; "fields"; "_count"; "_created_count"].
Definition form_attribute (py3 : bool) (id : nat) (a : string) : option val :=
  let is_in := existsb (String.eqb a) in
  if is_in form_methods then Some (VObj ("method " ++ a) (Z.of_nat id))
  else if is_in (dict_methods py3) then Some (VObj ("builtin " ++ a) (Z.of_nat id))
  else if is_in form_data then Some (VObj ("data " ++ a) (Z.of_nat id))
  else None.
(** Attribute read on a form; a field comes before anything else of that name. *)
Definition form_getattr (id : nat) (a : string) : M val :=
  t <- form_type id;
  match find_field a t with
  | Some f => field_get f id
  | None => match form_attribute (py3 (w_env W)) id a with
            | Some v => ret v
            | None => raise (EAttr a)
            end
  end.

(** fields.py:655-656 [Field.__set__]; setting any other attribute does not touch
    the dict. *)
Definition form_setattr (id : nat) (a : string) (v : val) : M unit :=
  t <- form_type id;
  match find_field a t with
  | Some f => form_set id (VStr (fname f)) v
  | None => ret tt
  end.

(** fields.py:658-663 [Field.__delete__] *)
Definition field_delete (f : field) (id : nat) : M unit :=
  l <- form_entries id;
  if dict_has l (VStr (fname f)) then set_entries id (dict_del l (VStr (fname f))) else ret tt.
Definition form_delattr (id : nat) (a : string) : M unit :=
  t <- form_type id;
  match find_field a t with
  | Some f => field_delete f id
  | None => raise (EAttr a)
  end.

(** ** [Form.map] *)

Definition has_tag (tags : list string) (f : field) : bool :=
  existsb (fun t => existsb (String.eqb t) (f_tags f)) tags.
(** [tags and not tags & set(field.tags.keys())] is the negation — 1591, 1602 *)
Definition selected (tags : list string) (f : field) : bool :=
  match tags with [] => true | _ => has_tag tags f end.

(** fields.py:1589-1596 [Form._reset] *)
Fixpoint form_reset (id : nat) (tags : list string) (fs : list field) : M unit :=
  match fs with
  | [] => ret tt
  | f :: rest =>
      (if selected tags f then field_delete f id else ret tt);;
      form_reset id tags rest
  end.

(** fields.py:1601-1606: the loop of [Form._map] *)
Fixpoint map_fields (id : nat) (tags : list string) (fs : list field) : M unit :=
  match fs with
  | [] => ret tt
  | f :: rest =>
      (if selected tags f then
         v <- rec f (VConst NONE);
         if ignored v then ret tt else form_set id (VStr (fname f)) v
       else ret tt);;
      map_fields id tags rest
  end.

(** fields.py:1628: the key filter of the [Dict] built by [_unmapped]:
    [key not in self]. *)
Definition not_in_form (id : nat) : hook prog :=
  MkHook true (fun _ args =>
    match args with
    | key :: _ => PItem id key (fun r => match r with
                                         | Ok _ => PRet (VBool false)
                                         | Exn _ => PRet (VBool true)
                                         end)
    | [] => PRet (VBool true)
    end).

Definition plain_string : field := MkField no_opts (KString no_strc).
Definition plain_field : field := MkField no_opts KAny.

(** fields.py:1627-1628 *)
Definition unmapped_dict (id : nat) (kf vf : field) : field :=
  MkField no_opts (KDict kf vf (Some (not_in_form id)) [] None).

(** fields.py:1611-1629 [Form._unmapped] *)
Definition form_unmapped (id : nat) (u : unm) : M (option val) :=
  let go := fun kf vf => v <- rec (unmapped_dict id kf vf) (VConst NONE); ret (Some v) in
  match u with
  | UFalsy | UIgnore => ret None
  | UBad s => raise (EValue "unmapped invalid, should be capture or ignore")
  | UCapture => go plain_string plain_field
  | UField f => go plain_string f
  | UPair kf vf => go kf vf
  end.

(** fields.py:1598-1609 [Form._map] *)
Definition form__map (id : nat) (tags : list string) (u : unm) : M unit :=
  pid <- cur_path;
  path_mapping pid;;
  t <- form_type id;
  with_ctx W [("form", CForm id); ("parent", CForm id)] (map_fields id tags (ft_fields t));;
  o <- form_unmapped id u;
  match o with
  | None => ret tt
  | Some v =>
      match v with
      | VNone => ret tt
      | VDict d => l <- form_entries id; set_entries id (dict_update l d)
      | _ => raise (EType "not iterable")
      end
  end.

(** fields.py:1581-1587 [Form._seq_source]; the aliases are a dict, so a repeated
    name keeps the last position. *)
Fixpoint seq_aliases (i : Z) (fs : list field) : list (string * key) :=
  match fs with
  | [] => []
  | f :: rest =>
      let l := seq_aliases (i + 1) rest in
      match alookup l (fname f) with
      | Some _ => l
      | None => (fname f, KInt i) :: l
      end
  end.

(** The [src] argument of [Form.map] as a source — fields.py:1636-1645. *)
Inductive srcarg := ANone | AVal (v : val) | ASrc (s : source).
Definition native (v : val) (aliases : list (string * key)) : source :=
  SBase (BPlain (SDefault v aliases [] None)).
Definition root_source (t : formty) (a : srcarg) : res source :=
  match a with
  | ANone | AVal VNone => Ok empty_src
  | AVal v =>
      match v with
      | VDict _ | VForm _ => Ok (native v [])
      | VList _ | VTuple _ => Ok (native v (seq_aliases 0 (ft_fields t)))
      | _ => Exn (EValue "Invalid src, expected None, dict or Source")
      end
  | ASrc s => Ok s
  end.

(** fields.py:1631-1650 [Form._root_map]; returns the error list. *)
Definition root_map (id : nat) (a : srcarg) (tags : list string) (u : unm) (m : mode) : M nat :=
  t <- form_type id;
  src <- lift (root_source t a);
  eid <- new_errs m;
  with_ctx W [("src", CSrc src); ("errors", CErrs eid)] (form__map id tags u);;
  ret eid.

(** fields.py:1652-1658 [Form._nested_map] *)
Definition nested_map (id : nat) (tags : list string) (u : unm) (m : mode) : M nat :=
  eid <- new_errs m;
  with_ctx W [("errors", CErrs eid)] (form__map id tags u);;
  c <- ctx_get "errors";
  match c with
  | CErrs outer => es <- errs_of eid; extend_errs outer es;; ret eid
  | _ => raise (EAttr "no attribute 'extend'")
  end.

(** fields.py:1661: [tags if tags else getattr(self.ctx, 'tags', None)].  A hook may
    have set [ctx.tags] to a list of texts (simplification: anything else it sets
    there counts as no tags). *)
Fixpoint texts_of (l : list val) : option (list string) :=
  match l with
  | [] => Some []
  | VStr s :: l' => option_map (cons s) (texts_of l')
  | _ => None
  end.
Definition tags_of (c : option cval) : list string :=
  match c with
  | Some (CTags l) => l
  | Some (CVal (VList l)) => match texts_of l with Some ts => ts | None => [] end
  | _ => []
  end.
Definition effective_tags (tags : list string) : M (list string) :=
  match tags with
  | [] => c <- ctx_get_opt "tags"; ret (tags_of c)
  | _ => ret tags
  end.

Definition is_anone (a : srcarg) : bool :=
  match a with ANone | AVal VNone => true | _ => false end.

(** fields.py:1660-1674 [Form.map].  In collect mode the returned error list; in
    raise mode the empty list stands for returning [self]. *)
Definition form_map (id : nat) (a : srcarg) (tags : list string) (reset : bool)
           (u : unm) (m : mode) : M (list err) :=
  tags <- effective_tags tags;
  t <- form_type id;
  (if reset then form_reset id tags (ft_fields t) else ret tt);;
  c <- ctx_get "src";
  eid <- (if is_anone a && negb (is_none_c c) then nested_map id tags u m
          else root_map id a tags u m);
  es <- errs_of eid;
  match m, es with
  | Raise, _ :: _ => raise (EForm es)
  | _, _ => ret es
  end.

(** ** Running hooks *)

Definition run_pathop (op : pathop) : M val :=
  pid <- cur_path;
  match op with
  | OpValue => path_value pid
  | OpExists => b <- path_exists pid; ret (VBool b)
  | OpIsNull => b <- path_is_null pid; ret (VBool b)
  | OpPrimitive t => path_primitive t pid
  | OpSequence => n <- path_sequence pid; ret (VInt (Z.of_nat n))
  | OpMapping => v <- path_mapping pid; l <- lift v; ret (VList l)
  end.

Definition unit_val (m : M unit) : M val := m;; ret VNone.

Definition item_of (id : nat) (k : val) : M val :=
  if hashable k then
    l <- form_entries id;
    match dict_get l k with Some v => ret v | None => raise EKey end
  else raise dict_unhashable.

(** Variables a hook may set with [with ctx( **vars )]: everything except [src] and
    [src_path], which [PPush] covers (setting both unbalances the path). *)
Definition user_vars (vars : list (string * val)) : frame :=
  map (fun kv => (fst kv, CVal (snd kv)))
      (filter (fun kv => negb (String.eqb (fst kv) "src" || String.eqb (fst kv) "src_path")) vars).

Fixpoint run (p : prog) : M val :=
  match p with
  | PRet v => ret v
  | PRaise e => raise e
  | PCtxForm k =>
      catch (c <- ctx_get "form";
             match c with
             | CForm i => ret (VForm i)
             | CVal v => ret v
             | _ => ret VNone
             end) (fun r => run (k r))
  | PGet id a k => catch (form_getattr id a) (fun r => run (k r))
  | PSet id a v k => catch (unit_val (form_setattr id a v)) (fun r => run (k r))
  | PDel id a k => catch (unit_val (form_delattr id a)) (fun r => run (k r))
  | PItem id key k => catch (item_of id key) (fun r => run (k r))
  | PPath op k => catch (run_pathop op) (fun r => run (k r))
  | PInvalid v k => catch (unit_val (report W (Invalid v))) (fun r => run (k r))
  | PMissing k => catch (unit_val (report W Missing)) (fun r => run (k r))
  | PWith vars body k => catch (with_ctx W (user_vars vars) (run body)) (fun r => run (k r))
  | PPush key body k =>
      catch (with_ctx W [("src", CKey (key_of_val key))] (run body)) (fun r => run (k r))
  | PReset body k => catch (with_reset W (run body)) (fun r => run (k r))
  | PMap ft src tags reset u m k =>
      catch (id <- new_form ft;
             es <- form_map id (match src with None => ANone | Some s => ASrc s end)
                            tags reset u m;
             ret (id, es)) (fun r => run (k r))
  end.

(** fields.py:226-230 [Hook.__call__], invoking *)
Definition call_hook (h : hook prog) (args : list val) : M val :=
  target <- (if hk_attached h then ret VNone
             else c <- ctx_get "form";
                  match c with
                  | CForm i => ret (VForm i)
                  | CVal v => ret v
                  | _ => ret VNone
                  end);
  run (hk_fun h target args).

(** ** The steps of [Field._map] *)

Definition NONEv : val := VConst NONE.
Definition ERRORv : val := VConst ERROR.
Definition NOTSETv : val := VConst NOTSET.

Definition report_missing_unless_ignored : M val :=
  c <- ctx_get "ignore_missing";
  (if truthy_c c then ret tt else report W Missing);;
  ret NOTSETv.

(** fields.py:529-551 [Field._default] *)
Definition field_default (f : field) : M val :=
  c <- ctx_get "ignore_default";
  if truthy_c c then report_missing_unless_ignored
  else
    match o_default (f_opts f) with
    | DVal (VConst NOTSET) => report_missing_unless_ignored
    | DVal v => ret v
    | DUnset (Some h) => call_hook h []
    | DUnset None => report_missing_unless_ignored
    | DCall p => run p
    end.

(** fields.py:521-527 [Field._munge] *)
Definition field_munge (f : field) (v : val) : M val :=
  match o_translations (f_opts f) with
  | [] => ret v
  | tr => if hashable v then ret (match dict_get tr v with Some w => w | None => v end)
          else raise dict_unhashable
  end.

(** fields.py:503-509 [Field._filter] *)
Definition field_filter (f : field) (v : val) : bool := negb (py_in v (o_ignores (f_opts f))).

(** ** Validation *)

(** The first violation found, if any; [Exn] when Python's comparison raises. *)
Definition violation := res (option viol).
Definition vand (a b : violation) : violation :=
  match a with Ok None => b | _ => a end.

(** fields.py:516 *)
Definition vio_null (f : field) (v : val) : option viol :=
  match v with
  | VNone => if o_nullable (f_opts f) then None else Some VioNotNullable
  | _ => None
  end.

(** [len(value)] *)
Definition py_len (ents : entries_of) (v : val) : res Z :=
  match v with
  | VStr s => Ok (Z.of_nat (String.length s))
  | VList l | VTuple l => Ok (Z.of_nat (length l))
  | VDict l => Ok (Z.of_nat (length l))
  | VForm i => Ok (Z.of_nat (length (ents i)))
  | _ => Exn (EType "object has no len()")
  end.

(** fields.py:735-741; the characters in order of first occurrence instead of set order *)
Definition bad_chars (alphabet : list ascii) (s : string) : list ascii :=
  nodup ascii_dec (filter (fun c => negb (existsb (Ascii.eqb c) alphabet)) (chars s)).
Definition vio_alphabet (c : strc) (v : val) : violation :=
  match sc_alphabet c with
  | [] => Ok None
  | al => match v with
          | VStr s => match bad_chars al s with [] => Ok None | bad => Ok (Some (VioChars bad)) end
          | _ => Exn (EType "not iterable")
          end
  end.
(** 742-746 *)
Definition vio_min_len (ents : entries_of) (o : option Z) (mk : Z -> viol) (v : val) : violation :=
  match o with
  | None => Ok None
  | Some n => match py_len ents v with
              | Ok k => Ok (if k <? n then Some (mk n) else None)
              | Exn e => Exn e
              end
  end.
(** 747-751 *)
Definition vio_max_len (ents : entries_of) (o : option Z) (mk : Z -> viol) (v : val) : violation :=
  match o with
  | None => Ok None
  | Some n => match py_len ents v with
              | Ok k => Ok (if n <? k then Some (mk n) else None)
              | Exn e => Exn e
              end
  end.
(** 752-756 *)
Definition vio_pattern (E : env) (c : strc) (v : val) : violation :=
  match sc_pattern c with
  | None => Ok None
  | Some p => match v with
              | VStr s => match e_re E p s with
                          | Some _ => Ok None
                          | None => Ok (Some (VioPattern v p))
                          end
              | _ => Exn (EType "expected string")
              end
  end.
(** 757-766 *)
Definition vio_choices (f : field) (c : strc) (v : val) : violation :=
  match sc_choices c with
  | [] => Ok None
  | ch => if py_in v (ch ++ map snd (o_translations (f_opts f))) then Ok None
          else Ok (Some (VioChoice v ch))
  end.

(** fields.py:792-806, 933-943, 972-982, 1016-1026: bounds *)
Definition vio_below (o : option val) (mk : val -> viol) (v : val) : violation :=
  match o with
  | None => Ok None
  | Some b => match py_lt v b with
              | Ok true => Ok (Some (mk b))
              | Ok false => Ok None
              | Exn e => Exn e
              end
  end.
Definition vio_above (o : option val) (mk : val -> viol) (v : val) : violation :=
  match o with
  | None => Ok None
  | Some b => match py_lt b v with
              | Ok true => Ok (Some (mk b))
              | Ok false => Ok None
              | Exn e => Exn e
              end
  end.

(** fields.py:1178-1189.  [required_keys] must be a set, here a list.  The message joins the
    missing keys with ", ": one that is not a string raises (1182).  A hook may have made
    the value a form, which is a dict. *)
Definition is_text (v : val) : bool := match v with VStr _ => true | _ => false end.
Definition keys_required (required : list val) (d : list (val * val)) : violation :=
  match filter (fun k => negb (dict_has d k)) required with
  | [] => Ok None
  | missing => if forallb is_text missing then Ok (Some (VioMissingKeys missing))
               else Exn (EType "expected str instance")
  end.
Definition vio_required (ents : entries_of) (required : list val) (v : val) : violation :=
  match required with
  | [] => Ok None
  | _ => match v with
         | VDict d => keys_required required d
         | VForm i => keys_required required (ents i)
         | _ => Exn (EAttr "no attribute 'keys'")
         end
  end.
Definition vio_max_keys (ents : entries_of) (o : option Z) (v : val) : violation :=
  match o with
  | None => Ok None
  | Some 0 => Ok None
  | Some n => match py_len ents v with
              | Ok k => Ok (if n <? k then Some (VioMaxKeys n) else None)
              | Exn e => Exn e
              end
  end.

(** The [_validate] methods of every class, on a value that is not [None]. *)
Definition vio_kind (E : env) (ents : entries_of) (f : field) (v : val) : violation :=
  match f_kind f with
  | KString c =>
      vand (vio_alphabet c v)
      (vand (vio_min_len ents (sc_min c) (VioMinLen v) v)
      (vand (vio_max_len ents (sc_max c) (VioMaxLen v) v)
      (vand (vio_pattern E c v) (vio_choices f c v))))
  | KInteger lo hi | KFloat lo hi | KDecimal lo hi =>
      vand (vio_below lo (VioMin v) v) (vio_above hi (VioMax v) v)
  | KDate _ lo hi | KTime _ lo hi | KDatetime _ lo hi =>
      vand (vio_below lo VioAfter v) (vio_above hi VioBefore v)
  | KList _ lo hi _ =>
      vand (vio_min_len ents lo VioMinItems v) (vio_max_len ents hi VioMaxItems v)
  | KDict _ _ _ required mx =>
      vand (vio_required ents required v) (vio_max_keys ents mx v)
  | _ => Ok None
  end.

(** [self._validate(value)] as the violation it reports *)
Definition field_violation (E : env) (ents : entries_of) (f : field) (v : val) : violation :=
  match vio_null f v with
  | Some x => Ok (Some x)
  | None => match v with VNone => Ok None | _ => vio_kind E ents f v end
  end.

Definition field_validate (f : field) (v : val) : M bool :=
  o <- (fun s => (field_violation E (entries s) f v, s));
  match o with
  | None => ret true
  | Some x => report W (Invalid x);; ret false
  end.

(** ** Parsing: [_parse] of every class *)

(** [report invalid; return ERROR] *)
Definition invalid_error (x : viol) : M val := report W (Invalid x);; ret ERRORv.

(** [decimal.Decimal(number)] — exact *)
Definition dec_of_number (v : val) : option dec :=
  match v with
  | VBool b => Some (DFin (Z.b2z b) 0)
  | VInt z => Some (DFin z 0)
  | VFloat (S754_zero _) => Some (DFin 0 0)
  | VFloat (S754_infinity s) => Some (DInf s)
  | VFloat S754_nan => Some DNaN
  | VFloat (S754_finite s m e) =>
      let z := if s then Z.neg m else Z.pos m in
      Some (if 0 <=? e then DFin (z * 2 ^ e) 0 else DFin (z * 5 ^ (- e)) e)
  | _ => None
  end.

(** fields.py:852-860 [Decimal._parse] *)
Definition parse_decimal (pid : nat) : M val :=
  v <- path_value pid;
  match v with
  | VDec _ => ret v
  | _ => match dec_of_number v with
         | Some d => ret (VDec d)
         | None =>
             w <- path_primitive TyStr pid;
             match w with
             | VStr s => match e_dec E s with
                         | Some d => ret (VDec d)
                         | None => raise EDecimal
                         end
             | VDec _ => ret w
             | _ => match dec_of_number w with
                    | Some d => ret (VDec d)
                    | None => raise (EType "Cannot convert to Decimal")
                    end
             end
         end
  end.

Definition day : Z := 86400000000.

(** The text passed to the date parsers; they reject anything but a string. *)
Definition need_str (v : val) : M string :=
  match v with VStr s => ret s | _ => raise (EType "must be string") end.

(** fields.py:916-931: the formats in turn; [i == len(formats)] never holds, so
    falling through returns [None]. *)
Fixpoint try_date (fmts : list string) (s : string) : val :=
  match fmts with
  | [] => VNone
  | fmt :: rest =>
      match (if String.eqb fmt "iso8601" then e_iso E s else e_strp E s fmt) with
      | Some t => VDate (t / day)
      | None => try_date rest s
      end
  end.

(** fields.py:904-931 [Date._parse]; a [datetime] is a [date]. *)
Definition parse_date (fmts : list string) (pid : nat) : M val :=
  v <- path_value pid;
  match v with
  | VDate _ | VDatetime _ => ret v
  | _ =>
      w <- path_primitive TyStr pid;
      match fmts with
      | [] => invalid_error (VioFormat w)
      | _ => s <- need_str w; ret (try_date fmts s)
      end
  end.

(** fields.py:960-970 [Time._parse] *)
Definition parse_time (fmt : option string) (pid : nat) : M val :=
  v <- path_value pid;
  match v with
  | VTime _ => ret v
  | _ =>
      w <- path_primitive TyStr pid;
      match fmt with
      | None => invalid_error (VioFormat w)
      | Some fm =>
          s <- need_str w;
          match e_strptime_time E s fm with
          | Some t => ret (VTime t)
          | None => raise (EValue "time data does not match format")
          end
      end
  end.

(** fields.py:999-1014 [Datetime._parse] *)
Definition parse_datetime (fmt : option string) (pid : nat) : M val :=
  v <- path_value pid;
  match v with
  | VDatetime _ => ret v
  | _ =>
      w <- path_primitive TyStr pid;
      match fmt with
      | None => invalid_error (VioFormat w)
      | Some fm =>
          s <- need_str w;
          if String.eqb fm "iso8601" then
            match e_iso E s with
            | Some t => ret (VDatetime t)
            | None => invalid_error (VioText "Unable to parse date string")
            end
          else
            match e_strp E s fm with
            | Some t => ret (VDatetime t)
            | None => raise (EValue "time data does not match format")
            end
      end
  end.

(** [with ctx(src=key): ... field.map()], the value inside the block *)
Definition map_at (k : key) (f : field) : M val :=
  with_ctx W [("src", CKey k)] (rec f NONEv).

Definition keep (v : val) (acc : list val) : list val := if ignored v then acc else acc ++ [v].

(** fields.py:1060-1067 *)
Fixpoint tuple_items (i : Z) (fs : list field) (acc : list val) : M (list val) :=
  match fs with
  | [] => ret acc
  | f :: rest => v <- map_at (KInt i) f; tuple_items (i + 1) rest (keep v acc)
  end.

(** fields.py:1053-1067 [Tuple._parse] *)
Definition parse_tuple (fs : list field) (pid : nat) : M val :=
  n <- path_sequence pid;
  if Nat.eqb n (length fs) then l <- tuple_items 0 fs []; ret (VTuple l)
  else invalid_error (VioItems (length fs)).

(** fields.py:1116-1122 *)
Fixpoint list_items (i : Z) (n : nat) (f : field) (acc : list val) : M (list val) :=
  match n with
  | O => ret acc
  | S n' => v <- map_at (KInt i) f; list_items (i + 1) n' f (keep v acc)
  end.

(** [path.src.error]: a mount path has no [src] attribute. *)
Definition path_has_src (pid : nat) : M bool :=
  get (fun s => match nth_error (paths s) pid with Some (PMount _ _ _) => false | _ => true end).

(** fields.py:1106-1123 [List._parse] *)
Definition parse_list (f : field) (allow : bool) (pid : nat) : M val :=
  catch (path_sequence pid)
        (fun r => match r with
                  | Ok n => l <- list_items 0 n f []; ret (VList l)
                  | Exn e =>
                      b <- path_has_src pid;
                      if negb b then raise (EAttr "'MountPath' object has no attribute 'src'")
                      else match e with
                           | ESource _ =>
                               if allow then
                                 v <- rec f NONEv;
                                 ret (if ignored v then v else VList [v])
                               else raise e
                           | _ => raise e
                           end
                  end).

(** fields.py:1160-1163 *)
Definition key_accepted (kf : option (hook prog)) (k : val) : M bool :=
  match kf with
  | None => ret true
  | Some h => v <- call_hook h [k]; ret (truthy v)
  end.

(** fields.py:1161-1171 *)
Fixpoint dict_items (keyf : option (hook prog)) (kf vf : field) (keys : list val)
         (acc : list (val * val)) : M (list (val * val)) :=
  match keys with
  | [] => ret acc
  | k :: rest =>
      b <- key_accepted keyf k;
      if negb b then dict_items keyf kf vf rest acc
      else
        v <- map_at (key_of_val k) vf;
        if ignored v then dict_items keyf kf vf rest acc
        else
          k' <- rec kf k;
          if ignored k' then dict_items keyf kf vf rest acc
          else if hashable k' then dict_items keyf kf vf rest (dict_set acc k' v)
          else raise dict_unhashable
  end.

(** fields.py:1155-1172 [Dict._parse] *)
Definition parse_dict (keyf : option (hook prog)) (kf vf : field) (pid : nat) : M val :=
  vw <- path_mapping pid;
  keys <- lift vw;
  d <- dict_items keyf kf vf keys [];
  ret (VDict d).

(** fields.py:1226-1251 [Code._parse] *)
Definition parse_code (pid : nat) : M val :=
  v <- path_primitive TyAuto pid;
  match v with
  | VStr s =>
      if has_char newline s then
        match e_compile E s with
        | Ok m => ret m
        | Exn e => invalid_error (VioExn e)
        end
      else
        match e_import E s with
        | Some (Ok m) => ret m
        | Some (Exn e) => invalid_error (VioExn e)
        | None => invalid_error (VioCode v)
        end
  | _ => ret v
  end.

(** fields.py:1256-1260 [UUID._parse]; [uuid.UUID(x)] calls [x.replace] first. *)
Definition to_uuid (w : val) : M val :=
  match w with
  | VStr s => match e_uuid E s with
              | Some u => ret u
              | None => raise (EValue "badly formed hexadecimal UUID string")
              end
  | _ => raise (EAttr "no attribute 'replace'")
  end.
Definition is_uuid (v : val) : bool := match v with VObj c _ => String.eqb c "UUID" | _ => false end.
Definition parse_uuid (pid : nat) : M val :=
  v <- path_primitive TyAuto pid;
  if is_uuid v then ret v else w <- path_primitive TyStr pid; to_uuid w.

(** fields.py:1343-1348, 1376-1380: build the form and map it in place *)
Definition parse_form (t : formty) (reset : bool) (u : unm) : M val :=
  id <- new_form t;
  es <- form_map id ANone [] reset u Collect;
  match es with
  | [] => ret (VForm id)
  | _ => ret ERRORv
  end.

(** pilo/__init__.py:94-101 [Types.probe] *)
Definition types_probe (probe : formty) (tf : field) (v : val) : M val :=
  id <- new_form probe;
  es <- form_map id (AVal v) [] false UIgnore Collect;
  match es with
  | [] => field_get tf id
  | e :: _ => raise (EField e)
  end.

(** fields.py:1359-1370 [PolymorphicSubForm._form_type] with 1305-1308; [inl] is a
    class, [inr] a sentinel. *)
Definition poly_type (probe : formty) (tf : field) (table : list (val * string)) (pid : nat)
  : M (formty + val) :=
  v <- path_value pid;
  catch (types_probe probe tf v)
        (fun r =>
           match r with
           | Exn e => if is_value_error e
                      then report W (Invalid (VioExn (spoken e)));; ret (inr ERRORv)
                      else raise e
           | Ok ident =>
               if is_None ident then ret (inr NONEv)
               else if negb (hashable ident) then raise dict_unhashable
               else match dict_get (map (fun ic => (fst ic, VStr (snd ic))) table) ident with
                    | Some (VStr c) =>
                        match w_class W c with
                        | Some t => ret (inl t)
                        | None => raise (EOther "no such class")
                        end
                    | _ => report W (Invalid (VioIdentity ident));; ret (inr ERRORv)
                    end
           end).

(** fields.py:1372-1380 [PolymorphicSubForm._parse] *)
Definition parse_poly (probe : formty) (tf : field) (table : list (val * string))
           (reset : bool) (u : unm) (pid : nat) : M val :=
  ft <- poly_type probe tf table pid;
  match ft with
  | inl t => parse_form t reset u
  | inr v => ret v
  end.

(** fields.py:1435-1443 [Group._match]: the field and the captures ([VNone] for a
    name, the match object's groups for a pattern). *)
Fixpoint group_match (l : list (gmatch * field)) (k : val) : res (option (field * val)) :=
  match l with
  | [] => Ok None
  | (GName s, f) :: rest => if py_eq (VStr s) k then Ok (Some (f, VNone)) else group_match rest k
  | (GRe p, f) :: rest =>
      match k with
      | VStr s => match e_re E p s with
                  | Some groups =>
                      Ok (Some (f, VDict (map (fun g => (val_of_key (fst g), snd g)) groups)))
                  | None => group_match rest k
                  end
      | _ => Exn (EType "expected string or buffer")
      end
  end.

(** fields.py:1452-1465 *)
Fixpoint group_items (l : list (gmatch * field)) (keys : list val) (matches : nat)
         (acc : list val) : M val :=
  match keys with
  | [] => ret (match matches with O => NONEv | _ => VList acc end)
  | k :: rest =>
      m <- lift (group_match l k);
      match m with
      | None => group_items l rest matches acc
      | Some (f, captures) =>
          v <- map_at (key_of_val k) f;
          group_items l rest (S matches)
                      (if ignored v then acc else acc ++ [VTuple [k; captures; v]])
      end
  end.

(** fields.py:1448-1465 [Group._parse] *)
Definition parse_group (l : list (gmatch * field)) (pid : nat) : M val :=
  vw <- path_mapping pid;
  keys <- lift vw;
  group_items l keys O [].

Definition parse_kind (k : kind) (pid : nat) : M val :=
  match k with
  | KAny => path_primitive TyAuto pid                       (* 496-501 *)
  | KString _ => path_primitive TyStr pid                   (* 727-728 *)
  | KInteger _ _ => path_primitive TyInt pid                (* 824-825 *)
  | KFloat _ _ => path_primitive TyFloat pid                (* 848-849 *)
  | KDecimal _ _ => parse_decimal pid
  | KBool => path_primitive TyBool pid                      (* 865-866 *)
  | KDate fmts _ _ => parse_date fmts pid
  | KTime fmt _ _ => parse_time fmt pid
  | KDatetime fmt _ _ => parse_datetime fmt pid
  | KTuple fs => parse_tuple fs pid
  | KList f _ _ allow => parse_list f allow pid
  | KDict kf vf keyf _ _ => parse_dict keyf kf vf pid
  | KCode => parse_code pid
  | KUUID => parse_uuid pid
  | KSubForm t reset u => parse_form t reset u
  | KPoly probe tf table reset u => parse_poly probe tf table reset u pid
  | KGroup l => parse_group l pid
  end.

(** fields.py:469-486 [Field._compute] *)
Definition field_compute (f : field) : M val :=
  pid <- cur_path;
  ex <- path_exists pid;
  if negb ex then ret NONEv
  else
    nl <- path_is_null pid;
    if (nl : bool) then ret VNone
    else
      catch (match o_parse (f_opts f) with
             | Some h => call_hook h [VNone]
             | None => parse_kind (f_kind f) pid
             end)
            (fun r => match r with
                      | Ok v => ret v
                      | Exn e => if caught_by_compute e then invalid_error (VioExn (spoken e))
                                 else raise e
                      end).

(** fields.py:488-494 [Field._resolve] and 1445-1446 [Group._resolve] *)
Definition field_resolve (f : field) : M (option key) :=
  match o_resolve (f_opts f) with
  | Some h => v <- call_hook h [];
              ret (if is_None v then None else Some (key_of_val v))
  | None => match f_kind f with
            | KGroup _ => ret None
            | _ => ret (o_src (f_opts f))
            end
  end.

(** fields.py:578-595 *)
Definition field_after (f : field) (v : val) : M val :=
  v <- field_munge f v;
  v <- (match o_munge (f_opts f) with
        | Some h => if ignored v then ret v else call_hook h [v]
        | None => ret v
        end);
  if is_NONE v then field_default f
  else if ignored v then ret v
  else if negb (field_filter f v) then field_default f
  else
    ok <- (match o_filter (f_opts f) with
           | Some h => r <- call_hook h [v]; ret (truthy r)
           | None => ret true
           end);
    if negb ok then field_default f
    else
      ok <- field_validate f v;
      if negb ok then ret ERRORv
      else
        ok <- (match o_validate (f_opts f) with
               | Some h => r <- call_hook h [v]; ret (truthy r)
               | None => ret true
               end);
        if negb ok then ret ERRORv else ret v.

(** fields.py:565-576 *)
Definition field_body (f : field) (value : val) : M val :=
  if is_NONE value then
    v <- (match o_compute (f_opts f) with
          | Some h => call_hook h []
          | None => field_compute f
          end);
    if is_NONE v then
      match o_default (f_opts f) with
      | DUnset (Some h) => call_hook h []
      | _ => field_default f
      end
    else if ignored v then ret v
    else field_after f v
  else field_after f value.

(** fields.py:553-595 [Field._map] *)
Definition field__map (f : field) (value : val) : M val :=
  close <- (if is_NONE value then field_resolve f else ret None);
  match close with
  | None => field_body f value
  | Some k => with_ctx W [("src", CKey k)] (field_body f value)
  end.

(** fields.py:612-616: [value.parent = weakref.proxy(ctx.parent)] *)
Definition set_parent (v : val) : M unit :=
  match v with
  | VForm i => form_setattr i "parent" (VObj "weakproxy" 0)
  | VObj _ _ => ret tt
  | _ => raise (EAttr "object has no attribute 'parent'")
  end.

(** fields.py:597-617 [Field.map] *)
Definition field_map_body (f : field) (value : val) : M val :=
  v <- with_ctx W [("field", CField f); ("parent", CField f)] (field__map f value);
  (if o_attach_parent (f_opts f) && negb (ignored v) then set_parent v else ret tt);;
  ret v.
End Open.

(** [Field.map] (fields.py:597).  Running out of fuel is Python's recursion limit. *)
Fixpoint field_map (W : world) (fuel : nat) (f : field) (v : val) : M val :=
  match fuel with
  | O => raise ERecursion
  | S n => field_map_body W (field_map W n) f v
  end.

(** [Form.map] with that meaning of [Field.map]. *)
Definition Form_map (W : world) (fuel : nat) := form_map W (field_map W fuel).
