(** * Meta: pilo/fields.py and pilo/__init__.py — field objects, form classes, the type
    table, hooks and clones, as Python objects in a heap.

    Simplifications: the method resolution order of a class is given (Python computes
    it from the bases); class attributes are fields or something else; [__subclasses__]
    never loses a class; identities are strings. *)
From Verif Require Import PyBase PyStr.

(** ** Field objects and classes *)

Inductive parent := InClass (c : nat) | InField (f : nat).

(** The attributes of a [Field] that registration touches: [_count] (fields.py:166-176),
    [parent], [name], [src] (352-354), and [choices] of a [String] (686). [None] for
    [fo_src] is the sentinel NONE, for [fo_choices] a class without [choices]. *)
Record fobj := MkF {
  fo_count : nat;
  fo_parent : option parent;
  fo_name : option string;
  fo_src : option string;
  fo_choices : option (list string)
}.

Inductive member := MField (f : nat) | MOther.

(** A class: its bases, its method resolution order without itself, its own
    attributes, and [cls.fields]. *)
Record cls := MkC {
  c_bases : list nat;
  c_mro : list nat;
  c_dict : list (string * member);
  c_fields : list nat
}.

(** [m_count] is [CreatedCountMixin._created_count]. *)
Record mst := MkS { m_fields : list fobj; m_classes : list cls; m_count : nat }.

(** fields.py:174-176: a new field *)
Definition new_field (src : option string) (choices : option (list string)) (s : mst) : nat * mst :=
  (length (m_fields s),
   MkS (m_fields s ++ [MkF (S (m_count s)) None None src choices]) (m_classes s) (S (m_count s))).

(** Attribute lookup along classes. *)
Fixpoint mro_attr (s : mst) (l : list nat) (n : string) : option member :=
  match l with
  | [] => None
  | c :: rest =>
      match nth_error (m_classes s) c with
      | Some k => match alookup (c_dict k) n with Some m => Some m | None => mro_attr s rest n end
      | None => mro_attr s rest n
      end
  end.
(** [getattr(cls, n)] *)
Definition class_attr (s : mst) (c : nat) (n : string) : option member :=
  match nth_error (m_classes s) c with
  | Some k => mro_attr s (c :: c_mro k) n
  | None => None
  end.

Definition count_of (s : mst) (f : nat) : nat :=
  match nth_error (m_fields s) f with Some o => fo_count o | None => O end.
Definition is_attached (s : mst) (f : nat) : bool :=
  match nth_error (m_fields s) f with
  | Some o => match fo_parent o with Some _ => true | None => false end
  | None => true
  end.

(** fields.py:415-419: the first base whose attribute of that name is a field *)
Fixpoint base_count (s : mst) (mro : list nat) (n : string) : option nat :=
  match mro with
  | [] => None
  | b :: rest => match class_attr s b n with
                 | Some (MField g) => Some (count_of s g)
                 | _ => base_count s rest n
                 end
  end.

(** fields.py:410-420 [Field.attach] to a class *)
Definition attach (f c : nat) (n : string) (s : mst) : mst :=
  match nth_error (m_fields s) f, nth_error (m_classes s) c with
  | Some o, Some k =>
      MkS (replace_nth f
             (MkF (match base_count s (c_mro k) n with Some x => x | None => fo_count o end)
                  (Some (InClass c)) (Some n)
                  (match fo_src o with None => Some n | x => x end) (fo_choices o))
             (m_fields s))
          (m_classes s) (m_count s)
  | _, _ => s
  end.

(** ** The metaclass *)

Fixpoint insert_name (n : string) (l : list string) : list string :=
  match l with
  | [] => [n]
  | m :: rest => match String.compare n m with
                 | Lt => n :: l
                 | Eq => l
                 | Gt => m :: insert_name n rest
                 end
  end.
(** [dir(cls)]: sorted, without repetitions *)
Definition dir (s : mst) (l : list nat) : list string :=
  fold_right insert_name []
    (flat_map (fun c => match nth_error (m_classes s) c with Some k => map fst (c_dict k) | None => [] end) l).

(** fields.py:1491-1497 *)
Fixpoint collect (c : nat) (names : list string) (acc : list nat) (s : mst) : list nat * mst :=
  match names with
  | [] => (acc, s)
  | n :: rest =>
      match class_attr s c n with
      | Some (MField f) =>
          let s1 := if is_attached s f then s else attach f c n s in
          collect c rest (if existsb (Nat.eqb f) acc then acc else acc ++ [f]) s1
      | _ => collect c rest acc s
      end
  end.

(** [list.sort(key=...)], stable *)
Fixpoint insert_by (key : nat -> nat) (f : nat) (l : list nat) : list nat :=
  match l with
  | [] => [f]
  | g :: rest => if (key f <=? key g)%nat then f :: l else g :: insert_by key f rest
  end.
Definition sort_by (key : nat -> nat) (l : list nat) : list nat := fold_right (insert_by key) [] l.

(** fields.py:1485-1500 [FormMeta.__new__]; the new class is the last one. *)
Definition define_class (bases mro : list nat) (dict : list (string * member)) (s : mst) : mst :=
  let c := length (m_classes s) in
  let s1 := MkS (m_fields s) (m_classes s ++ [MkC bases mro dict []]) (m_count s) in
  let '(fs, s2) := collect c (dir s1 (c :: mro)) [] s1 in
  MkS (m_fields s2) (replace_nth c (MkC bases mro dict (sort_by (count_of s2) fs)) (m_classes s2)) (m_count s2).

Definition fields_of (s : mst) (c : nat) : list nat :=
  match nth_error (m_classes s) c with Some k => c_fields k | None => [] end.

(** ** The type table *)

(** [cls.__subclasses__()] *)
Definition subclasses (s : mst) (c : nat) : list nat :=
  filter (fun d => match nth_error (m_classes s) d with
                   | Some k => existsb (Nat.eqb c) (c_bases k)
                   | None => false
                   end) (seq 0 (length (m_classes s))).

(** __init__.py:51-53: [getattr(form_cls, field.name).choices or []] *)
Definition choices_of (s : mst) (c : nat) (n : string) : list string :=
  match class_attr s c n with
  | Some (MField f) => match nth_error (m_fields s) f with
                       | Some o => match fo_choices o with Some l => l | None => [] end
                       | None => []
                       end
  | _ => []
  end.

Fixpoint set_identity (l : list (string * nat)) (v : string) (c : nat) : list (string * nat) :=
  match l with
  | [] => [(v, c)]
  | (w, d) :: rest => if String.eqb w v then (w, c) :: rest else (w, d) :: set_identity rest v c
  end.

(** __init__.py:48-57 [_map]; [n] bounds the depth of the class tree *)
Fixpoint types_walk (n : nat) (s : mst) (name : string) (c : nat) (tbl : list (string * nat)) : list (string * nat) :=
  match n with
  | O => tbl
  | S n' =>
      let tbl1 := fold_left (fun acc v => set_identity acc v c) (choices_of s c name) tbl in
      fold_left (fun acc d => types_walk n' s name d acc) (subclasses s c) tbl1
  end.

(** __init__.py:45-71 [Types.map] of a type field *)
Definition types_map (s : mst) (f : nat) : option (list (string * nat)) :=
  match nth_error (m_fields s) f with
  | Some (MkF _ (Some (InClass c)) (Some name) _ _) =>
      Some (types_walk (S (length (m_classes s))) s name c [])
  | _ => None
  end.

(** fields.py:1305-1308 [Type.probe]: [self.types] is filled when it is empty. *)
Definition types_cached (s : mst) (f : nat) (types : option (list (string * nat))) : option (list (string * nat)) :=
  match types with
  | None | Some [] => types_map s f
  | Some t => Some t
  end.

(** ** Classes made on the fly *)

(** fields.py:426-429 [Field.clone]: a copy without a parent; the count and the name stay *)
Definition clone_field (f : nat) (s : mst) : nat * mst :=
  match nth_error (m_fields s) f with
  | Some o => (length (m_fields s),
               MkS (m_fields s ++ [MkF (fo_count o) None (fo_name o) (fo_src o) (fo_choices o)]) (m_classes s) (m_count s))
  | None => (f, s)
  end.

Fixpoint set_member (d : list (string * member)) (n : string) (m : member) : list (string * member) :=
  match d with
  | [] => [(n, m)]
  | (k, x) :: rest => if String.eqb k n then (k, m) :: rest else (k, x) :: set_member rest n m
  end.

(** __init__.py:75-83: [fields[field.name] = field.clone()] up to the type field *)
Fixpoint probe_members (l : list nat) (tf : nat) (d : list (string * member)) (s : mst) : option (list (string * member)) * mst :=
  match l with
  | [] => (None, s)
  | f :: rest =>
      let n := match nth_error (m_fields s) f with Some (MkF _ _ (Some n) _ _) => n | _ => "" end in
      let '(g, s1) := clone_field f s in
      let d1 := set_member d n (MField g) in
      if Nat.eqb f tf then (Some d1, s1) else probe_members rest tf d1 s1
  end.

(** [type(name, (cls,), fields)] — __init__.py:84, fields.py:1554 *)
Definition subclass_of (base : nat) (d : list (string * member)) (s : mst) : mst :=
  define_class [base] (base :: match nth_error (m_classes s) base with Some k => c_mro k | None => [] end) d s.

(** __init__.py:73-89 [Types.for_field] of a field of a class: the number of the class
    [TypeProbe]; [form] is the class [Form].  [None] is the ValueError. *)
Definition for_field (form tf : nat) (s : mst) : option nat * mst :=
  match nth_error (m_fields s) tf with
  | Some (MkF _ (Some (InClass c)) _ _ _) =>
      match probe_members (fields_of s c) tf [] s with
      | (None, s1) => (None, s1)
      | (Some d, s1) => (Some (length (m_classes s1)), subclass_of form d s1)
      end
  | _ => (None, s)
  end.

(** fields.py:1552-1554 [Form.from_fields] (and 1320-1322 [SubForm.from_fields]) *)
Definition from_fields (base : nat) (fields : list (string * nat)) (s : mst) : nat * mst :=
  (length (m_classes s), subclass_of base (map (fun nf => (fst nf, MField (snd nf))) fields) s).

(** ** Hooks *)

(** What a hook belongs to: a field, possibly inside another, or a form class. *)
Inductive owner := OwnField (f : nat) (up : option owner) | OwnForm (c : nat).

(** fields.py:222-224: the outermost parent *)
Fixpoint climb (o : owner) : owner :=
  match o with
  | OwnField _ (Some p) => climb p
  | _ => o
  end.

(** An argument: a function with its argument specification, or anything else. *)
Inductive harg := HFun (fn : nat) (spec : list string) | HVal (v : val).

Record hookobj := MkHookObj { h_parent : owner; h_target : option val; h_func : option nat; h_spec : list string }.

Inductive hanswer :=
| HReturned (o : owner)                              (* registered *)
| HInvoked (fn : nat) (target : val) (args : list harg)
| HRaised (e : exn).

(** fields.py:212-230 [Hook.__call__]; [form] is [ctx.form] *)
Definition hook_call (form : option val) (args : list harg) (h : hookobj) : hanswer * hookobj :=
  match h_func h, args with
  | None, HFun fn spec :: _ =>
      if list_eq_dec string_dec spec (h_spec h)
      then (HReturned (climb (h_parent h)), MkHookObj (h_parent h) (h_target h) (Some fn) (h_spec h))
      else (HRaised (EType "argspec does not match"), h)
  | f, _ =>
      (match (match h_target h with Some t => Some t | None => form end) with
       | None => HRaised (EAttr "form")
       | Some t => match f with
                   | Some fn => HInvoked fn t args
                   | None => HRaised (EType "'NoneType' object is not callable")
                   end
       end, h)
  end.

(** ** Clones *)

(** A field object with its containers by reference, and its plain attributes. *)
Record cobj := MkCO {
  co_ignores : nat; co_translations : nat; co_tags : nat;
  co_parent : option parent; co_src : option string; co_nullable : val; co_default : val
}.
(** The containers: [ignores] and [tags] as lists, [translations] as a dict. *)
Record cst := MkCS { cs_objs : list cobj; cs_lists : list (list val); cs_dicts : list (list (val * val)) }.

(** fields.py:426-429 [Field.clone]: [copy.copy], then no parent *)
Definition clone (f : nat) (s : cst) : cst :=
  match nth_error (cs_objs s) f with
  | Some o => MkCS (cs_objs s ++ [MkCO (co_ignores o) (co_translations o) (co_tags o) None (co_src o)
                                       (co_nullable o) (co_default o)]) (cs_lists s) (cs_dicts s)
  | None => s
  end.

Inductive cop :=
| OpIgnore (vs : list val)              (* 453-455: ignores.extend *)
| OpTranslate (d : list (val * val))    (* 457-459: translations.update *)
| OpTag (ts : list val)                 (* 464-467: tags.update *)
| OpNullable (v : val)                  (* options(nullable=) 374-375 *)
| OpDefault (v : val)                   (* options(default=) 381-384 *)
| OpSrc (k : option string).

Definition upd_obj (f : nat) (g : cobj -> cobj) (s : cst) : cst :=
  match nth_error (cs_objs s) f with
  | Some o => MkCS (replace_nth f (g o) (cs_objs s)) (cs_lists s) (cs_dicts s)
  | None => s
  end.
Definition upd_list (r : nat) (g : list val -> list val) (s : cst) : cst :=
  match nth_error (cs_lists s) r with
  | Some l => MkCS (cs_objs s) (replace_nth r (g l) (cs_lists s)) (cs_dicts s)
  | None => s
  end.
Definition upd_dict (r : nat) (g : list (val * val) -> list (val * val)) (s : cst) : cst :=
  match nth_error (cs_dicts s) r with
  | Some l => MkCS (cs_objs s) (cs_lists s) (replace_nth r (g l) (cs_dicts s))
  | None => s
  end.
Definition do_cop (f : nat) (o : cop) (s : cst) : cst :=
  match nth_error (cs_objs s) f with
  | None => s
  | Some c =>
      match o with
      | OpIgnore vs => upd_list (co_ignores c) (fun l => l ++ vs) s
      | OpTranslate d => upd_dict (co_translations c) (fun l => dict_update l d) s
      | OpTag ts => upd_list (co_tags c) (fun l => fold_left (fun l t => if py_in t l then l else l ++ [t]) ts l) s
      | OpNullable v => upd_obj f (fun c => MkCO (co_ignores c) (co_translations c) (co_tags c) (co_parent c) (co_src c) v (co_default c)) s
      | OpDefault v => upd_obj f (fun c => MkCO (co_ignores c) (co_translations c) (co_tags c) (co_parent c) (co_src c)
                                              (match v with VNone => VBool true | _ => co_nullable c end) v) s
      | OpSrc k => upd_obj f (fun c => MkCO (co_ignores c) (co_translations c) (co_tags c) (co_parent c) k (co_nullable c) (co_default c)) s
      end
  end.
Fixpoint do_cops (l : list (nat * cop)) (s : cst) : cst :=
  match l with [] => s | (f, o) :: rest => do_cops rest (do_cop f o s) end.

(** What a field's containers hold. *)
Definition ignores_of (s : cst) (f : nat) : list val :=
  match nth_error (cs_objs s) f with Some c => nth (co_ignores c) (cs_lists s) [] | None => [] end.
Definition tags_of (s : cst) (f : nat) : list val :=
  match nth_error (cs_objs s) f with Some c => nth (co_tags c) (cs_lists s) [] | None => [] end.
Definition translations_of (s : cst) (f : nat) : list (val * val) :=
  match nth_error (cs_objs s) f with Some c => nth (co_translations c) (cs_dicts s) [] | None => [] end.
