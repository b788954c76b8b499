(** * Forms: pilo/fields.py — form objects outside mapping: construction, [has],
    [flatten], [munge], [filter], [copy], and the text of [FormError].

    Simplifications: class attributes other than fields (methods) are not visible to
    [getattr]; the function given to [munge] is a total function of the field and the
    value; a generator is consumed at once; Python's recursion limit is fuel. *)
From Verif Require Import PyBase PyStr Source Field Context Fields.

Section Forms.
Variable W : world.
Variable rec : field -> val -> M val.

(** fields.py:1561-1567: the source built from the first positional argument. *)
Definition first_source (t : formty) (a : srcarg) : source :=
  match a with
  | ASrc s => s
  | AVal (VList _ as v) | AVal (VTuple _ as v) => native v (seq_aliases 0 (ft_fields t))
  | AVal v => native v []
  | ANone => native VNone []
  end.

(** fields.py:1569-1570: keyword arguments as a dict *)
Definition kw_dict (kw : list (string * val)) : list (val * val) :=
  map (fun kv => (VStr (fst kv), snd kv)) kw.

(** fields.py:1558-1571: the source, if any *)
Definition init_source (t : formty) (first : option srcarg) (kw : list (string * val)) : option source :=
  match first, kw with
  | Some a, _ => Some (first_source t a)
  | None, [] => None
  | None, _ => Some (native (VDict (kw_dict kw)) [])
  end.

(** fields.py:1572 [dict.__init__(self, *args, **kwargs)]: what is left of the
    arguments; [more] is the content of a second positional argument. *)
Definition init_entries (first : option srcarg) (more : list (val * val)) (kw : list (string * val)) :
  list (val * val) :=
  match first with
  | Some _ => dict_update (dict_update [] more) (kw_dict kw)
  | None => []
  end.

(** fields.py:1556-1576 [Form.__init__] *)
Definition form_init (t : formty) (first : option srcarg) (more : list (val * val))
           (kw : list (string * val)) : M nat :=
  id <- new_form t;
  set_entries id (init_entries first more kw);;
  match init_source t first kw with
  | None => ret id
  | Some src =>
      es <- form_map W rec id (ASrc src) [] false UIgnore Collect;
      match es with
      | [] => ret id
      | _ => raise (EForm es)
      end
  end.

(** ** [has] *)

(** [LookupError] — fields.py:1688 *)
Definition is_lookup (e : exn) : bool := match e with EKey | EIndex => true | _ => false end.

(** fields.py:1686-1689 with a field *)
Definition has_field (id : nat) (f : field) : M bool :=
  catch (field_get W rec f id)
        (fun r => match r with
                  | Ok v => ret (negb (is_None v))
                  | Exn e => if is_lookup e then ret false else raise e
                  end).

(** fields.py:1677-1689 with a name.  [getattr(self, name, None)] is the *value* of
    the field, or a method; only methods have [__get__]. *)
Definition is_method (v : val) : bool := match v with VObj c _ => String.prefix "method " c | _ => false end.
Definition has_name (id : nat) (a : string) : M bool :=
  l <- form_entries id;
  if dict_has l (VStr a) then ret true
  else
    catch (form_getattr W rec id a)
          (fun r => match r with
                    | Ok VNone => ret false
                    | Ok v => if is_method v then ret true else raise (EAttr "__get__")
                    | Exn (EAttr _) => ret false
                    | Exn e => raise e
                    end).
End Forms.

(** ** [flatten] *)

(** fields.py:1695-1710: the loop over the fields, below the fields [pre] *)
Fixpoint flat_fields (sub : list field -> nat -> res (list (list field * val))) (l : list (val * val))
         (pre : list field) (fs : list field) : res (list (list field * val)) :=
  match fs with
  | [] => Ok []
  | f :: rest =>
      match (match dict_get l (VStr (fname f)) with
             | None => Ok []
             | Some v =>
                 if ignored v then Ok []
                 else match v with
                      | VForm j => sub (pre ++ [f]) j
                      | _ => Ok [(pre ++ [f], v)]
                      end
             end) with
      | Exn e => Exn e
      | Ok here => match flat_fields sub l pre rest with
                   | Exn e => Exn e
                   | Ok there => Ok (here ++ there)
                   end
      end
  end.

(** fields.py:1691-1712 [Form.flatten]; [pre] is the variable [path] *)
Fixpoint flat (n : nat) (s : st) (pre : list field) (id : nat) : res (list (list field * val)) :=
  match n with
  | O => Exn ERecursion
  | S n' =>
      match nth_error (forms s) id with
      | None => Ok []
      | Some (t, l) => flat_fields (flat n' s) l pre (ft_fields t)
      end
  end.
Definition form_flatten (n : nat) (id : nat) : M (list (list field * val)) :=
  fun s => (flat n s [] id, s).

(** ** [munge] and [filter] *)

(** fields.py:1726-1731 *)
Fixpoint munge_items (sub : nat -> M nat) (l : list val) : M (list val) :=
  match l with
  | [] => ret []
  | v :: rest =>
      w <- (match v with VForm j => d <- sub j; ret (VForm d) | _ => ret v end);
      ws <- munge_items sub rest;
      ret (w :: ws)
  end.

(** fields.py:1723-1732 *)
Definition munge_value (sub : nat -> M nat) (v : val) : M val :=
  match v with
  | VForm j => d <- sub j; ret (VForm d)
  | VList l | VTuple l => ws <- munge_items sub l; ret (VList ws)
  | _ => ret v
  end.

(** fields.py:1716-1733: the loop; [id] is [self], [d] the new form *)
Fixpoint munge_fields (sub : nat -> M nat) (g : field -> val -> val) (id d : nat) (fs : list field) : M unit :=
  match fs with
  | [] => ret tt
  | f :: rest =>
      l <- form_entries id;
      let v := g f (match dict_get l (VStr (fname f)) with Some v => v | None => NONEv end) in
      (if is_NONE v then ret tt
       else w <- munge_value sub v; form_set d (VStr (fname f)) w);;
      munge_fields sub g id d rest
  end.

(** fields.py:1714-1734 [Form.munge] *)
Fixpoint form_munge (n : nat) (g : field -> val -> val) (id : nat) : M nat :=
  match n with
  | O => raise ERecursion
  | S n' =>
      t <- form_type id;
      d <- new_form t;
      munge_fields (form_munge n' g) g id d (ft_fields t);;
      ret d
  end.

(** fields.py:461-462 [Field.has_tag] *)
Definition field_has_tag (f : field) (tag : string) : bool := existsb (String.eqb tag) (f_tags f).

(** fields.py:1739-1743 *)
Definition tag_filter (tags : list string) (inv : bool) (f : field) (v : val) : val :=
  let hit := existsb (field_has_tag f) tags in
  if (if inv then negb hit else hit) then v else NONEv.

(** fields.py:1736-1745 [Form.filter] *)
Definition form_filter (n : nat) (tags : list string) (inv : bool) (id : nat) : M nat :=
  form_munge n (tag_filter tags inv) id.

(** ** [copy] *)

(** fields.py:1749-1750 *)
Fixpoint copy_items (d : nat) (l : list (val * val)) : M unit :=
  match l with
  | [] => ret tt
  | (k, v) :: rest => form_set d k v;; copy_items d rest
  end.

(** fields.py:1747-1751 [Form.copy] *)
Definition form_copy (id : nat) : M nat :=
  t <- form_type id;
  d <- new_form t;
  l <- form_entries id;
  copy_items d l;;
  ret d.

(** ** [FormError.message] *)

(** [sep.join(l)] *)
Fixpoint str_join (sep : string) (l : list string) : string :=
  match l with
  | [] => EmptyString
  | [a] => a
  | a :: rest => (a ++ sep ++ str_join sep rest)%string
  end.

Definition bullet : string := String newline "* ".

(** fields.py:91-97 [FormError.message]; an error is its class name and its text. *)
Definition form_error_message (errors : list (string * string)) : string :=
  (bullet ++ str_join bullet (map (fun e => fst e ++ ": " ++ snd e) errors) ++ String newline "")%string.
