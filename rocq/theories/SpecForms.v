(** * Specifications for form objects: attributes as a map, the leaves of a form,
    and the lines of an error text. *)
From Verif Require Import PyBase PyStr Source Field Context Fields Forms.

(** ** Attributes *)

(** An attribute read, assignment or deletion on a form. *)
Inductive aop :=
| AGet (id : nat) (a : string)
| ASet (id : nat) (a : string) (v : val)
| ADel (id : nat) (a : string).

Definition aop_form (o : aop) : nat := match o with AGet i _ | ASet i _ _ | ADel i _ => i end.
Definition aop_name (o : aop) : string := match o with AGet _ a | ASet _ a _ | ADel _ a => a end.

(** What the code does; a read answers a value. *)
Definition do_aop (W : world) (fuel : nat) (o : aop) : M (option val) :=
  match o with
  | AGet i a => v <- form_getattr W (field_map W fuel) i a; ret (Some v)
  | ASet i a v => form_setattr i a v;; ret None
  | ADel i a => form_delattr i a;; ret None
  end.
Fixpoint do_aops (W : world) (fuel : nat) (l : list aop) : M (list (option val)) :=
  match l with
  | [] => ret []
  | o :: rest => x <- do_aop W fuel o; xs <- do_aops W fuel rest; ret (x :: xs)
  end.

(** The specification: every form is a finite map from keys to values. *)
Definition heap_map := nat -> val -> option val.
Definition is_key (a : string) (k : val) : bool :=
  match k with VStr b => String.eqb a b | _ => false end.
Definition put (m : heap_map) (i : nat) (a : string) (o : option val) : heap_map :=
  fun j k => if Nat.eqb i j && is_key a k then o else m j k.
Definition spec_aop (o : aop) (m : heap_map) : heap_map :=
  match o with
  | AGet _ _ => m
  | ASet i a v => put m i a (Some v)
  | ADel i a => put m i a None
  end.
Definition spec_answer (o : aop) (m : heap_map) : option val :=
  match o with AGet i a => m i (VStr a) | _ => None end.
Fixpoint spec_aops (l : list aop) (m : heap_map) : list (option val) * heap_map :=
  match l with
  | [] => ([], m)
  | o :: rest => let '(xs, m') := spec_aops rest (spec_aop o m) in (spec_answer o m :: xs, m')
  end.
(** Every read is of an attribute that has an entry at that time. *)
Fixpoint reads_present (l : list aop) (m : heap_map) : Prop :=
  match l with
  | [] => True
  | o :: rest =>
      match o with AGet i a => m i (VStr a) <> None | _ => True end /\ reads_present rest (spec_aop o m)
  end.

(** The map of a state, and a state whose forms have the attribute's field. *)
Definition map_of (s : st) : heap_map := fun i k => dict_get (entries s i) k.
Definition addressed (s : st) (o : aop) : Prop :=
  exists t l f, nth_error (forms s) (aop_form o) = Some (t, l) /\ In f (ft_fields t) /\
    f_name f = Some (aop_name o).

(** A dict: no key equals a later one. *)
Fixpoint distinct_keys (l : list (val * val)) : Prop :=
  match l with
  | [] => True
  | (k, _) :: rest => (forall kv, In kv rest -> py_eq k (fst kv) = false) /\ distinct_keys rest
  end.

(** ** Leaves *)

(** [leaf s id at fields v]: following entries that are forms from [id] through
    [fields], the last of which has the entry [v], neither a form nor a sentinel;
    [at] are the positions of the fields in the field lists of their classes. *)
Inductive leaf (s : st) : nat -> list nat -> list field -> val -> Prop :=
| leaf_here : forall id t l i f v,
    nth_error (forms s) id = Some (t, l) -> nth_error (ft_fields t) i = Some f ->
    dict_get l (VStr (fname f)) = Some v ->
    (forall c, v <> VConst c) -> (forall j, v <> VForm j) ->
    leaf s id [i] [f] v
| leaf_in : forall id t l i f j at_ fs v,
    nth_error (forms s) id = Some (t, l) -> nth_error (ft_fields t) i = Some f ->
    dict_get l (VStr (fname f)) = Some (VForm j) ->
    leaf s j at_ fs v ->
    leaf s id (i :: at_) (f :: fs) v.

(** Field order: at the first difference, the earlier field. *)
Inductive sooner : list nat -> list nat -> Prop :=
| sooner_head : forall i j a b, (i < j)%nat -> sooner (i :: a) (j :: b)
| sooner_tail : forall i a b, sooner a b -> sooner (i :: a) (i :: b).

(** [deep s id n]: forms nest at most [n] deep below [id]. *)
Inductive deep (s : st) : nat -> nat -> Prop :=
| deep_intro : forall id n,
    (forall t l f j, nth_error (forms s) id = Some (t, l) -> In f (ft_fields t) ->
       dict_get l (VStr (fname f)) = Some (VForm j) -> deep s j n) ->
    deep s id (S n).

(** ** Filtering *)

(** Every reference is to an existing form. *)
Definition closed_heap (s : st) : Prop :=
  forall id t l k j, nth_error (forms s) id = Some (t, l) -> dict_get l k = Some (VForm j) ->
    (j < length (forms s))%nat.
(** No class has two fields of one name. *)
Definition distinct_names (s : st) : Prop :=
  forall id t l, nth_error (forms s) id = Some (t, l) -> NoDup (map fname (ft_fields t)).
(** A value that holds no form. *)
Definition formless (v : val) : Prop :=
  match v with
  | VForm _ => False
  | VList l | VTuple l => forall j, ~ In (VForm j) l
  | _ => True
  end.
(** [munge] turns tuples into lists. *)
Definition as_list (v : val) : val := match v with VTuple l => VList l | _ => v end.

(** A field with one of the tags (or, inverted, none). *)
Definition tagged (tags : list string) (f : field) : Prop := exists t, In t tags /\ In t (f_tags f).
Definition wanted (tags : list string) (inv : bool) (f : field) : Prop :=
  if inv then ~ tagged tags f else tagged tags f.

(** What operations that only create forms leave alone. *)
Definition preserved (s s' : st) : Prop :=
  stk s' = stk s /\ paths s' = paths s /\ errs s' = errs s /\
  (length (forms s) <= length (forms s'))%nat /\
  (forall i, (i < length (forms s))%nat -> nth_error (forms s') i = nth_error (forms s) i).

(** ** Text *)

(** The lines of a text. *)
Definition text_lines (s : string) : list string := split_on newline s.
Definition one_line (s : string) : Prop := ~ In newline (chars s).
