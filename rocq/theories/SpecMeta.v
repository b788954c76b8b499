(** * Specifications for classes, type tables, hooks and clones. *)
From Verif Require Import PyBase PyStr Meta.

(** The states a program can reach: fields are created or copied, and classes are defined with the
    classes and fields there are. *)
Inductive built : mst -> Prop :=
| built_nil : built (MkS [] [] 0)
| built_field : forall s src choices, built s -> built (snd (new_field src choices s))
| built_clone : forall s f, built s -> built (snd (clone_field f s))
| built_class : forall s bases mro dict, built s ->
    (forall b, In b bases -> (b < length (m_classes s))%nat) ->
    (forall b, In b mro -> (b < length (m_classes s))%nat) ->
    (forall n f, In (n, MField f) dict -> (f < length (m_fields s))%nat) ->
    built (define_class bases mro dict s).

(** ** Field order *)

(** The nearest base whose attribute is a field. *)
Definition nearest (s : mst) (mro : list nat) (n : string) (g : nat) : Prop :=
  exists pre b post, mro = pre ++ b :: post /\ class_attr s b n = Some (MField g) /\
    forall b' g', In b' pre -> class_attr s b' n <> Some (MField g').

(** A line of classes, each the only base of the next: what each class body says of
    each name it mentions, in the order written. *)
Inductive decl := DField | DOther.
Definition body := list (string * decl).

(** Writing a body: its fields are created in order. *)
Fixpoint declare (b : body) (s : mst) : list (string * member) * mst :=
  match b with
  | [] => ([], s)
  | (n, DOther) :: rest => let '(d, s1) := declare rest s in ((n, MOther) :: d, s1)
  | (n, DField) :: rest =>
      let '(f, s1) := new_field None None s in
      let '(d, s2) := declare rest s1 in ((n, MField f) :: d, s2)
  end.
Definition derive (b : body) (s : mst) : mst :=
  let '(d, s1) := declare b s in
  let k := length (m_classes s1) in
  define_class (match k with O => [] | S j => [j] end) (rev (seq 0 k)) d s1.
Definition line (bodies : list body) : mst := fold_left (fun s b => derive b s) bodies (MkS [] [] 0).

(** The expected names: in order of first declaration, those still fields. *)
Definition field_names (b : body) : list string :=
  flat_map (fun nd => match snd nd with DField => [fst nd] | DOther => [] end) b.
Definition declared (bodies : list body) : list string := flat_map field_names bodies.
Fixpoint firsts (l seen : list string) : list string :=
  match l with
  | [] => []
  | n :: rest => if in_dec string_dec n seen then firsts rest seen else n :: firsts rest (n :: seen)
  end.
Fixpoint last_said (bodies : list body) (n : string) (sofar : option decl) : option decl :=
  match bodies with
  | [] => sofar
  | b :: rest => last_said rest n (match alookup b n with Some d => Some d | None => sofar end)
  end.
Definition still_field (bodies : list body) (n : string) : bool :=
  match last_said bodies n None with Some DField => true | _ => false end.
Definition expected_names (bodies : list body) : list string :=
  filter (still_field bodies) (firsts (declared bodies) []).

Definition name_of (s : mst) (f : nat) : option string :=
  match nth_error (m_fields s) f with Some o => fo_name o | None => None end.

(** ** Type tables *)

(** The class or one below it. *)
Inductive descends (s : mst) : nat -> nat -> Prop :=
| desc_refl : forall c, descends s c c
| desc_step : forall c d e k, nth_error (m_classes s) d = Some k -> In c (c_bases k) -> descends s d e -> descends s c e.
(** The class's type field lists the identity. *)
Definition lists (s : mst) (name : string) (c : nat) (v : string) : Prop :=
  exists f o l, class_attr s c name = Some (MField f) /\ nth_error (m_fields s) f = Some o /\
    fo_choices o = Some l /\ In v l.
(** Classes are defined after their bases. *)
Definition bases_first (s : mst) : Prop :=
  forall c k b, nth_error (m_classes s) c = Some k -> In b (c_bases k) -> (b < c)%nat.

(** ** Hooks *)
Definition registers (h : hookobj) (args : list harg) : Prop :=
  exists fn rest, args = HFun fn (h_spec h) :: rest.
Fixpoint hook_calls (form : option val) (calls : list (list harg)) (h : hookobj) : list hanswer * hookobj :=
  match calls with
  | [] => ([], h)
  | args :: rest =>
      let '(a, h1) := hook_call form args h in
      let '(l, h2) := hook_calls form rest h1 in (a :: l, h2)
  end.
(** The outermost field around a field. *)
Inductive outermost : owner -> nat -> Prop :=
| outer_here : forall f, outermost (OwnField f None) f
| outer_up : forall f p g, outermost p g -> outermost (OwnField f (Some p)) g.
(** The form class a field, or the field around it, is in. *)
Inductive class_around : owner -> nat -> Prop :=
| class_self : forall c, class_around (OwnForm c) c
| class_up : forall f p c, class_around p c -> class_around (OwnField f (Some p)) c.

(** [x] comes before [y]. *)
Definition before {A} (x y : A) (l : list A) : Prop := exists l1 l2 l3, l = l1 ++ x :: l2 ++ y :: l3.

(** ** Clones: two objects with the same containers. *)
Definition aliases (s : cst) (f g : nat) : Prop :=
  exists a b, nth_error (cs_objs s) f = Some a /\ nth_error (cs_objs s) g = Some b /\
    co_ignores a = co_ignores b /\ co_translations a = co_translations b /\ co_tags a = co_tags b.
(** The attributes that are not containers. *)
Definition plain_part (s : cst) (f : nat) : option (option parent * option string * val * val) :=
  match nth_error (cs_objs s) f with
  | Some o => Some (co_parent o, co_src o, co_nullable o, co_default o)
  | None => None
  end.

(** ** Classes made on the fly *)
(** What a field shows: its name, what it is read from, its choices. *)
Definition shows (s : mst) (f : nat) : option (option string * option string * option (list string)) :=
  option_map (fun o => (fo_name o, fo_src o, fo_choices o)) (nth_error (m_fields s) f).
(** A class without fields and without fields in its bases, like [Form] itself. *)
Definition fieldless (s : mst) (c : nat) : Prop :=
  exists k, nth_error (m_classes s) c = Some k /\
    forall b n g, In b (c :: c_mro k) -> class_attr s b n <> Some (MField g).
(** A field no class has registered. *)
Definition unregistered (s : mst) (f : nat) : Prop :=
  exists o, nth_error (m_fields s) f = Some o /\ fo_parent o = None.
(** Nothing but the new class and the new fields differs. *)
Definition only_adds (s s' : mst) : Prop :=
  (forall c, (c < length (m_classes s))%nat -> nth_error (m_classes s') c = nth_error (m_classes s) c) /\
  (forall f, (f < length (m_fields s))%nat -> nth_error (m_fields s') f = nth_error (m_fields s) f).
