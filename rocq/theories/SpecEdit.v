(** * SpecEdit: a path as a list of keys (C86), and what an edit leaves behind (C87). *)
From Verif Require Import PyBase PyStr Source Field PathEdit SpecSrc.
Open Scope Z_scope.

(** Everything that can be done to a path *)
Inductive edit :=
| Set_ (i : Z) (k : key) | Del (i : Z) | Ins (i : Z) (k : key)
| Item (i : Z) | Size | Name | Look (op : pathop).
Inductive answer := Done | Key (k : key) | Num (n : nat) | Raised (e : exn) | Whatever.
Definition done (r : res unit) : answer := match r with Ok _ => Done | Exn e => Raised e end.
Definition its_key (r : res key) : answer := match r with Ok k => Key k | Exn e => Raised e end.
Definition do_edit (E : env) (ents : entries_of) (e : edit) (p : path) : path * answer :=
  match e with
  | Set_ i k => let '(p', r) := p_setitem i k p in (p', done r)
  | Del i => let '(p', r) := p_delitem i p in (p', done r)
  | Ins i k => let '(p', r) := p_insert i k p in (p', done r)
  | Item i => (p, its_key (p_getitem i p))
  | Size => (p, Num (p_len p))
  | Name => (p, its_key (p_name p))
  | Look op => (fst (do_read E ents op p), Whatever)
  end.
Fixpoint do_edits (E : env) (ents : entries_of) (l : list edit) (p : path) : path :=
  match l with
  | [] => p
  | e :: rest => do_edits E ents rest (fst (do_edit E ents e p))
  end.
(** The answers, each with the keys after it *)
Fixpoint transcript (E : env) (ents : entries_of) (l : list edit) (p : path) : list (answer * list key) :=
  match l with
  | [] => []
  | e :: rest => let '(p', a) := do_edit E ents e p in (a, p_keys p') :: transcript E ents rest p'
  end.

(** ** What Python's lists do *)

(** [i] denotes the item between [pre] and [post] *)
Definition denotes {A} (i : Z) (pre post : list A) : Prop :=
  i = Z.of_nat (length pre) \/ i = - Z.of_nat (S (length post)).
(** [i] is out of range *)
Definition outside {A} (i : Z) (l : list A) : Prop :=
  Z.of_nat (length l) <= i \/ i < - Z.of_nat (length l).
(** [insert(i)] inserts between [pre] and [post] *)
Definition denotes_gap {A} (i : Z) (pre post : list A) : Prop :=
  (0 <= i /\ i = Z.of_nat (length pre)) \/ (i < 0 /\ i = - Z.of_nat (length post)) \/
  (post = [] /\ Z.of_nat (length pre) < i) \/ (pre = [] /\ i < - Z.of_nat (length post)).
Inductive list_does : edit -> list key -> answer -> list key -> Prop :=
| ld_set i k pre x post : denotes i pre post -> list_does (Set_ i k) (pre ++ x :: post) Done (pre ++ k :: post)
| ld_set_out i k l : outside i l -> list_does (Set_ i k) l (Raised EIndex) l
| ld_del i pre x post : denotes i pre post -> list_does (Del i) (pre ++ x :: post) Done (pre ++ post)
| ld_del_out i l : outside i l -> list_does (Del i) l (Raised EIndex) l
| ld_ins i k pre post : denotes_gap i pre post -> list_does (Ins i k) (pre ++ post) Done (pre ++ k :: post)
| ld_item i pre x post : denotes i pre post -> list_does (Item i) (pre ++ x :: post) (Key x) (pre ++ x :: post)
| ld_item_out i l : outside i l -> list_does (Item i) l (Raised EIndex) l
| ld_size l : list_does Size l (Num (length l)) l
| ld_name pre x : plain_key x -> list_does Name (pre ++ [x]) (Key x) (pre ++ [x])
| ld_name_raw pre v : list_does Name (pre ++ [KRaw v]) (Raised (EAttr "no attribute 'key'")) (pre ++ [KRaw v])
| ld_name_out : list_does Name [] (Raised EIndex) []
| ld_look op l : list_does (Look op) l Whatever l.

(** The transcript is that of a list, as long as the edits are [fair]. *)
Inductive like_list (fair : edit -> list key -> Prop) : list edit -> list key -> list (answer * list key) -> Prop :=
| ll_nil ks : like_list fair [] ks []
| ll_unfair e l ks t : ~ fair e ks -> like_list fair (e :: l) ks t
| ll_step e l ks a ks' t : fair e ks -> list_does e ks a ks' -> like_list fair l ks' t ->
    like_list fair (e :: l) ks ((a, ks') :: t).

Definition any_edit (e : edit) (ks : list key) : Prop := True.
(** Edits that leave the first key alone, except that it may come as the first and
    go as the last; and that do not count back beyond it. *)
Definition leaves_first (e : edit) (ks : list key) : Prop :=
  match e with
  | Set_ i _ => exists pre x post, ks = pre ++ x :: post /\ denotes i pre post /\ (pre <> [] \/ post = [])
  | Del i => exists pre x post, ks = pre ++ x :: post /\ denotes i pre post /\ (pre <> [] \/ post = [])
  | Ins i _ => exists pre post, ks = pre ++ post /\ denotes_gap i pre post /\ (pre <> [] \/ (post = [] /\ i = 0))
  | _ => True
  end.

(** ** C87 *)
(** Edits that leave the last key alone *)
Definition before_last (e : edit) (ks : list key) : Prop :=
  match e with
  | Set_ i _ => exists pre x y post, ks = pre ++ x :: y :: post /\ denotes i pre (y :: post)
  | Del i => exists pre x y post, ks = pre ++ x :: y :: post /\ denotes i pre (y :: post)
  | Ins i _ => exists pre y post, ks = pre ++ y :: post /\ denotes_gap i pre (y :: post)
  | _ => True
  end.
Definition no_look (e : edit) : Prop := match e with Look _ => False | _ => True end.
Inductive all_before_last : list edit -> list key -> Prop :=
| abl_nil ks : all_before_last [] ks
| abl_step e l ks : before_last e ks -> (forall a ks', list_does e ks a ks' -> all_before_last l ks') ->
    all_before_last (e :: l) ks.
(** Reading changes nothing in a plain source; in a union it may open what is there. *)
Definition peeks (src : bsource) (e : edit) : Prop := match src with BPlain _ => True | BUnion _ => no_look e end.
