(** * PathEdit: the editing methods of paths — source/__init__.py:141-165,
    union.py:47-64, mount.py:78-118.  The values assigned are integers and strings,
    which become new parts (simplification: assigning a [PathPart], which would share
    its cached value, is not modelled; nor are slices). *)
From Verif Require Import PyBase PyStr Source.
Open Scope Z_scope.

(** Python's list index: negative ones count from the end. *)
Definition list_index (n : nat) (i : Z) : option nat :=
  let j := if i <? 0 then Z.of_nat n + i else i in
  if (j <? 0) || (Z.of_nat n <=? j) then None else Some (Z.to_nat j).
(** The same for [list.insert], which clamps. *)
Definition insert_index (n : nat) (i : Z) : nat :=
  let j := if i <? 0 then Z.of_nat n + i else i in
  Nat.min n (Z.to_nat j).

(** [list.__setitem__], [list.__delitem__], [list.insert] *)
Definition list_setitem {A} (i : Z) (x : A) (l : list A) : res (list A) :=
  match list_index (length l) i with
  | Some n => Ok (firstn n l ++ x :: skipn (S n) l)
  | None => Exn EIndex
  end.
Definition list_delitem {A} (i : Z) (l : list A) : res (list A) :=
  match list_index (length l) i with
  | Some n => Ok (firstn n l ++ skipn (S n) l)
  | None => Exn EIndex
  end.
Definition list_insert {A} (i : Z) (x : A) (l : list A) : list A :=
  firstn (insert_index (length l) i) l ++ x :: skipn (insert_index (length l) i) l.

(** source/__init__.py:151-154 [Path.__setitem__], 156-157 [__delitem__],
    159-162 [insert] *)
Definition with_parts (p : ppath) (r : res (list part)) : ppath * res unit :=
  match r with
  | Ok ps => (Source.PPath (pp_src p) (pp_root p) ps, Ok tt)
  | Exn e => (p, Exn e)
  end.
Definition pp_setitem (i : Z) (k : key) (p : ppath) : ppath * res unit :=
  with_parts p (list_setitem i (Part k None) (pp_parts p)).
Definition pp_delitem (i : Z) (p : ppath) : ppath * res unit :=
  with_parts p (list_delitem i (pp_parts p)).
Definition pp_insert (i : Z) (k : key) (p : ppath) : ppath * res unit :=
  with_parts p (Ok (list_insert i (Part k None) (pp_parts p))).

(** union.py:47-64: the union's own parts first, then those of every sub-path. *)
Fixpoint each_path (f : ppath -> ppath * res unit) (ps : list ppath) : list ppath * res unit :=
  match ps with
  | [] => ([], Ok tt)
  | p :: rest =>
      let '(p', r) := f p in
      match r with
      | Exn e => (p' :: rest, Exn e)
      | Ok _ => let '(rest', r) := each_path f rest in (p' :: rest', r)
      end
  end.
Definition up_edit (parts : res (list part)) (f : ppath -> ppath * res unit) (u : upath)
  : upath * res unit :=
  match parts with
  | Exn e => (u, Exn e)
  | Ok ps => let '(paths', r) := each_path f (up_paths u) in
             (UPath (up_src u) (up_root u) ps paths', r)
  end.
Definition up_setitem (i : Z) (k : key) (u : upath) : upath * res unit :=
  up_edit (list_setitem i (Part k None) (up_parts u)) (pp_setitem i k) u.
Definition up_delitem (i : Z) (u : upath) : upath * res unit :=
  up_edit (list_delitem i (up_parts u)) (pp_delitem i) u.
Definition up_insert (i : Z) (k : key) (u : upath) : upath * res unit :=
  up_edit (Ok (list_insert i (Part k None) (up_parts u))) (pp_insert i k) u.

Definition bp_setitem (i : Z) (k : key) : bpath -> bpath * res unit :=
  on_bp (pp_setitem i k) (up_setitem i k).
Definition bp_delitem (i : Z) : bpath -> bpath * res unit := on_bp (pp_delitem i) (up_delitem i).
Definition bp_insert (i : Z) (k : key) : bpath -> bpath * res unit :=
  on_bp (pp_insert i k) (up_insert i k).

(** mount.py:86-94, 96-108, 110-118.  [from_start] is the index after
    "if index < 0: index = len(self) + index", which may still be negative. *)
Definition from_start (i : Z) (p : path) : Z :=
  if i <? 0 then Z.of_nat (length (p_keys p)) + i else i.
Definition p_setitem (i : Z) (k : key) (p : path) : path * res unit :=
  match p with
  | PBase b => let '(b', r) := bp_setitem i k b in (PBase b', r)
  | PMount sel dne paths =>
      let j := from_start i p in
      if j =? 0 then (PMount (Some k) dne paths, Ok tt)
      else match sel with
           | None => (p, Exn (EType "'NoneType' object does not support item assignment"))
           | Some m => on_mount (bp_setitem (j - 1) k) (pp_setitem (j - 1) k) m dne paths
           end
  end.
Definition p_delitem (i : Z) (p : path) : path * res unit :=
  match p with
  | PBase b => let '(b', r) := bp_delitem i b in (PBase b', r)
  | PMount None _ _ => (p, Exn EIndex)
  | PMount (Some m) dne paths =>
      let j := from_start i p in
      if j =? 0 then
        match p_keys p with
        | _ :: _ :: _ => (p, Exn (EType "Cannot delete mount point"))
        | _ => (PMount None dne paths, Ok tt)
        end
      else on_mount (bp_delitem (j - 1)) (pp_delitem (j - 1)) m dne paths
  end.
Definition p_insert (i : Z) (k : key) (p : path) : path * res unit :=
  match p with
  | PBase b => let '(b', r) := bp_insert i k b in (PBase b', r)
  | PMount sel dne paths =>
      let j := from_start i p in
      if j =? 0 then (PMount (Some k) dne paths, Ok tt)
      else match sel with
           | None => (p, Exn (EAttr "'NoneType' object has no attribute 'insert'"))
           | Some m => on_mount (bp_insert (j - 1) k) (pp_insert (j - 1) k) m dne paths
           end
  end.

(** source/__init__.py:143-147, mount.py:78-82: [__getitem__] (its key) and [__len__] *)
Definition p_getitem (i : Z) (p : path) : res key :=
  match py_index (p_keys p) i with Some k => Ok k | None => Exn EIndex end.
Definition p_len (p : path) : nat := length (p_keys p).
(** source/__init__.py:120-122, mount.py:45-47 [name]: a raw part has no [key]. *)
Definition p_name (p : path) : res key :=
  match p_getitem (-1) p with
  | Ok (KRaw _) => Exn (EAttr "no attribute 'key'")
  | r => r
  end.
