(** * SpecSrc: specifications for the source theorems (C07-C15). *)
From Verif Require Import PyBase PyStr Source Field.

(** ** C07: driving a path *)

Inductive pathcmd := Down (k : key) | Up | Read (op : pathop).
Inductive obs :=
| ObsUnit (r : res unit) | ObsVal (r : res val) | ObsBool (r : res bool)
| ObsNat (r : res nat) | ObsView (r : res view).

Definition do_read (E : env) (ents : entries_of) (op : pathop) (p : path) : path * obs :=
  match op with
  | OpValue => let '(p', r) := p_value E ents p in (p', ObsVal r)
  | OpExists => let '(p', r) := p_exists E ents p in (p', ObsBool r)
  | OpIsNull => let '(p', r) := p_is_null E ents p in (p', ObsBool r)
  | OpPrimitive t => let '(p', r) := p_primitive E ents t p in (p', ObsVal r)
  | OpSequence => let '(p', r) := p_sequence E ents p in (p', ObsNat r)
  | OpMapping => let '(p', r) := p_mapping E ents p in (p', ObsView r)
  end.
Definition do_cmd (E : env) (ents : entries_of) (c : pathcmd) (p : path) : path * obs :=
  match c with
  | Down k => (p_append k p, ObsUnit (Ok tt))
  | Up => let '(p', r) := p_pop p in (p', ObsUnit r)
  | Read op => do_read E ents op p
  end.
Fixpoint drive (E : env) (ents : entries_of) (l : list pathcmd) (p : path) : list obs :=
  match l with
  | [] => []
  | c :: rest => let '(p', o) := do_cmd E ents c p in o :: drive E ents rest p'
  end.

(** A path nobody has read yet, at the given keys. *)
Definition untouched (src : psource) (root : val) (ks : list key) : path :=
  PBase (BP (Source.PPath src root (map (fun k => Part k None) ks))).

(** What the same commands should observe: every read is made on a path nobody has
    read, standing at the keys reached so far. *)
Fixpoint afresh (E : env) (ents : entries_of) (src : psource) (root : val)
         (l : list pathcmd) (ks : list key) : list obs :=
  match l with
  | [] => []
  | Down k :: rest => ObsUnit (Ok tt) :: afresh E ents src root rest (ks ++ [k])
  | Up :: rest =>
      ObsUnit (match ks with [] => Exn EIndex | _ => Ok tt end)
        :: afresh E ents src root rest (removelast ks)
  | Read op :: rest =>
      snd (do_read E ents op (untouched src root ks)) :: afresh E ents src root rest ks
  end.

(** String and integer keys (the only ones a path part can hold a value for). *)
Definition plain_key (k : key) : Prop := match k with KRaw _ => False | _ => True end.
Definition plain_cmd (c : pathcmd) : Prop := match c with Down k => plain_key k | _ => True end.

(** No read goes through a location that is missing: all proper prefixes of the keys
    read exist. *)
Definition value_at (E : env) (ents : entries_of) (src : psource) (root : val) (ks : list key)
  : res val := snd (p_value E ents (untouched src root ks)).
Definition above_exist (E : env) (ents : entries_of) (src : psource) (root : val)
           (ks : list key) : Prop :=
  forall pre k post, ks = pre ++ k :: post -> value_at E ents src root pre <> Ok (VConst NONE).
Fixpoint reads_below_existing (E : env) (ents : entries_of) (src : psource) (root : val)
         (l : list pathcmd) (ks : list key) : Prop :=
  match l with
  | [] => True
  | Down k :: rest => reads_below_existing E ents src root rest (ks ++ [k])
  | Up :: rest => reads_below_existing E ents src root rest (removelast ks)
  | Read _ :: rest =>
      above_exist E ents src root ks /\ reads_below_existing E ents src root rest ks
  end.

(** JSON values *)
Fixpoint json_val (v : val) : bool :=
  match v with
  | VNone | VBool _ | VInt _ | VFloat _ | VStr _ => true
  | VList l => forallb json_val l
  | VDict l => forallb (fun kv => match fst kv with VStr _ => json_val (snd kv) | _ => false end) l
  | _ => false
  end.

(** A configuration that can be read: the section asked for is there, or none is asked for and
    the defaults are a dict; the defaults hold JSON values only. *)
Definition config_given (cfg : config) (sec : option string) (d : val) : Prop :=
  json_val d = true /\
  match sec with
  | Some s => s <> "" /\ alookup cfg s <> None
  | None => exists l, d = VDict l
  end.
(** Where mapping starts: at the section, or at the whole configuration *)
Definition config_start (cfg : config) (sec : option string) (d : val) : val :=
  match sec with
  | Some s => VCfgSec (match alookup cfg s with Some opts => opts | None => [] end) d
  | None => VCfgRoot cfg d
  end.

(** The value at a location of a JSON document: one step down a key without dots *)
Definition json_step (v : val) (k : key) : option val :=
  match v, k with
  | VDict l, _ => dict_get l (val_of_key k)
  | VList l, KInt i => py_index l i
  | VStr s, KInt i => option_map (fun c => VStr (String c "")) (py_index (chars s) i)
  | _, _ => None
  end.
(** all the steps of a list of keys; a dotted key is several *)
Definition key_steps (k : key) : list key :=
  match k with KStr s => map KStr (split_on dot s) | _ => [k] end.
Fixpoint json_steps (v : val) (ks : list key) : option val :=
  match ks with
  | [] => Some v
  | k :: rest => match json_step v k with Some w => json_steps w rest | None => None end
  end.
Definition json_at (v : val) (ks : list key) : option val := json_steps v (flat_map key_steps ks).

(** ** C09: path text *)
Definition free_of (c : ascii) (s : string) : Prop := ~ In c (chars s).
(** A key whose text cannot be mistaken: not empty, no '.', no '[', not an integer. *)
Definition clear_key (k : key) : Prop :=
  match k with
  | KStr s => s <> "" /\ free_of "." s /\ free_of "[" s /\ forall z, s <> print_int z
  | KInt _ => True
  | KRaw _ => False
  end.

(** The text of a path: its first key, then [.name] for each name and the index in brackets for
    each index ... *)
Inductive spelled_rest : list key -> string -> Prop :=
| sr_nil : spelled_rest [] ""
| sr_name s ks t : spelled_rest ks t -> spelled_rest (KStr s :: ks) ("." ++ s ++ t)
| sr_index z ks t : spelled_rest ks t -> spelled_rest (KInt z :: ks) ("[" ++ print_int z ++ "]" ++ t).
Inductive spelled (E : env) : list key -> string -> Prop :=
| sp_none : spelled E [] ""
| sp_name s ks t : spelled_rest ks t -> spelled E (KStr s :: ks) (s ++ t)
| sp_index z ks t : spelled_rest ks t -> spelled E (KInt z :: ks) (print_int z ++ t)
| sp_other v ks t : spelled_rest ks t -> spelled E (KRaw v :: ks) (e_str E v ++ t).
(** ... after the location of the source and the section of a configuration, if there are any. *)
Inductive lead : option string -> string -> string -> string -> Prop :=
| ld_none l r : lead None l r ""
| ld_empty l r : lead (Some "") l r ""
| ld_some s l r : s <> "" -> lead (Some s) l r (l ++ s ++ r ++ ":").
Inductive leading : psource -> string -> Prop :=
| lg_default d al ig loc x : lead loc "" "" x -> leading (SDefault d al ig loc) x
| lg_json d st loc x : lead loc "" "" x -> leading (SJson d st loc) x
| lg_config c sec df loc x y : lead loc "" "" x -> lead sec "[" "]" y -> leading (SConfig c sec df loc) (x ++ y).

(** ** C10: native lookup *)

(** [has_item E ents c k v]: [c[k]] is [v] *)
Inductive has_item (E : env) (ents : entries_of) : val -> key -> val -> Prop :=
| item_dict l k v : dict_get l (val_of_key k) = Some v -> has_item E ents (VDict l) k v
| item_form i k v : dict_get (ents i) (val_of_key k) = Some v -> has_item E ents (VForm i) k v
| item_list l i v : nth_error l i = Some v -> has_item E ents (VList l) (KInt (Z.of_nat i)) v
| item_list_end l i v : nth_error (rev l) i = Some v ->
    has_item E ents (VList l) (KInt (- Z.of_nat i - 1)) v
| item_tuple l i v : nth_error l i = Some v -> has_item E ents (VTuple l) (KInt (Z.of_nat i)) v
| item_tuple_end l i v : nth_error (rev l) i = Some v ->
    has_item E ents (VTuple l) (KInt (- Z.of_nat i - 1)) v
| item_str s i c : nth_error (chars s) i = Some c ->
    has_item E ents (VStr s) (KInt (Z.of_nat i)) (VStr (String c ""))
| item_str_end s i c : nth_error (rev (chars s)) i = Some c ->
    has_item E ents (VStr s) (KInt (- Z.of_nat i - 1)) (VStr (String c ""))
| item_obj cls i k v : e_item E (VObj cls i) k = Ok v -> has_item E ents (VObj cls i) k v.

(** Native data: a set [P] of ordinary values (no pilo sentinel or pilo container)
    closed under taking items and attributes; an object's [__getitem__] fails only in
    the ways a lookup fails. *)
Definition ordinary (c : val) : Prop :=
  match c with
  | VConst _ | VJoin _ | VUMap _ | VUSeq _ | VCfgRoot _ _ | VCfgSec _ _ => False
  | _ => True
  end.
Record native_data (E : env) (ents : entries_of) (P : val -> Prop) : Prop := {
  nd_ordinary : forall c, P c -> ordinary c;
  nd_item : forall c k v, P c -> has_item E ents c k v -> P v;
  nd_attr : forall c s v, P c -> e_attr E c s = Some v -> P v;
  nd_fail : forall cls i k e, P (VObj cls i) -> e_item E (VObj cls i) k = Exn e ->
            is_lookup_or_type e = true
}.

(** One step: the item, else (when the path has a single key) the item under the
    alias, else the attribute. *)
Inductive one_step (E : env) (ents : entries_of) (aliases : list (string * key)) (depth : nat)
          (c : val) (s : string) : val -> Prop :=
| by_item v : has_item E ents c (KStr s) v -> one_step E ents aliases depth c s v
| by_alias v a :
    (forall w, ~ has_item E ents c (KStr s) w) ->
    depth = 1%nat -> alookup aliases s = Some a -> has_item E ents c a v ->
    one_step E ents aliases depth c s v
| by_attr v :
    (forall w, ~ has_item E ents c (KStr s) w) ->
    (forall a w, depth = 1%nat -> alookup aliases s = Some a -> ~ has_item E ents c a w) ->
    e_attr E c s = Some v ->
    one_step E ents aliases depth c s v.
Inductive many_steps (E : env) (ents : entries_of) (aliases : list (string * key)) (depth : nat)
  : val -> list string -> val -> Prop :=
| steps_done c : many_steps E ents aliases depth c [] c
| steps_next c a w rest v :
    one_step E ents aliases depth c a w -> many_steps E ents aliases depth w rest v ->
    many_steps E ents aliases depth c (a :: rest) v.
(** The key as a whole, else its dot-separated pieces. *)
Inductive found (E : env) (ents : entries_of) (aliases : list (string * key)) (depth : nat)
          (c : val) (s : string) (v : val) : Prop :=
| found_whole : one_step E ents aliases depth c s v -> found E ents aliases depth c s v
| found_pieces :
    (forall w, ~ one_step E ents aliases depth c s w) ->
    many_steps E ents aliases depth c (split_on dot s) v ->
    found E ents aliases depth c s v.

(** ** C12-C13: integers *)
Inductive digits : list ascii -> Z -> Prop :=
| digits_one c d : digit_of c = Some d -> digits [c] d
| digits_more l c n d : digits l n -> digit_of c = Some d -> digits (l ++ [c]) (10 * n + d).
Definition blank (l : list ascii) : Prop := Forall (fun c => is_space c = true) l.
Inductive signed : list ascii -> Z -> Prop :=
| sign_none l n : digits l n -> signed l n
| sign_plus l n : digits l n -> signed ("+"%char :: l) n
| sign_minus l n : digits l n -> signed ("-"%char :: l) (- n).
(** The text of an integer, with optional white space around it *)
Definition int_text (s : string) (n : Z) : Prop :=
  exists a m b, chars s = a ++ m ++ b /\ blank a /\ blank b /\ signed m n.

(** [v] denotes the integer [n] *)
Inductive denotes : val -> Z -> Prop :=
| den_int n : denotes (VInt n) n
| den_float f n q : xnum_of_float f = XFin q -> q == inject_Z n -> denotes (VFloat f) n
| den_text s n : int_text s n -> denotes (VStr s) n.

(** ** C14: booleans *)
Inductive means : val -> bool -> Prop :=
| means_bool b : means (VBool b) b
| means_zero : means (VInt 0) false
| means_nonzero z : z <> 0 -> means (VInt z) true
| means_no s : In (lower s) ["0"; "f"; "false"] -> means (VStr s) false
| means_yes s : In (lower s) ["1"; "t"; "true"] -> means (VStr s) true.

(** ** C15 *)
Definition has_type (t : ptype) (v : val) : Prop :=
  match t, v with
  | TyStr, VStr _ | TyInt, VInt _ | TyFloat, VFloat _ | TyBool, VBool _ | TyAuto, _ => True
  | _, _ => False
  end.
