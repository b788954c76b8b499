(** * SpecUnion: what a union of documents answers, told without paths, indices or caches. *)
From Verif Require Import PyBase PyStr Source Field Context Fields SpecSrc Eval.
Open Scope Z_scope.

(** ** The sources covered: JSON documents and plain Python data (see [plain_native]) *)
Inductive plain_src (E : env) : psource -> Prop :=
| ps_json d strict loc : json_val d = true -> plain_src E (SJson d strict loc)
| ps_native P d loc : plain_native E P -> P d -> plain_src E (SDefault d [] [] loc).
Definition data_of (s : psource) : val :=
  match s with SDefault d _ _ _ => d | SJson d _ _ => d | SConfig _ _ _ _ => VNone end.
(** Keys that take one step: strings without dots that do not look like a call, and indices *)
Definition one_key (k : key) : Prop :=
  match k with
  | KStr s => strip_call s = None /\ has_char dot s = false
  | KInt z => 0 <= z
  | KRaw _ => False
  end.

(** ** Values seen through a union: each with the source it comes from *)
Notation cand := (psource * val)%type.
Definition is_null (v : val) : bool := match v with VNone => true | _ => false end.
Definition dict_of (v : val) : option (list (val * val)) := match v with VDict l => Some l | _ => None end.
(** The elements of a sequence; to a [DefaultSource] a string is one too. *)
Definition seq_of (s : psource) (v : val) : option (list val) :=
  match v with
  | VList l => Some l
  | VTuple l => Some l
  | VStr x => match s with SDefault _ _ _ _ => Some (map (fun c => VStr (String c "")) (chars x)) | _ => None end
  | _ => None
  end.
(** All of the values that are not null, if each of them is of the shape [f] *)
Fixpoint shaped {A} (f : psource -> val -> option A) (c : list cand) : option (list (psource * A)) :=
  match c with
  | [] => Some []
  | (s, v) :: rest =>
      if is_null v then shaped f rest
      else match f s v, shaped f rest with
           | Some a, Some l => Some ((s, a) :: l)
           | _, _ => None
           end
  end.
Definition first_of {A} (l : list A) : list A := match l with [] => [] | a :: _ => [a] end.
Definition last_of {A} (l : list A) : list A := match rev l with [] => [] | a :: _ => [a] end.

(** The mappings merged: all of them, the first value there is (a null hides the others), or
    the last that is not null. *)
Definition open_maps (m : merge) (c : list cand) : option (list (psource * list (val * val))) :=
  match m with
  | MCombine => shaped (fun _ => dict_of) c
  | MFirst => shaped (fun _ => dict_of) (first_of c)
  | _ => option_map last_of (shaped (fun _ => dict_of) c)
  end.
(** The sequences merged *)
Definition open_seqs (m : merge) (c : list cand) : option (list (psource * list val)) :=
  match m with
  | MCombine => shaped seq_of c
  | MFirst => option_map first_of (shaped seq_of c)
  | _ => option_map last_of (shaped seq_of c)
  end.
(** An invalid strategy: mappings are refused; of sequences, a second one is. *)
Fixpoint lone (c : list cand) (ss : list (psource * list val)) : res (list (psource * list val)) :=
  match c with
  | [] => Ok ss
  | (s, v) :: rest =>
      if is_null v then lone rest ss
      else match seq_of s v, ss with
           | None, _ => Exn (ESource NotSequence)
           | Some l, [] => lone rest [(s, l)]
           | Some _, _ :: _ => Exn EIndex
           end
  end.
Definition merge_maps (m : merge) (c : list cand) : res (list (psource * list (val * val))) :=
  match m with
  | MBad _ => Exn (EValue "merge invalid")
  | _ => match open_maps m c with Some ms => Ok ms | None => Exn (ESource NotMapping) end
  end.
Definition merge_seqs (m : merge) (c : list cand) : res (list (psource * list val)) :=
  match m with
  | MBad _ => lone c []
  | _ => match open_seqs m c with Some ss => Ok ss | None => Exn (ESource NotSequence) end
  end.
(** The values at a key of the merged mappings, and at an index of the concatenation *)
Definition under (k : key) (ms : list (psource * list (val * val))) : list cand :=
  flat_map (fun sm => match dict_get (snd sm) (val_of_key k) with Some v => [(fst sm, v)] | None => [] end) ms.
Definition concat_of (ss : list (psource * list val)) : list cand :=
  flat_map (fun sl => map (pair (fst sl)) (snd sl)) ss.
Definition element (k : key) (ss : list (psource * list val)) : list cand :=
  match k with
  | KInt z => match nth_error (concat_of ss) (Z.to_nat z) with Some c => [c] | None => [] end
  | _ => []
  end.

(** ** A location in the union: absent; values not looked into yet; opened as a mapping or as
    a sequence; read as a primitive *)
Inductive node :=
| NGone
| NJoin (c : list cand)
| NMap (ms : list (psource * list (val * val)))
| NSeq (ss : list (psource * list val))
| NVal (v : val).
Definition join (c : list cand) : node := match c with [] => NGone | _ => NJoin c end.

(** ** Operations of a path, and their answers *)
Inductive op := Enter (k : key) | Leave | Exists | IsNull | Keys | Len | Prim (t : ptype).
Inductive out := OBool (b : bool) | OKeys (l : list val) | OLen (n : nat) | OVal (v : val) | OObject | OErr (e : exn) | ODone.

(** Which merge applies; [merge_depth] is compared with the number of values for mappings
    and with the number of keys for sequences. *)
Definition limited (d : option Z) (n : nat) (m : merge) : merge :=
  match d with Some d => if d <=? Z.of_nat n then MFirst else m | None => m end.
Definition map_rule (u : usource) (c : list cand) : merge := limited (us_depth u) (length c) (us_mapping u).
Definition seq_rule (u : usource) (depth : nat) : merge := limited (us_depth u) depth (us_sequence u).

(** A position: the locations passed, the current one first; the root last. *)
Definition position := list node.
(** [None]: not specified (going below a value read as a primitive, or above the root). *)
Definition answer (E : env) (u : usource) (o : op) (pos : position) : option (out * position) :=
  match pos with
  | [] => None
  | here :: above =>
      match o with
      | Enter k =>
          match here with
          | NVal _ => None
          | NMap ms => let n := join (under k ms) in Some (OBool (match n with NGone => false | _ => true end), n :: pos)
          | NSeq ss => let n := join (element k ss) in Some (OBool (match n with NGone => false | _ => true end), n :: pos)
          | _ => Some (OBool false, NGone :: pos)
          end
      | Leave => match above with [] => None | _ => Some (ODone, above) end
      | Exists => Some (OBool match here with NGone => false | NVal v => negb (is_NONE v) | _ => true end, pos)
      | IsNull => Some (OBool match here with
                              | NMap [] | NSeq [] => true
                              | NVal v => is_null v
                              | _ => false
                              end, pos)
      | Keys =>
          match here with
          | NJoin c => match merge_maps (map_rule u c) c with
                       | Ok ms => Some (OKeys (flat_map (fun sm => map fst (snd sm)) ms), NMap ms :: above)
                       | Exn e => Some (OErr e, pos)
                       end
          | NMap ms => Some (OKeys (flat_map (fun sm => map fst (snd sm)) ms), pos)
          | _ => Some (OErr (ESource NotMapping), pos)
          end
      | Len =>
          match here with
          | NJoin c => match merge_seqs (seq_rule u (length above)) c with
                       | Ok ss => Some (OLen (length (concat_of ss)), NSeq ss :: above)
                       | Exn e => Some (OErr e, pos)
                       end
          | NSeq ss => Some (OLen (length (concat_of ss)), pos)
          | _ => Some (OErr (ESource NotSequence), pos)
          end
      | Prim t =>
          match here with
          | NGone => Some (OVal (VConst NONE), pos)
          | NJoin [] => None
          | NJoin ((s, v) :: _) => match psource_parse E s t v with
                                   | Ok w => Some (OVal w, NVal w :: above)
                                   | Exn e => Some (OErr e, pos)
                                   end
          | NVal v => Some (OVal v, pos)
          | _ => Some (OObject, pos)
          end
      end
  end.
Fixpoint answers (E : env) (u : usource) (os : list op) (pos : position) : option (list out * position) :=
  match os with
  | [] => Some ([], pos)
  | o :: rest =>
      match answer E u o pos with
      | None => None
      | Some (x, pos') => match answers E u rest pos' with
                          | None => None
                          | Some (l, pos2) => Some (x :: l, pos2)
                          end
      end
  end.
(** The root is opened at once, combining the sources. *)
Definition start (u : usource) : option position :=
  match us_srcs u with
  | [] => None
  | l => match shaped (fun _ => dict_of) (map (fun s => (s, data_of s)) l) with
         | Some ms => Some [NMap ms]
         | None => None
         end
  end.

Definition valid (m : merge) : Prop := match m with MBad _ => False | _ => True end.
Definition plain_op (o : op) : Prop := match o with Enter k => one_key k | _ => True end.

(** ** The same operations on the paths of the model *)
Definition out_of {A} (f : A -> out) (r : res A) : out := match r with Ok a => f a | Exn e => OErr e end.
Definition do_op (E : env) (ents : entries_of) (o : op) (p : upath) : out * upath :=
  match o with
  | Enter k => let '(p', r) := up_exists E ents (up_append k p) in (out_of OBool r, p')
  | Leave => let '(p', r) := up_pop p in (out_of (fun _ => ODone) r, p')
  | Exists => let '(p', r) := up_exists E ents p in (out_of OBool r, p')
  | IsNull => let '(p', r) := up_is_null E ents p in (out_of OBool r, p')
  | Keys => let '(p', r) := up_mapping E ents p in (out_of (out_of OKeys) r, p')
  | Len => let '(p', r) := up_sequence E ents p in (out_of OLen r, p')
  | Prim t => let '(p', r) := up_primitive E ents t p in
              (out_of (fun v => match v with VUMap _ | VUSeq _ => OObject | _ => OVal v end) r, p')
  end.
Fixpoint do_ops (E : env) (ents : entries_of) (os : list op) (p : upath) : list out * upath :=
  match os with
  | [] => ([], p)
  | o :: rest => let '(x, p') := do_op E ents o p in let '(l, p2) := do_ops E ents rest p' in (x :: l, p2)
  end.
(** The same answer: keys are compared as sets, without repetition on the left. *)
Inductive same_out : out -> out -> Prop :=
| so_eq x : (forall l, x <> OKeys l) -> same_out x x
| so_keys a b :
    (forall k, py_in k a = py_in k b) -> ForallOrdPairs (fun x y => py_eq x y = false) a ->
    same_out (OKeys a) (OKeys b).

(** ** By location: the value of a source below the keys [ks], through mappings only *)
Fixpoint below (v : val) (ks : list key) : option val :=
  match ks with
  | [] => Some v
  | k :: rest => match v with
                 | VDict l => match dict_get l (val_of_key k) with Some w => below w rest | None => None end
                 | _ => None
                 end
  end.
Definition deeper (c : list cand) (ks : list key) : list cand :=
  flat_map (fun sv => match below (snd sv) ks with Some w => [(fst sv, w)] | None => [] end) c.
Definition roots (u : usource) : list cand := map (fun s => (s, data_of s)) (us_srcs u).
Definition values_at (u : usource) (ks : list key) : list cand := deeper (roots u) ks.
(** Going down key by key, opening each mapping on the way, without an error *)
Definition down (ks : list key) : list op := flat_map (fun k => [Enter k; Keys]) ks.
Definition no_err (l : list out) : Prop := forall e, ~ In (OErr e) l.
(** Candidates that can be opened as mappings: there is one, and each is null or a mapping *)
Definition mappable (c : list cand) : Prop := c <> [] /\ Forall (fun sv => snd sv = VNone \/ exists d, snd sv = VDict d) c.
Definition mappable_along (c : list cand) (ks : list key) : Prop := forall i, (i <= length ks)%nat -> mappable (deeper c (firstn i ks)).
(** The last answer of a run, and that nothing failed before *)
Definition ends_with (ys : list out) (x : out) : Prop := exists pre, ys = pre ++ [x] /\ no_err pre.
(** Keys [l] without repetition, found in the mappings among [c] *)
Definition keys_among (l : list val) (c : list cand) : Prop :=
  ForallOrdPairs (fun x y => py_eq x y = false) l /\
  forall k, py_in k l = true <-> exists s d, In (s, VDict d) c /\ py_in k (map fst d) = true.
Definition read_first (E : env) (t : ptype) (c : list cand) : out :=
  match c with
  | [] => OVal (VConst NONE)
  | (s, v) :: _ => out_of OVal (psource_parse E s t v)
  end.

(** ** What [merge_depth=d] leaves of combined mappings: the first value only, wherever at
    least [d] of the sources that are still there have one *)
Definition cut (d : Z) (c : list cand) : list cand := if Z.of_nat (length c) <? d then c else first_of c.
Fixpoint seen (d : Z) (c : list cand) (ks : list key) : list cand :=
  match ks with
  | [] => c
  | k :: rest => seen d (cut d (deeper c [k])) rest
  end.
Definition mappable_seen (d : Z) (c : list cand) (ks : list key) : Prop :=
  forall i, (i <= length ks)%nat -> mappable (seen d c (firstn i ks)).
