(** * SpecMount: mounted sources, and the options of a configuration section. *)
From Verif Require Import PyBase PyStr Source.
Open Scope Z_scope.

(** ** Everything that can be done with a path *)
Inductive act := Down (k : key) | Up | Val | Here | Null | Names | Count | Get (t : ptype).
Inductive reply :=
| RVal (r : res val) | RBool (r : res bool) | RNames (r : res view) | RCount (r : res nat) | RUnit (r : res unit) | RDone.
Definition replied {P A} (f : A -> reply) (pr : P * A) : P * reply := (fst pr, f (snd pr)).
Definition act_path (E : env) (ents : entries_of) (a : act) (p : path) : path * reply :=
  match a with
  | Down k => (p_append k p, RDone)
  | Up => replied RUnit (p_pop p)
  | Val => replied RVal (p_value E ents p)
  | Here => replied RBool (p_exists E ents p)
  | Null => replied RBool (p_is_null E ents p)
  | Names => replied RNames (p_mapping E ents p)
  | Count => replied RCount (p_sequence E ents p)
  | Get t => replied RVal (p_primitive E ents t p)
  end.
(** The same on the path of a source alone; [nul] is its answer to [Null]. *)
Definition act_base (nul : bpath -> bpath * res bool) (E : env) (ents : entries_of) (a : act) (b : bpath) : bpath * reply :=
  match a with
  | Down k => (bp_append k b, RDone)
  | Up => replied RUnit (bp_pop b)
  | Val => replied RVal (bp_value E ents b)
  | Here => replied RBool (bp_exists E ents b)
  | Null => replied RBool (nul b)
  | Names => replied RNames (bp_mapping E ents b)
  | Count => replied RCount (bp_sequence E ents b)
  | Get t => replied RVal (bp_primitive E ents t b)
  end.
Fixpoint run_acts {P} (f : act -> P -> P * reply) (l : list act) (p : P) : list reply :=
  match l with
  | [] => []
  | a :: rest => let '(p', r) := f a p in r :: run_acts f rest p'
  end.
(** [value is None] *)
Definition null_value (E : env) (ents : entries_of) (b : bpath) : bpath * res bool :=
  let '(b', r) := bp_value E ents b in (b', match r with Ok v => Ok (is_None v) | Exn e => Exn e end).

(** ** Which mount each step of a run is about: the first key of the path chooses it. *)
Fixpoint routed (cur : option (key * nat)) (l : list act) : list (option key) :=
  match l with
  | [] => []
  | a :: rest =>
      match cur with
      | None => None :: routed (match a with Down k => Some (k, O) | _ => None end) rest
      | Some (k, n) =>
          match a with
          | Down _ => Some k :: routed (Some (k, S n)) rest
          | Up => match n with
                  | O => None :: routed None rest
                  | S n => Some k :: routed (Some (k, n)) rest
                  end
          | _ => Some k :: routed cur rest
          end
      end
  end.
Definition about (m : string) (k : option key) : bool := match k with Some (KStr s) => String.eqb s m | _ => false end.
Fixpoint pick {A} (m : string) (tags : list (option key)) (l : list A) : list A :=
  match tags, l with
  | t :: tags, x :: l => if about m t then x :: pick m tags l else pick m tags l
  | _, _ => []
  end.

(** Where a run of steps from the root has got to: the mount's key and how far below it *)
Definition went (cur : option (key * nat)) (a : act) : option (key * nat) :=
  match cur, a with
  | None, Down k => Some (k, O)
  | Some (k, n), Down _ => Some (k, S n)
  | Some (k, S n), Up => Some (k, n)
  | Some (_, O), Up => None
  | _, _ => cur
  end.
Definition spot_after (acts : list act) : option (key * nat) := fold_left went acts None.
(** What is said at the root of mounts with these keys: it is there, has no value, and lists the keys. *)
Inductive root_says (names : list string) : act -> reply -> Prop :=
| rs_down k : root_says names (Down k) RDone
| rs_up : root_says names Up (RUnit (Exn EIndex))
| rs_val : root_says names Val (RVal (Ok (VConst NONE)))
| rs_here : root_says names Here (RBool (Ok true))
| rs_null : root_says names Null (RBool (Ok false))
| rs_names : root_says names Names (RNames (Ok (Ok (map VStr names))))
| rs_count m : root_says names Count (RCount (Exn (EAttr m)))
| rs_get t m : root_says names (Get t) (RVal (Exn (EAttr m))).
(** What is said at a key where nothing is mounted: an empty mapping is there; it is counted or
    read as a primitive with a [KeyError]. *)
Inductive nothing_says : act -> reply -> Prop :=
| ns_down k : nothing_says (Down k) RDone
| ns_up : nothing_says Up (RUnit (Ok tt))
| ns_val : nothing_says Val (RVal (Ok (VDict [])))
| ns_here : nothing_says Here (RBool (Ok true))
| ns_null : nothing_says Null (RBool (Ok false))
| ns_names : nothing_says Names (RNames (Ok (Ok [])))
| ns_count : nothing_says Count (RCount (Exn EKey))
| ns_get t : nothing_says (Get t) (RVal (Exn EKey)).
Definition mounted_at (names : list string) (k : key) : Prop := exists m, k = KStr m /\ In m names.

(** ** Options: [name[key]] followed by anything *)
Definition word_char (c : ascii) : Prop := is_word c = true.
Definition key_char (c : ascii) : Prop := is_word c = true \/ c = "-"%char \/ c = "."%char.
Definition names_sub (o n k : string) : Prop :=
  exists rest, o = (n ++ "[" ++ k ++ "]" ++ rest)%string /\
    n <> ""%string /\ Forall word_char (chars n) /\ k <> ""%string /\ Forall key_char (chars k).
(** The value of the last option for [n[k]], and whether there is an option for [n] *)
Definition last_sub (opts : list (string * string)) (n k : string) (v : option string) : Prop :=
  match v with
  | None => forall o w, In (o, w) opts -> ~ names_sub o n k
  | Some v => exists pre o post, opts = pre ++ (o, v) :: post /\ names_sub o n k /\ forall o' w, In (o', w) post -> ~ names_sub o' n k
  end.
Definition has_sub (opts : list (string * string)) (n : string) : Prop := exists o w k, In (o, w) opts /\ names_sub o n k.
(** What a configuration section holds at [s] *)
Inductive config_value (opts : list (string * string)) (defaults : val) (s : string) : val -> Prop :=
| cv_sub d f : has_sub opts s -> (forall k, dict_get d (VStr k) = option_map VStr (f k)) -> (forall k, last_sub opts s k (f k)) ->
    config_value opts defaults s (VDict d)
| cv_option w : ~ has_sub opts s -> alookup opts (lower s) = Some w -> config_value opts defaults s (VStr w)
| cv_default l w : ~ has_sub opts s -> alookup opts (lower s) = None -> defaults = VDict l -> dict_get l (VStr s) = Some w ->
    config_value opts defaults s w
| cv_none : ~ has_sub opts s -> alookup opts (lower s) = None -> (forall l, defaults = VDict l -> dict_get l (VStr s) = None) ->
    config_value opts defaults s (VConst NONE).
(** The options that say what a section holds at [s]; [only] keeps just those. *)
Definition concerns (s o : string) : Prop := o = lower s \/ exists k, names_sub o s k.
Inductive only (s : string) : list (string * string) -> list (string * string) -> Prop :=
| only_nil : only s [] []
| only_keep o v l l' : concerns s o -> only s l l' -> only s ((o, v) :: l) ((o, v) :: l')
| only_drop o v l l' : ~ concerns s o -> only s l l' -> only s ((o, v) :: l) l'.
Definition default_at (d : val) (s : string) : option val := match d with VDict l => dict_get l (VStr s) | _ => None end.
(** Two sections, and two whole configurations, are the same at a key (C46). *)
Definition same_section (opts : list (string * string)) (d : val) (opts' : list (string * string)) (d' : val) (k : key) : Prop :=
  exists s l, k = KStr s /\ only s opts l /\ only s opts' l /\ default_at d s = default_at d' s.
Definition same_sections (cfg : config) (d : val) (cfg' : config) (d' : val) (k : key) : Prop :=
  exists s, k = KStr s /\ alookup cfg s = alookup cfg' s /\ default_at d s = default_at d' s.
Definition same_config (cfg : config) (sec : option string) (d : val) (cfg' : config) (d' : val) : key -> Prop :=
  match sec with
  | Some s => same_section (match alookup cfg s with Some o => o | None => [] end) d (match alookup cfg' s with Some o => o | None => [] end) d'
  | None => same_sections cfg d cfg' d'
  end.
