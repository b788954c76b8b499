(** * SpecChain: methods of fields that are called one after the other (C91). *)
From Verif Require Import PyBase PyStr Source Field Context Fields Build SpecCtx SpecField SpecBuild SpecClock.
Open Scope Z_scope.

(** [.min(v)], [.max(v)], [.range(l, r)] *)
Inductive size_call := CMin (v : val) | CMax (v : val) | CRange (l r : val).
Definition size_step (c : size_call) (b : bfield) : res bfield :=
  match c with CMin v => set_min v b | CMax v => set_max v b | CRange l r => set_range l r b end.
(** [.after(v)], [.before(v)], [.between(l, r)], [.format(v)] *)
Inductive clock_call := CAfter (v : val) | CBefore (v : val) | CBetween (l r : val) | CFormat (v : val).
Definition clock_step (c : clock_call) (b : bfield) : res bfield :=
  match c with CAfter v => set_after v b | CBefore v => set_before v b | CBetween l r => set_between l r b | CFormat v => set_format v b end.
(** [.options(...)] *)
Definition options_step (kw : kwargs) (b : bfield) : res bfield := with_options kw b.
(** the calls, in their order *)
Inductive calls {C} (step : C -> bfield -> res bfield) : list C -> bfield -> bfield -> Prop :=
| ca_done b : calls step [] b b
| ca_call c cs b b1 b2 : step c b = Ok b1 -> calls step cs b1 b2 -> calls step (c :: cs) b b2.

(** The bounds in the end, from those in the beginning: what the last call says *)
Inductive bounds_told : list size_call -> option val * option val -> option val * option val -> Prop :=
| bt_none x : bounds_told [] x x
| bt_min v lo1 lo hi cs x : bound_said (Some (AV v)) lo1 -> bounds_told cs (lo1, hi) x -> bounds_told (CMin v :: cs) (lo, hi) x
| bt_max v hi1 lo hi cs x : bound_said (Some (AV v)) hi1 -> bounds_told cs (lo, hi1) x -> bounds_told (CMax v :: cs) (lo, hi) x
| bt_range v w lo1 hi1 lo hi cs x : bound_said (Some (AV v)) lo1 -> bound_said (Some (AV w)) hi1 ->
    bounds_told cs (lo1, hi1) x -> bounds_told (CRange v w :: cs) (lo, hi) x.
Inductive lengths_told : list size_call -> option Z * option Z -> option Z * option Z -> Prop :=
| lt_none x : lengths_told [] x x
| lt_min v lo1 lo hi cs x : end_said (Some (AV v)) lo1 -> lengths_told cs (lo1, hi) x -> lengths_told (CMin v :: cs) (lo, hi) x
| lt_max v hi1 lo hi cs x : end_said (Some (AV v)) hi1 -> lengths_told cs (lo, hi1) x -> lengths_told (CMax v :: cs) (lo, hi) x
| lt_range v w lo1 hi1 lo hi cs x : end_said (Some (AV v)) lo1 -> end_said (Some (AV w)) hi1 ->
    lengths_told cs (lo1, hi1) x -> lengths_told (CRange v w :: cs) (lo, hi) x.
(** the same with formats; a time or a datetime has one at most *)
Definition format_told (c : clock) (v : val) (fmts : list string) : Prop :=
  formats_said (Some (AV v)) fmts /\ (c <> CDate -> v = VNone \/ exists x, v = VStr x).
Inductive clock_told (c : clock) : list clock_call -> option val * option val * list string -> option val * option val * list string -> Prop :=
| ct_none x : clock_told c [] x x
| ct_after v lo1 lo hi l cs x : bound_said (Some (AV v)) lo1 -> clock_told c cs (lo1, hi, l) x -> clock_told c (CAfter v :: cs) (lo, hi, l) x
| ct_before v hi1 lo hi l cs x : bound_said (Some (AV v)) hi1 -> clock_told c cs (lo, hi1, l) x -> clock_told c (CBefore v :: cs) (lo, hi, l) x
| ct_between v w lo1 hi1 lo hi l cs x : bound_said (Some (AV v)) lo1 -> bound_said (Some (AV w)) hi1 ->
    clock_told c cs (lo1, hi1, l) x -> clock_told c (CBetween v w :: cs) (lo, hi, l) x
| ct_format v l1 lo hi l cs x : format_told c v l1 -> clock_told c cs (lo, hi, l1) x -> clock_told c (CFormat v :: cs) (lo, hi, l) x.

(** Both say the same but for these keywords. *)
Definition alike (names : list string) (kw1 kw2 : kwargs) : Prop := forall n, ~ In n names -> alookup kw1 n = alookup kw2 n.
(** A constructor that takes no fields or classes *)
Inductive maker := MkPlain (k : kind) | MkStr | MkNum (c : number_class) | MkClock (c : clock).
Definition make (m : maker) : list arg -> kwargs -> res bfield :=
  match m with
  | MkPlain k => fun args kw => field_init args kw k
  | MkStr => String_init
  | MkNum c => Number_init c
  | MkClock c => clock_init c
  end.

(** Every constructor (C95), and the keywords that its class knows: those of all fields and its own. *)
Inductive any_maker :=
| AnyMaker (m : maker) | MkList | MkTuple | MkDict (kf vf : bfield) | MkSub | MkPoly (probe : formty) (tf : field) (table : list (val * string)) | MkGroup.
Definition construct (m : any_maker) : list arg -> kwargs -> res bfield :=
  match m with
  | AnyMaker m => make m
  | MkList => List_init
  | MkTuple => Tuple_init
  | MkDict kf vf => Dict_init kf vf
  | MkSub => SubForm_init
  | MkPoly probe tf table => Poly_init probe tf table
  | MkGroup => Group_init
  end.
Definition field_keywords : list string := ["src"; "nullable"; "default"; "optional"; "ignore"; "translate"; "attach_parent"; "tags"].
Definition own_keywords (m : any_maker) : list string :=
  match m with
  | AnyMaker (MkPlain _) => []
  | AnyMaker MkStr => ["length"; "min_length"; "max_length"; "pattern"; "alphabet"; "choices"]
  | AnyMaker (MkNum _) => ["range"; "min_value"; "max_value"]
  | AnyMaker (MkClock _) => ["after"; "before"; "format"]
  | MkList => ["field"; "length"; "min_length"; "max_length"; "allow_field"]
  | MkTuple => ["allow_field"]
  | MkDict _ _ => ["required_keys"; "max_keys"]
  | MkSub => ["unmapped"; "reset"; "flat"]
  | MkPoly _ _ _ => ["unmapped"; "reset"]
  | MkGroup => []
  end.
(** [kw'] is [kw] and one more keyword, anywhere *)
Definition and_also (n : string) (a : arg) (kw kw' : kwargs) : Prop :=
  exists kw1 kw2, kw = (kw1 ++ kw2)%list /\ kw' = (kw1 ++ (n, a) :: kw2)%list.
(** Keywords that another argument makes unwelcome: the ends of a range beside the range, lengths beside
    the length, the field of a list that has one already *)
Definition an_item (a : arg) : Prop := match a with AF _ | ACls _ => True | _ => False end.
Inductive excludes : any_maker -> list arg -> kwargs -> string -> Prop :=
| ex_range c args kw n l : alookup kw "range" = Some (AV l) -> l <> VNone -> n = "min_value" \/ n = "max_value" -> excludes (AnyMaker (MkNum c)) args kw n
| ex_string args kw n l : alookup kw "length" = Some (AV l) -> counts (AV l) -> n = "min_length" \/ n = "max_length" -> excludes (AnyMaker MkStr) args kw n
| ex_list args kw n l : alookup kw "length" = Some (AV l) -> counts (AV l) -> n = "min_length" \/ n = "max_length" -> excludes MkList args kw n
| ex_item args kw : (exists x, In x args /\ an_item x) -> excludes MkList args kw "field".

(** What [translate] takes: a dict, or a sequence of sequences of two whose first can be a key. *)
Inductive members : val -> list val -> Prop :=
| mb_list l : members (VList l) l
| mb_tuple l : members (VTuple l) l
| mb_text s : members (VStr s) (map (fun c => VStr (String c EmptyString)) (list_ascii_of_string s)).
Inductive two_of (x a b : val) : Prop :=
| two_seq : members x [a; b] -> ~ unhashable a -> two_of x a b
| two_dict u v : x = VDict [(a, u); (b, v)] -> ~ unhashable a -> two_of x a b.
Inductive table_of : val -> list (val * val) -> Prop :=
| to_dict d : table_of (VDict d) d
| to_pairs v l d : members v l -> Forall2 (fun x p => two_of x (fst p) (snd p)) l d -> table_of v d.
(** A value that is no sequence. *)
Inductive no_sequence : val -> Prop :=
| ns_none : no_sequence VNone
| ns_bool b : no_sequence (VBool b)
| ns_int z : no_sequence (VInt z)
| ns_float x : no_sequence (VFloat x)
| ns_dec d : no_sequence (VDec d)
| ns_date z : no_sequence (VDate z)
| ns_datetime z : no_sequence (VDatetime z)
| ns_time z : no_sequence (VTime z)
| ns_const c : no_sequence (VConst c).
(** [v] is what the table says of the text [k]: the last entry counts. *)
Definition last_given (d : list (val * val)) (k : string) (v : val) : Prop :=
  exists before after, d = before ++ (VStr k, v) :: after /\ forall w, ~ In (VStr k, w) after.
