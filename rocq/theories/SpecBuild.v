(** * SpecBuild: what the theorems about constructed fields are about (C72-C79). *)
From Verif Require Import PyBase PyStr Source Field Context Fields Build SpecCtx SpecField.
From Coq Require Import Lia.
Open Scope Z_scope.

(** The field reads where its [src] says and does not filter or check its value with
    functions; nor has it [attach_parent].  Compute, parse and munge hooks may be set. *)
Record quiet (f : field) : Prop := {
  qu_resolve : o_resolve (f_opts f) = None;
  qu_filter : o_filter (f_opts f) = None;
  qu_validate : o_validate (f_opts f) = None;
  qu_parent : o_attach_parent (f_opts f) = false
}.
(** What counts as true: a value as it does, no empty list or tuple, and any function, pattern,
    field or class. *)
Inductive counts : arg -> Prop :=
| ct_value v : truthy v = true -> counts (AV v)
| ct_fn p : counts (AFn p)
| ct_re s : counts (ARe s)
| ct_field f : counts (AF f)
| ct_class t : counts (ACls t)
| ct_list x l : counts (AList (x :: l))
| ct_tuple x l : counts (ATuple (x :: l)).
(** The keyword is given, with a value that counts as true. *)
Definition says (kw : kwargs) (n : string) : Prop :=
  exists a, alookup kw n = Some a /\ a <> AV (VConst NOTSET) /\ counts a.
Definition unsaid (kw : kwargs) (n : string) : Prop := alookup kw n = None.
(** No function is given as the default. *)
Definition static_default (kw : kwargs) : Prop := forall p, alookup kw "default" <> Some (AFn p).
(** No keyword is given twice. *)
Definition apart (kw1 kw2 : kwargs) : Prop := forall n, alookup kw1 n = None \/ alookup kw2 n = None.

(** ** Lengths and bounds *)
(** An end of a range of lengths, as it is given: [None] and nothing set no limit. *)
Inductive end_said : option arg -> option Z -> Prop :=
| end_unsaid : end_said None None
| end_none : end_said (Some (AV VNone)) None
| end_int z : end_said (Some (AV (VInt z))) (Some z).
(** [length=(a, b)], or [min_length] and [max_length] *)
Definition pair_said (kw : kwargs) (lo hi : option Z) : Prop :=
  (exists a b l, alookup kw "length" = Some (AV l) /\ (l = VList [a; b] \/ l = VTuple [a; b]) /\ end_said (Some (AV a)) lo /\ end_said (Some (AV b)) hi) \/
  (unsaid kw "length" /\ end_said (alookup kw "min_length") lo /\ end_said (alookup kw "max_length") hi).
(** [length=n] as well *)
Definition lengths_said (kw : kwargs) (lo hi : option Z) : Prop :=
  (exists z, alookup kw "length" = Some (AV (VInt z)) /\ z <> 0 /\ lo = Some z /\ hi = Some z) \/ pair_said kw lo hi.
Inductive pattern_said : option arg -> option string -> Prop :=
| pat_unsaid : pattern_said None None
| pat_text s : s <> "" -> pattern_said (Some (AV (VStr s))) (Some s)
| pat_re s : pattern_said (Some (ARe s)) (Some s).
Inductive alphabet_said : option arg -> list ascii -> Prop :=
| alp_unsaid : alphabet_said None []
| alp_text s : alphabet_said (Some (AV (VStr s))) (list_ascii_of_string s).
Inductive choices_said : option arg -> list val -> Prop :=
| cho_unsaid : choices_said None []
| cho_list l : choices_said (Some (AV (VList l))) l.
Definition string_said (kw : kwargs) (c : strc) : Prop :=
  lengths_said kw (sc_min c) (sc_max c) /\ pattern_said (alookup kw "pattern") (sc_pattern c) /\
  alphabet_said (alookup kw "alphabet") (sc_alphabet c) /\ choices_said (alookup kw "choices") (sc_choices c).
(** Bounds of a number or of a date, as they are given *)
Inductive bound_said : option arg -> option val -> Prop :=
| bnd_unsaid : bound_said None None
| bnd_none : bound_said (Some (AV VNone)) None
| bnd_val v : v <> VNone -> bound_said (Some (AV v)) (Some v).
Definition range_said (kw : kwargs) (lo hi : option val) : Prop :=
  (exists a b l, alookup kw "range" = Some (AV l) /\ (l = VList [a; b] \/ l = VTuple [a; b]) /\ bound_said (Some (AV a)) lo /\ bound_said (Some (AV b)) hi) \/
  (unsaid kw "range" /\ bound_said (alookup kw "min_value") lo /\ bound_said (alookup kw "max_value") hi).
(** What a list is a list of: a field, or the form class that makes one *)
Inductive item_said : arg -> field -> Prop :=
| item_is_field b : item_said (AF b) (attach_inside b)
| item_is_class t : item_said (ACls t) (MkField no_opts (KSubForm t false UIgnore)).

(** ** Fields with a function *)
(** A value passes the checks of a field. *)
Definition unchecked (k : kind) : Prop :=
  match k with KAny | KBool | KTuple _ | KCode | KUUID | KSubForm _ _ _ | KPoly _ _ _ _ _ | KGroup _ => True | _ => False end.
Inductive fits (E : env) (f : field) : val -> Prop :=
| fits_null : o_nullable (f_opts f) = true -> fits E f VNone
| fits_string c x : f_kind f = KString c -> string_ok E f c x -> fits E f (VStr x)
| fits_number lo hi w q : bounds (f_kind f) = Some (lo, hi) -> number w q ->
    (forall z, lo = Some z -> exists r, number z r /\ (r <= q)%Q) ->
    (forall z, hi = Some z -> exists r, number z r /\ (q <= r)%Q) -> fits E f w
| fits_free w : unchecked (f_kind f) -> w <> VNone -> fits E f w.
(** The value [v], computed or captured, becomes [w] and stays. *)
Definition settles (E : env) (f : field) (v w : val) : Prop :=
  ignored v = false /\ lookable f v /\ translated f v w /\ ignored w = false /\
  py_in w (o_ignores (f_opts f)) = false /\ fits E f w.
(** Values other than forms and pilo's own constants *)
Definition foreign (v : val) : Prop := match v with VForm _ | VConst _ => False | _ => True end.
(** Attributes of attributes of forms, all of them mapped, and attributes Python finds in other
    values *)
Inductive attrs (E : env) (s : st) : val -> list string -> val -> Prop :=
| at_end v : attrs E s v [] v
| at_value v n u rest w : foreign v -> e_attr E v n = Some u -> attrs E s u rest w -> attrs E s v (n :: rest) w
| at_form id t l n f v rest w : nth_error (forms s) id = Some (t, l) -> In f (ft_fields t) -> o_name (f_opts f) = Some n ->
    dict_get l (VStr n) = Some v -> attrs E s v rest w -> attrs E s (VForm id) (n :: rest) w.
(** a field's name in [format], with dots *)
Definition dotted (names : list string) : string := String.concat "." names.
Definition plain_names (names : list string) : Prop := names <> [] /\ forall n, In n names -> ~ In "."%char (list_ascii_of_string n).
(** each keyword of [format] names something mapped *)
Definition all_read (E : env) (s : st) (form : val) (kw : list (string * string)) (values : list (string * val)) : Prop :=
  Forall2 (fun k x => fst k = fst x /\ exists names, snd k = dotted names /\ plain_names names /\ attrs E s form names (snd x)) kw values.
(** the first group a capture asks for, then the group 1 *)
Definition has_group (groups : list (key * val)) (k : key) (v : val) : Prop :=
  exists pre post k', groups = pre ++ (k', v) :: post /\ py_eq (val_of_key k') (val_of_key k) = true /\
    forall x, In x pre -> py_eq (val_of_key (fst x)) (val_of_key k) = false.
Definition lacks_group (groups : list (key * val)) (k : key) : Prop := forall x, In x groups -> py_eq (val_of_key (fst x)) (val_of_key k) = false.
Definition asked (ask : option string) (name : string) : string :=
  match ask with Some a => if String.eqb a "" then name else a | None => name end.
Inductive captured (groups : list (key * val)) (ask : option string) (name : string) : val -> Prop :=
| cap_named v : has_group groups (KStr (asked ask name)) v -> captured groups ask name v
| cap_first v : lacks_group groups (KStr (asked ask name)) -> has_group groups (KInt 1) v -> captured groups ask name v.

(** The field finds the text [x] at its place. *)
Definition finds_text (W : world) (s : st) (f : field) (p : path) (x : string) : Prop :=
  exists q1 q2 q3, p_exists (w_env W) (entries s) (place f p) = (q1, Ok true) /\
    p_is_null (w_env W) (entries s) q1 = (q2, Ok false) /\ p_primitive (w_env W) (entries s) TyStr q2 = (q3, Ok (VStr x)).
(** the text that the pattern matches, from its start *)
Definition matches (E : env) (pattern x y : string) : Prop :=
  exists groups, e_re E pattern x = Some groups /\ has_group groups (KInt 0) (VStr y).

(** ** Groups *)
(** The entries that an argument of [Group] stands for: a field with a [src], a pair, or a
    list of such, nested. *)
Inductive entry_said : arg -> list (gmatch * field) -> Prop :=
| es_field b s : b_src b = true -> o_src (b_opts b) = Some (KStr s) -> entry_said (AF b) [(GName s, MkField (b_opts b) (b_kind b))]
| es_name s b : entry_said (ATuple [AV (VStr s); AF b]) [(GName s, MkField (b_opts b) (b_kind b))]
| es_pattern p b : entry_said (ATuple [ARe p; AF b]) [(GRe p, MkField (b_opts b) (b_kind b))]
| es_none : entry_said (AV (VList [])) []
| es_list l ll : entries_said l ll -> entry_said (AList l) ll
with entries_said : list arg -> list (gmatch * field) -> Prop :=
| es_nil : entries_said [] []
| es_cons a l x y : entry_said a x -> entries_said l y -> entries_said (a :: l) (x ++ y).
(** One of the arguments, nested or not, is a field without a [src], at these indices. *)
Inductive bare_at : list arg -> list nat -> Prop :=
| ba_here pre b post l : entries_said pre l -> b_src b = false -> bare_at (pre ++ AF b :: post) [length pre]
| ba_in pre inner post l path : entries_said pre l -> bare_at inner path -> bare_at (pre ++ AList inner :: post) (length pre :: path).
(** The same, of a tuple that does not have two items. *)
Inductive odd_at : list arg -> list nat -> Prop :=
| oa_here pre t post l : entries_said pre l -> length t <> 2%nat -> odd_at (pre ++ ATuple t :: post) [length pre]
| oa_in pre inner post l path : entries_said pre l -> odd_at inner path -> odd_at (pre ++ AList inner :: post) (length pre :: path).
(** And of something else; the error then says where the list around it is. *)
Inductive alien : arg -> Prop :=
| al_text s : alien (AV (VStr s))
| al_int z : alien (AV (VInt z))
| al_none : alien (AV VNone)
| al_re p : alien (ARe p)
| al_dict d : alien (AV (VDict d)).
Inductive alien_at : list arg -> list nat -> Prop :=
| aa_here pre a post l : entries_said pre l -> alien a -> alien_at (pre ++ a :: post) []
| aa_in pre inner post l path : entries_said pre l -> alien_at inner path -> alien_at (pre ++ AList inner :: post) (length pre :: path).
Definition indices (path : list nat) : string := String.concat "" (map (fun i => "[" ++ print_int (Z.of_nat i) ++ "]")%string path).

(** ** Tuples *)
(** The fields, given one by one (two or more) or as one list or tuple; the name to read may
    come first. *)
Inductive fields_said : list arg -> list bfield -> Prop :=
| fs_apart fs : (2 <= length fs)%nat -> fields_said (map AF fs) fs
| fs_list fs : fields_said [AList (map AF fs)] fs
| fs_tuple fs : fields_said [ATuple (map AF fs)] fs
| fs_src s args fs : fields_said args fs -> (forall x rest, args <> AV (VStr x) :: rest) -> fields_said (AV (VStr s) :: args) fs.

(** Where a field should be: numbers and texts, which is a [ValueError] and not the [TypeError] of anything else. *)
Inductive number_or_text : arg -> Prop :=
| nt_bool b : number_or_text (AV (VBool b))
| nt_int z : number_or_text (AV (VInt z))
| nt_float x : number_or_text (AV (VFloat x))
| nt_text x : number_or_text (AV (VStr x))
| nt_dec d : number_or_text (AV (VDec d)).
Definition refusal (a : arg) (e : exn) : Prop :=
  (number_or_text a -> exists m, e = EValue m) /\ (~ number_or_text a -> exists m, e = EType m).

(** ** Where fields read *)
(** The value that says where to read: a key, an index, or [None] for the enclosing mapping. *)
Inductive src_value : val -> option key -> Prop :=
| sv_key x : src_value (VStr x) (Some (KStr x))
| sv_index z : src_value (VInt z) (Some (KInt z))
| sv_here : src_value VNone None.
(** It is the one positional argument or the keyword [src]; without it the field's name is used. *)
Inductive src_said (args : list arg) (kw : kwargs) (name : string) : option key -> Prop :=
| ss_name : args = [] -> unsaid kw "src" -> src_said args kw name (Some (KStr name))
| ss_arg v k : args = [AV v] -> unsaid kw "src" -> src_value v k -> src_said args kw name k
| ss_kw v k : args = [] -> alookup kw "src" = Some (AV v) -> src_value v k -> src_said args kw name k.
(** A constructor, called with [kw] and, besides the fields and classes it takes, [args], makes a field. *)
Definition plain_kind (k : kind) : Prop := match k with KAny | KBool | KCode | KUUID => True | _ => False end.
Inductive constructed (args : list arg) (kw : kwargs) (b : bfield) : Prop :=
| con_plain k : plain_kind k -> field_init args kw k = Ok b -> constructed args kw b
| con_string : String_init args kw = Ok b -> constructed args kw b
| con_number c : Number_init c args kw = Ok b -> constructed args kw b
| con_date : Date_init args kw = Ok b -> constructed args kw b
| con_time : Time_init args kw = Ok b -> constructed args kw b
| con_datetime : Datetime_init args kw = Ok b -> constructed args kw b
| con_dict kf vf : Dict_init kf vf args kw = Ok b -> constructed args kw b
| con_list pre x post f : item_said x f -> (forall g, ~ In (AF g) pre) -> (forall t, ~ In (ACls t) pre) -> args = pre ++ post ->
    List_init (pre ++ x :: post) kw = Ok b -> constructed args kw b
| con_list_kw f : (forall g, ~ In (AF g) args) -> (forall t, ~ In (ACls t) args) -> alookup kw "field" = Some (AF f) ->
    List_init args kw = Ok b -> constructed args kw b
| con_tuple fields fs : (forall a, In a args -> exists x, a = AV (VStr x)) -> (length args <= 1)%nat -> fields_said fields fs ->
    (forall x rest, fields <> AV (VStr x) :: rest) ->
    Tuple_init (args ++ fields) kw = Ok b -> constructed args kw b
| con_subform pre t post : (forall u, ~ In (ACls u) pre) -> args = pre ++ post -> ~ says kw "flat" ->
    SubForm_init (pre ++ ACls t :: post) kw = Ok b -> constructed args kw b
| con_poly probe tf table : Poly_init probe tf table args kw = Ok b -> constructed args kw b.

(** ** Sub-forms *)
(** What [unmapped] says about the keys of the sub-form's mapping that it does not map *)
Inductive unmapped_said : option arg -> unm -> Prop :=
| un_unsaid : unmapped_said None UIgnore
| un_ignore : unmapped_said (Some (AV (VStr "ignore"))) UIgnore
| un_capture : unmapped_said (Some (AV (VStr "capture"))) UCapture
| un_field f : unmapped_said (Some (AF f)) (UField (attach_inside f))
| un_pair k v : unmapped_said (Some (ATuple [AF k; AF v])) (UPair (attach_inside k) (attach_inside v))
| un_two k v : unmapped_said (Some (AList [AF k; AF v])) (UPair (attach_inside k) (attach_inside v))
| un_null : unmapped_said (Some (AV VNone)) UFalsy
| un_word s : ~ In s ["ignore"; "capture"; ""]%string -> unmapped_said (Some (AV (VStr s))) (UBad s).
(** [form = t(); errors = form.map(unmapped=u)], for the form's value if there are none *)
Definition maps_new_form (W : world) (rec : field -> val -> M val) (t : formty) (u : unm) (s : st) : res val * st :=
  let id := length (forms s) in
  match form_map W rec id ANone [] false u Collect (snd (new_form t s)) with
  | (Ok [], s') => (Ok (VForm id), s')
  | (Ok _, s') => (Ok ERRORv, s')
  | (Exn e, s') => (Exn e, s')
  end.
