(** * SpecForm: what the theorems about forms are about. *)
From Verif Require Import PyBase PyStr Source Field Context Fields SpecCtx SpecField SpecBox SpecLocal.

(** User functions that do not change existing forms: they do not set, delete or (lazily)
    read form attributes.  They may read the source and items of forms, report, open
    blocks, reset the context, and map new forms.  [C] are the names of form classes a
    [PolymorphicSubForm] may lead to. *)
Section Still.
Variable C : string -> Prop.
Inductive still_prog : prog -> Prop :=
| sp_ret v : still_prog (PRet v)
| sp_raise e : still_prog (PRaise e)
| sp_ctx k : (forall r, still_prog (k r)) -> still_prog (PCtxForm k)
| sp_item i key k : (forall r, still_prog (k r)) -> still_prog (PItem i key k)
| sp_path op k : (forall r, still_prog (k r)) -> still_prog (PPath op k)
| sp_invalid v k : (forall r, still_prog (k r)) -> still_prog (PInvalid v k)
| sp_missing k : (forall r, still_prog (k r)) -> still_prog (PMissing k)
| sp_with vars b k : still_prog b -> (forall r, still_prog (k r)) -> still_prog (PWith vars b k)
| sp_push key b k : still_prog b -> (forall r, still_prog (k r)) -> still_prog (PPush key b k)
| sp_reset b k : still_prog b -> (forall r, still_prog (k r)) -> still_prog (PReset b k)
| sp_map t src tags rs u m k : still_form t -> still_unm u -> (forall r, still_prog (k r)) -> still_prog (PMap t src tags rs u m k)
(** Fields of every kind with such functions and without [attach_parent]. *)
with still : field -> Prop :=
| still_field o k :
    o_attach_parent o = false ->
    (forall h, o_default o = DUnset h -> hook_ok still_prog h) -> (forall p, o_default o = DCall p -> still_prog p) ->
    hook_ok still_prog (o_compute o) -> hook_ok still_prog (o_resolve o) -> hook_ok still_prog (o_parse o) ->
    hook_ok still_prog (o_munge o) -> hook_ok still_prog (o_filter o) -> hook_ok still_prog (o_validate o) ->
    still_kind k -> still (MkField o k)
with still_kind : kind -> Prop :=
| sk_any : still_kind KAny
| sk_string c : still_kind (KString c)
| sk_integer lo hi : still_kind (KInteger lo hi)
| sk_float lo hi : still_kind (KFloat lo hi)
| sk_decimal lo hi : still_kind (KDecimal lo hi)
| sk_bool : still_kind KBool
| sk_date fmts lo hi : still_kind (KDate fmts lo hi)
| sk_time fmt lo hi : still_kind (KTime fmt lo hi)
| sk_datetime fmt lo hi : still_kind (KDatetime fmt lo hi)
| sk_tuple fs : (forall f, In f fs -> still f) -> still_kind (KTuple fs)
| sk_list f lo hi a : still f -> still_kind (KList f lo hi a)
| sk_dict kf vf keyf rq mx : still kf -> still vf -> hook_ok still_prog keyf -> still_kind (KDict kf vf keyf rq mx)
| sk_code : still_kind KCode
| sk_uuid : still_kind KUUID
| sk_form t rs u : still_form t -> still_unm u -> still_kind (KSubForm t rs u)
| sk_poly probe tf table rs u : still_form probe -> still tf -> still_unm u -> (forall i c, In (i, c) table -> C c) ->
    still_kind (KPoly probe tf table rs u)
| sk_group l : (forall m f, In (m, f) l -> still f) -> still_kind (KGroup l)
with still_form : formty -> Prop :=
| still_formty n fs : (forall f, In f fs -> still f) -> still_form (FormTy n fs)
with still_unm : unm -> Prop :=
| su_ignore : still_unm UIgnore
| su_capture : still_unm UCapture
| su_falsy : still_unm UFalsy
| su_bad s : still_unm (UBad s)
| su_field f : still f -> still_unm (UField f)
| su_pair kf vf : still kf -> still vf -> still_unm (UPair kf vf).
(** The classes that may be led to are such forms themselves. *)
Definition still_classes (W : world) : Prop := forall c t, C c -> w_class W c = Some t -> still_form t.
End Still.

(** The fields that [tags] select: all of them without tags, else those with one of them. *)
Definition chosen (tags : list string) (f : field) : Prop :=
  tags = [] \/ exists t, In t tags /\ In t (f_tags f).
Inductive choice (tags : list string) : list field -> list field -> Prop :=
| ch_nil : choice tags [] []
| ch_in f fs gs : chosen tags f -> choice tags fs gs -> choice tags (f :: fs) (f :: gs)
| ch_out f fs gs : ~ chosen tags f -> choice tags fs gs -> choice tags (f :: fs) gs.
(** The tags in force: those given, else those of the context, where a hook may have put a
    list of texts. *)
Definition in_force (s : st) (tags tags' : list string) : Prop :=
  (tags <> [] /\ tags' = tags) \/
  (tags = [] /\ match lookup "tags" (stk s) with
                | Some (CTags l) => tags' = l
                | Some (CVal (VList l)) => l = map VStr tags' \/ ((forall ts, l <> map VStr ts) /\ tags' = [])
                | _ => tags' = []
                end).

(** The source made of the argument of [form.map]: a source as it is, a dict or a form
    wrapped, nothing at all an empty dict. *)
Inductive as_source : srcarg -> source -> Prop :=
| as_src s : as_source (ASrc s) s
| as_dict d : as_source (AVal (VDict d)) (SBase (BPlain (SDefault (VDict d) [] [] None)))
| as_form i : as_source (AVal (VForm i)) (SBase (BPlain (SDefault (VForm i) [] [] None)))
| as_null : as_source (AVal VNone) (SBase (BPlain (SDefault (VDict []) [] [] None)))
| as_none : as_source ANone (SBase (BPlain (SDefault (VDict []) [] [] None))).
(** It is used unless there is no argument and the context has a source already. *)
Definition at_top (s : st) (a : srcarg) : Prop :=
  match a with
  | ANone | AVal VNone => exists c, lookup "src" (stk s) = Some c /\ is_none_c c = true
  | _ => exists c, lookup "src" (stk s) = Some c
  end.

(** The keys that are names of these fields. *)
Definition named (gs : list field) (k : val) : bool :=
  match k with VStr a => existsb (fun g => String.eqb a (fname g)) gs | _ => false end.
Definition entries_at (s : st) (id : nat) : list (val * val) :=
  match nth_error (forms s) id with Some (_, l) => l | None => [] end.
Definition without (gs : list field) (l : list (val * val)) : list (val * val) :=
  filter (fun kv => negb (named gs (fst kv))) l.

(** The state [s1] in which the fields of form [id] are mapped, when [form.map] is called
    in state [s]: two blocks are open, with the new source path and a new error list; with
    [reset] the entries of the fields to map are gone, and nothing else has changed. *)
Record begins (W : world) (id : nat) (src : source) (m : mode) (rs : bool) (gs : list field) (s s1 : st) : Prop := {
  bg_stk : stk s1 = [("form", CForm id); ("parent", CForm id)]
                    :: [("src_path", CPath (length (paths s))); ("src", CSrc src); ("errors", CErrs (length (errs s)))]
                    :: stk s;
  bg_path : exists h p q vw, source_path (w_env W) h src = Ok p /\ p_mapping (w_env W) h p = (q, Ok vw) /\
                             paths s1 = paths s ++ [q];
  bg_errs : errs s1 = errs s ++ [(m, [])];
  bg_others : forall i, i <> id -> nth_error (forms s1) i = nth_error (forms s) i;
  bg_type : option_map fst (nth_error (forms s1) id) = option_map fst (nth_error (forms s) id);
  bg_entries : entries_at s1 id = if rs then without gs (entries_at s id) else entries_at s id
}.

(** [form[name] = value] *)
Definition stored (id : nat) (f : field) (v : val) (s : st) : st :=
  match nth_error (forms s) id with
  | Some (t, l) => St (stk s) (replace_nth id (t, dict_set l (VStr (fname f)) v) (forms s)) (paths s) (errs s)
  | None => s
  end.
(** Fields mapped one after the other, each value stored in form [id] before the next
    field; their values and the errors each adds to the error list [eid]. *)
Inductive maps (W : world) (n id eid : nat) : list field -> st -> list val -> list (list err) -> st -> Prop :=
| ms_nil s : maps W n id eid [] s [] [] s
| ms_cons f fs s v s1 m es new vs news s2 :
    field_map W n f NONEv s = (Ok v, s1) ->
    nth_error (errs s) eid = Some (m, es) -> nth_error (errs s1) eid = Some (m, es ++ new) ->
    maps W n id eid fs (if ignored v then s1 else stored id f v s1) vs news s2 ->
    maps W n id eid (f :: fs) s (v :: vs) (new :: news) s2.
(** A field raises. *)
Inductive maps_raise (W : world) (n id eid : nat) : list field -> st -> exn -> st -> Prop :=
| mr_here f fs s x s1 :
    field_map W n f NONEv s = (Exn x, s1) -> maps_raise W n id eid (f :: fs) s x s1
| mr_later f fs s v s1 x s2 :
    field_map W n f NONEv s = (Ok v, s1) ->
    maps_raise W n id eid fs (if ignored v then s1 else stored id f v s1) x s2 ->
    maps_raise W n id eid (f :: fs) s x s2.

(** What a form holds after these values were stored in it. *)
Fixpoint assigned (gs : list field) (vs : list val) (l : list (val * val)) : list (val * val) :=
  match gs, vs with
  | g :: gs', v :: vs' => assigned gs' vs' (if ignored v then l else dict_set l (VStr (fname g)) v)
  | _, _ => l
  end.
(** The value of the last of these fields that has this name and a value. *)
Fixpoint latest (gs : list field) (vs : list val) (a : string) (d : option val) : option val :=
  match gs, vs with
  | g :: gs', v :: vs' => latest gs' vs' a (if ignored v then d else if String.eqb (fname g) a then Some v else d)
  | _, _ => d
  end.

(** Inside a sub-form field whose value is at path [q]: the sub-form is the newest form and
    has the newest error list. *)
Definition inside_sub (f : field) (t : formty) (s : st) (pid : nat) (q : path) : st :=
  let w := within f s pid q in
  St ([("form", CForm (length (forms s))); ("parent", CForm (length (forms s)))]
        :: [("errors", CErrs (length (errs s)))] :: stk w)
     (forms s ++ [(t, [])]) (paths w) (errs s ++ [(Collect, [])]).

(** After a run: the context is as before, forms and errors as the fields left them. *)
Definition left_by (s s2 s' : st) : Prop :=
  stk s' = stk s /\ forms s' = forms s2 /\ errs s' = errs s2 /\ paths s' = paths s2.
(** How [form.map] with a source of its own ends: every chosen field was mapped, in order,
    and the errors are those of the fields, one after the other (in raise mode they are
    raised); or a field raised; or the source could not be read as a mapping. *)
Inductive outcome (W : world) (n id : nat) (src : source) (m : mode) (rs : bool) (gs : list field) (s : st)
  : res (list err) -> st -> Prop :=
| oc_returns s1 vs news s2 s' :
    begins W id src m rs gs s s1 -> maps W n id (length (errs s)) gs s1 vs news s2 -> left_by s s2 s' ->
    m = Collect \/ concat news = [] -> outcome W n id src m rs gs s (Ok (concat news)) s'
| oc_reports s1 vs news s2 s' :
    begins W id src m rs gs s s1 -> maps W n id (length (errs s)) gs s1 vs news s2 -> left_by s s2 s' ->
    m = Raise -> concat news <> [] -> outcome W n id src m rs gs s (Exn (EForm (concat news))) s'
| oc_raises s1 x s2 s' :
    begins W id src m rs gs s s1 -> maps_raise W n id (length (errs s)) gs s1 x s2 -> left_by s s2 s' ->
    outcome W n id src m rs gs s (Exn x) s'
| oc_unreadable h x s' :
    source_path (w_env W) h src = Exn x \/
    (exists p q, source_path (w_env W) h src = Ok p /\ p_mapping (w_env W) h p = (q, Exn x)) ->
    outcome W n id src m rs gs s (Exn x) s'.

(** What a sub-form field finds at its place can be read as a mapping; [q] is the path after
    looking. *)
Definition sub_at (W : world) (s : st) (f : field) (t : formty) (p q : path) : Prop :=
  exists q2 vw, present_at W s f p q2 /\ p_mapping (w_env W) (entries (snd (new_form t s))) q2 = (q, Ok vw).
(** Unmapped keys are ignored. *)
Definition ignoring (u : unm) : Prop := u = UIgnore \/ u = UFalsy.
