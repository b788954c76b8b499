(** * SpecJson: what the theorems about mapping JSON documents are about (C29, C40, C41,
    C45-C47). *)
From Verif Require Import PyBase PyStr Source Field Context Fields SpecSrc SpecForm Eval.

(** ** C29: forms without user code *)

(** No hook, no callable default, no [attach_parent], no translations; [src] a string or
    an integer (or none). *)
Record tame_opts (o : fopts prog) : Prop := {
  tm_src : forall k, o_src o = Some k -> plain_key k;
  tm_default : o_default o = DUnset None \/ exists v, o_default o = DVal v;
  tm_translations : o_translations o = [];
  tm_parent : o_attach_parent o = false;
  tm_compute : o_compute o = None;
  tm_resolve : o_resolve o = None;
  tm_parse : o_parse o = None;
  tm_munge : o_munge o = None;
  tm_filter : o_filter o = None;
  tm_validate : o_validate o = None
}.
(** The key field of a dict: any string field; its default, if it has one, can be a key. *)
Inductive tame_key : field -> Prop :=
| tame_key_field o k :
    tame_opts o -> (k = KAny \/ exists c, k = KString c) -> (forall v, o_default o = DVal v -> hashable v = true) ->
    tame_key (MkField o k).
(** Every kind but floats and decimals (whose conversions may crash: C28, C29), fields with
    bounds that can be compared with the values, and [PolymorphicSubForm]. *)
Inductive tame : field -> Prop :=
| tame_field o k : tame_opts o -> tame_kind k -> tame (MkField o k)
with tame_kind : kind -> Prop :=
| tk_any : tame_kind KAny
| tk_string c : tame_kind (KString c)
| tk_integer lo hi :
    (forall b, lo = Some b -> exists z, b = VInt z) -> (forall b, hi = Some b -> exists z, b = VInt z) ->
    tame_kind (KInteger lo hi)
| tk_bool : tame_kind KBool
| tk_date fmts lo hi :
    (forall b, lo = Some b -> exists z, b = VDate z) -> (forall b, hi = Some b -> exists z, b = VDate z) ->
    tame_kind (KDate fmts lo hi)
| tk_time fmt lo hi :
    (forall b, lo = Some b -> exists z, b = VTime z) -> (forall b, hi = Some b -> exists z, b = VTime z) ->
    tame_kind (KTime fmt lo hi)
| tk_datetime fmt lo hi :
    (forall b, lo = Some b -> exists z, b = VDatetime z) -> (forall b, hi = Some b -> exists z, b = VDatetime z) ->
    tame_kind (KDatetime fmt lo hi)
| tk_tuple fs : (forall f, In f fs -> tame f) -> tame_kind (KTuple fs)
| tk_list f lo hi a : tame f -> tame_kind (KList f lo hi a)
| tk_dict kf vf rq mx : (forall k, In k rq -> exists s, k = VStr s) -> tame_key kf -> tame vf -> tame_kind (KDict kf vf None rq mx)
| tk_code : tame_kind KCode
| tk_uuid : tame_kind KUUID
| tk_form t rs u : tame_form t -> ignoring u -> tame_kind (KSubForm t rs u)
| tk_group l : (forall m f, In (m, f) l -> tame f) -> tame_kind (KGroup l)
with tame_form : formty -> Prop :=
| tame_formty n fs : (forall f, In f fs -> tame f) -> tame_form (FormTy n fs).

(** The only thing [form.map] raises: in raise mode, a [FormError] with errors. *)
Definition no_crash {A} (m : mode) (x : res A) : Prop :=
  match x with
  | Ok _ => True
  | Exn (EForm (_ :: _)) => m = Raise
  | Exn _ => False
  end.

(** ** Plain data: a JSON document, a configuration, or a tree of plain Python values (see
    [plain_native]), given as a source or as a dict *)
Inductive plain_data (W : world) : srcarg -> Prop :=
| pd_json d strict loc : json_val d = true -> plain_data W (ASrc (SBase (BPlain (SJson d strict loc))))
| pd_native P d loc : plain_native (w_env W) P -> P d -> plain_data W (ASrc (SBase (BPlain (SDefault d [] [] loc))))
| pd_config cfg sec d loc : config_given cfg sec d -> plain_data W (ASrc (SBase (BPlain (SConfig cfg sec d loc))))
| pd_dict P items : plain_native (w_env W) P -> P (VDict items) -> plain_data W (AVal (VDict items)).

(** ** C40, C41: fields without user code, of every kind but [PolymorphicSubForm] *)
Record bare_opts (o : fopts prog) : Prop := {
  br_src : forall k, o_src o = Some k -> plain_key k;
  br_default : o_default o = DUnset None \/ exists v, o_default o = DVal v;
  br_compute : o_compute o = None;
  br_resolve : o_resolve o = None;
  br_parse : o_parse o = None;
  br_munge : o_munge o = None;
  br_filter : o_filter o = None;
  br_validate : o_validate o = None
}.
Inductive bare : field -> Prop :=
| bare_field o k : bare_opts o -> bare_kind k -> bare (MkField o k)
with bare_kind : kind -> Prop :=
| bk_any : bare_kind KAny
| bk_string c : bare_kind (KString c)
| bk_integer lo hi : bare_kind (KInteger lo hi)
| bk_float lo hi : bare_kind (KFloat lo hi)
| bk_decimal lo hi : bare_kind (KDecimal lo hi)
| bk_bool : bare_kind KBool
| bk_date fmts lo hi : bare_kind (KDate fmts lo hi)
| bk_time fmt lo hi : bare_kind (KTime fmt lo hi)
| bk_datetime fmt lo hi : bare_kind (KDatetime fmt lo hi)
| bk_tuple fs : (forall f, In f fs -> bare f) -> bare_kind (KTuple fs)
| bk_list f lo hi a : bare f -> bare_kind (KList f lo hi a)
| bk_dict kf vf rq mx : bare kf -> bare vf -> bare_kind (KDict kf vf None rq mx)
| bk_code : bare_kind KCode
| bk_uuid : bare_kind KUUID
| bk_form t rs u : bare_form t -> bare_unm u -> bare_kind (KSubForm t rs u)
| bk_group l : (forall m f, In (m, f) l -> bare f) -> bare_kind (KGroup l)
with bare_form : formty -> Prop :=
| bare_formty n fs : (forall f, In f fs -> bare f) -> bare_form (FormTy n fs)
with bare_unm : unm -> Prop :=
| bu_ignore : bare_unm UIgnore
| bu_capture : bare_unm UCapture
| bu_falsy : bare_unm UFalsy
| bu_bad s : bare_unm (UBad s)
| bu_field f : bare f -> bare_unm (UField f)
| bu_pair kf vf : bare kf -> bare vf -> bare_unm (UPair kf vf).

(** Fields that report at most one error: they hold one value, and report nothing while
    converting it. *)
Definition single (f : field) : bool :=
  match f_kind f with
  | KAny | KString _ | KInteger _ _ | KFloat _ _ | KDecimal _ _ | KBool | KUUID => true
  | KDate fmts _ _ => match fmts with [] => false | _ => true end
  | KTime fmt _ _ => match fmt with None => false | _ => true end
  | _ => false
  end.

(** ** C46: what a form reads *)

(** Two documents are the same at a key. *)
Definition same_json (d d' : val) (k : key) : Prop := plain_key k /\ json_at d [k] = json_at d' [k].
Definition same_native (E : env) (d d' : val) (k : key) : Prop :=
  match k with
  | KStr s => strip_call s = None /\ forall v, found E no_ents [] 0 d s v <-> found E no_ents [] 0 d' s v
  | KInt _ => forall v, has_item E no_ents d k v <-> has_item E no_ents d' k v
  | KRaw _ => False
  end.
(** The field reads only at keys that are the same: at its own key, or, for a flat sub-form
    (no [src]), at the keys of the fields of the sub-form.  A [Group] reads every key. *)
Inductive reads_within (same : key -> Prop) : field -> Prop :=
| rw_key o k kd :
    o_src o = Some k -> same k -> (forall l, kd <> KGroup l) -> reads_within same (MkField o kd)
| rw_flat o t rs u :
    o_src o = None -> bare_opts o -> ignoring u -> (forall f, In f (ft_fields t) -> reads_within same f) ->
    reads_within same (MkField o (KSubForm t rs u)).

(** ** C45: what is captured *)
Definition str_keys (items : list (val * val)) : list string :=
  flat_map (fun kv => match fst kv with VStr k => [k] | _ => [] end) items.
(** The keys of the document that are not entries [l] of the form *)
Definition left_over (items l : list (val * val)) : list string :=
  filter (fun k => negb (dict_has l (VStr k))) (str_keys items).
(** The value at a key of the document, which a dotted key need not have *)
Definition at_key (items : list (val * val)) (k : string) : option val := json_at (VDict items) [KStr k].
(** The error for a key without value *)
Definition lost (loc : option string) (pid : nat) (k : string) : err :=
  MkErr Missing (String.concat ":" (opt_str loc ++ [k])) None (Some pid).
Definition lost_keys (items l : list (val * val)) : list string :=
  filter (fun k => match at_key items k with None => true | _ => false end) (left_over items l).
Definition missing_ignored (s : st) : bool :=
  match lookup "ignore_missing" (stk s) with Some c => truthy_c c | None => false end.
