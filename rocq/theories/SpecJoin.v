(** * SpecJoin: flat forms mapped from a union of JSON documents (C102). *)
From Verif Require Import PyBase PyStr Source Field Context Fields SpecUnion.
Open Scope Z_scope.

(** ** The fields: those that read their location once, as a value of one type *)
Definition read_once (k : kind) : Prop :=
  match k with
  | KAny | KString _ | KInteger _ _ | KFloat _ _ | KBool | KDate _ _ _ | KTime _ _ _ | KDatetime _ _ _ | KCode => True
  | _ => False
  end.
(** Their hooks read entries of forms and report errors. *)
Fixpoint quiet_prog (p : prog) : Prop :=
  match p with
  | PRet _ | PRaise _ => True
  | PCtxForm k => forall x, quiet_prog (k x)
  | PItem _ _ k => forall x, quiet_prog (k x)
  | PInvalid _ k => forall x, quiet_prog (k x)
  | PMissing k => forall x, quiet_prog (k x)
  | _ => False
  end.
Definition quiet_hook (h : hook prog) : Prop := forall t args, quiet_prog (hk_fun h t args).
Definition quiet_ohook (o : option (hook prog)) : Prop := forall h, o = Some h -> quiet_hook h.
(** Each reads one key of the mapping, or (a flat form, [src] None) the mapping itself. *)
Record calm (K : kind -> Prop) (f : field) (o : option key) : Prop := {
  sf_kind : K (f_kind f);
  sf_src : o_src (f_opts f) = o;
  sf_key : match o with Some k => one_key k | None => True end;
  sf_default : match o_default (f_opts f) with
               | DUnset h => quiet_ohook h
               | DVal _ => True
               | DCall p => quiet_prog p
               end;
  sf_compute : o_compute (f_opts f) = None;
  sf_resolve : o_resolve (f_opts f) = None;
  sf_parse : o_parse (f_opts f) = None;
  sf_munge : quiet_ohook (o_munge (f_opts f));
  sf_filter : quiet_ohook (o_filter (f_opts f));
  sf_validate : quiet_ohook (o_validate (f_opts f))
}.
Definition calm_field (K : kind -> Prop) (f : field) (k : string) : Prop := calm K f (Some (KStr k)).
Definition simple_field : field -> string -> Prop := calm_field read_once.

(** ** The first of the documents that has the key *)
Fixpoint first_with (docs : list (list (val * val))) (k : string) : option val :=
  match docs with
  | [] => None
  | d :: rest => match dict_get d (VStr k) with Some v => Some v | None => first_with rest k end
  end.
(** One document that has at every key what the first document with the key has there. *)
Definition first_wins (docs : list (list (val * val))) (one : list (val * val)) : Prop :=
  forall k, dict_get one (VStr k) = first_with docs k.
Definition json_doc (strict : bool) (d : list (val * val)) : psource := SJson (VDict d) strict None.
(** The same for plain Python data: a dict *)
Definition native_doc (d : list (val * val)) : psource := SDefault (VDict d) [] [] None.
(** What the dict has at the key is no date or time, and if it has nothing there, [dict] has no
    attribute of that name. *)
Definition plain_read (E : env) (docs : list (list (val * val))) (one : list (val * val)) (k : string) : Prop :=
  match first_with docs k with
  | Some (VNone | VDate _ | VTime _ | VDatetime _) => False
  | Some _ => True
  | None => e_attr E (VDict one) k = None
  end.

(** ** Forms within forms (C103): what a form reads of merged mappings [ms] and of one dict.
    A value is that of the first mapping with the key; a form or a [Dict] reads the mappings there
    merged by the rule of the union, one with no key of its own these mappings themselves; and so
    on inside. *)
Definition keyed (k : kind) : Prop := match k with KGroup _ => False | _ => True end.
(** Strings without those met before *)
Inductive once : list string -> list string -> Prop :=
| once_nil : once [] []
| once_next k l l' : once (filter (fun x => negb (String.eqb k x)) l) l' -> once (k :: l) (k :: l').
(** The keys of the dict are those of the mappings, in the order they are met. *)
Definition same_keys (ms : list (psource * list (val * val))) (one : list (val * val)) (ks : list string) : Prop :=
  exists all, flat_map (fun sm => map fst (snd sm)) ms = map VStr all /\ once all ks /\ map fst one = map VStr ks.
Inductive reads_with (Q : list (val * val) -> string -> option val -> Prop) (u : usource) : list (psource * list (val * val)) -> list (val * val) -> field -> Prop :=
| ra_at ms one f k : read_at Q u ms one k f (Some (KStr k)) -> reads_with Q u ms one f
| ra_flat ms one f t rs un :
    calm (eq (KSubForm t rs un)) f None -> ms <> [] -> leaves_with Q u ms one un ->
    (forall g, In g (ft_fields t) -> reads_with Q u ms one g) -> reads_with Q u ms one f
| ra_flat_dict ms one f kf vf hook req max :
    calm (eq (KDict kf vf hook req max)) f None -> quiet_ohook hook -> ms <> [] -> items_with Q u ms one kf vf -> reads_with Q u ms one f
(** What a field with the [src] given reads at a key *)
with read_at (Q : list (val * val) -> string -> option val -> Prop) (u : usource) : list (psource * list (val * val)) -> list (val * val) -> string -> field -> option key -> Prop :=
| at_nothing ms one k f o :
    calm keyed f o -> one_key (KStr k) ->
    under (KStr k) ms = [] -> dict_get one (VStr k) = None -> Q one k None -> read_at Q u ms one k f o
| at_value ms one k f o s v rest :
    calm read_once f o -> one_key (KStr k) ->
    under (KStr k) ms = (s, v) :: rest -> v <> VNone -> dict_get one (VStr k) = Some v -> Q one k (Some v) -> read_at Q u ms one k f o
| at_form ms one k f o t rs un ms' one' :
    calm (eq (KSubForm t rs un)) f o -> one_key (KStr k) ->
    under (KStr k) ms <> [] -> merge_maps (map_rule u (under (KStr k) ms)) (under (KStr k) ms) = Ok ms' ->
    dict_get one (VStr k) = Some (VDict one') -> leaves_with Q u ms' one' un ->
    (forall g, In g (ft_fields t) -> reads_with Q u ms' one' g) -> read_at Q u ms one k f o
| at_dict ms one k f o kf vf hook req max ms' one' :
    calm (eq (KDict kf vf hook req max)) f o -> quiet_ohook hook -> one_key (KStr k) ->
    under (KStr k) ms <> [] -> merge_maps (map_rule u (under (KStr k) ms)) (under (KStr k) ms) = Ok ms' ->
    dict_get one (VStr k) = Some (VDict one') -> items_with Q u ms' one' kf vf -> read_at Q u ms one k f o
(** What is done with the keys no field has read *)
with leaves_with (Q : list (val * val) -> string -> option val -> Prop) (u : usource) : list (psource * list (val * val)) -> list (val * val) -> unm -> Prop :=
| lv_ignored ms one un : un = UIgnore \/ un = UFalsy -> leaves_with Q u ms one un
| lv_capture ms one : ms <> [] -> items_with Q u ms one plain_string plain_field -> leaves_with Q u ms one UCapture
| lv_field ms one vf : ms <> [] -> items_with Q u ms one plain_string vf -> leaves_with Q u ms one (UField vf)
| lv_pair ms one kf vf : ms <> [] -> items_with Q u ms one kf vf -> leaves_with Q u ms one (UPair kf vf)
(** Every key of a mapping, with its value *)
with items_with (Q : list (val * val) -> string -> option val -> Prop) (u : usource) : list (psource * list (val * val)) -> list (val * val) -> field -> field -> Prop :=
| ia_items ms one kf vf ks :
    same_keys ms one ks -> calm read_once kf None -> o_attach_parent (f_opts vf) = false ->
    (forall k, In k ks -> read_at Q u ms one k vf None) -> items_with Q u ms one kf vf.
(** JSON can be read anywhere; of Python data no date or time is read (a source parses those from
    text only), and no key that is missing but the name of an attribute of the dict. *)
Definition json_read (_ : list (val * val)) (_ : string) (_ : option val) : Prop := True.
Definition native_read (E : env) (d : list (val * val)) (k : string) (o : option val) : Prop :=
  match o with
  | Some (VDate _ | VTime _ | VDatetime _) => False
  | Some _ => True
  | None => e_attr E (VDict d) k = None
  end.
Notation reads_alike := (reads_with json_read).
Notation leaves := (leaves_with json_read).
(** Below a missing key a source of Python data finds the attributes of the sentinel NONE: they
    are such data as well. *)
Definition sentinel_ok (E : env) (P : val -> Prop) : Prop :=
  P (VStr "NONE") /\ forall s v, e_attr E (VConst NONE) s = Some v -> P v.
(** The documents of a union, combined *)
Definition all_docs (strict : bool) (docs : list (list (val * val))) : list (psource * list (val * val)) := map (fun d => (json_doc strict d, d)) docs.
Definition all_native (docs : list (list (val * val))) : list (psource * list (val * val)) := map (fun d => (native_doc d, d)) docs.
