(** * SpecDrop: fields that must not vanish silently. *)
From Verif Require Import PyBase PyStr Source Field Context Fields SpecCtx SpecField SpecBox SpecLocal.

(** A default: none, a value other than [ERROR], or a callable that returns a value. *)
Definition fair_default (f : field) : Prop :=
  match o_default (f_opts f) with
  | DUnset None => True
  | DUnset (Some _) => False
  | DVal v => v <> VConst ERROR
  | DCall p => exists v, p = PRet v /\ ignored v = false
  end.
(** No translation turns a value into a marker. *)
Definition fair_translations (f : field) : Prop := forall k v, In (k, v) (o_translations (f_opts f)) -> ignored v = false.
(** The conversion a scalar field asks the source for. *)
Definition read_type (k : kind) : option ptype :=
  match k with
  | KAny | KCode => Some TyAuto
  | KString _ => Some TyStr
  | KInteger _ _ => Some TyInt
  | KFloat _ _ => Some TyFloat
  | KBool => Some TyBool
  | _ => None
  end.
(** What a scalar field reads at its place is not itself one of the markers NONE, ERROR,
    NOT_SET; nor do the compiler, the importer and the UUID parser return one. *)
Definition no_marker (W : world) (s : st) (f : field) (p : path) : Prop :=
  forall ty q q' v, read_type (f_kind f) = Some ty -> present_at W s f p q ->
    p_primitive (w_env W) (entries s) ty q = (q', Ok v) -> ignored v = false.
Definition honest_env (E : env) : Prop :=
  (forall x v, e_compile E x = Ok v -> ignored v = false) /\
  (forall x v, e_import E x = Some (Ok v) -> ignored v = false) /\
  (forall x v, e_uuid E x = Some v -> ignored v = false).
(** Fields that need none of this: every kind but [Field] and [Code], which ask for no
    conversion, and but lists with [allow_field]. *)
Definition converted (k : kind) : Prop :=
  match k with KAny | KCode => False | KList _ _ _ allow => allow = false | _ => True end.
(** [ctx.src] is set while the field is mapped (a sub-form looks at it). *)
Definition src_set (s : st) (f : field) : Prop :=
  exists c, match own_key f with Some k => Some (CKey k) | None => lookup "src" (stk s) end = Some c /\ is_none_c c = false.
(** A list with [allow_field=True] is given a sequence. *)
Definition no_fallback (W : world) (s : st) (f : field) (p : path) : Prop :=
  forall g lo hi, f_kind f = KList g lo hi true -> exists len q, sequence_at W s f p len q.

(** The path of a JSON, native or configuration source. *)
Definition plain_path (p : path) : Prop := exists q, p = PBase (BP q).

(** The errors [news] of the items at [keys], one list per item, when they ended as [vs]:
    each error is located at or below its own item, and an item without a value has at
    least one, unless it is optional. *)
Inductive accounted (W : world) (g : field) (pid : nat) (p : path) (igd igm : bool) : list key -> list val -> list (list err) -> Prop :=
| acc_nil : accounted W g pid p igd igm [] [] []
| acc_cons k keys v vs new news :
    Forall (located W pid (p_append k p)) new ->
    (ignored v = true -> new <> [] \/ (v = NOTSETv /\ igm = true) \/
       (v = NONEv /\ o_default (f_opts g) = DVal NONEv /\ igd = false)) ->
    accounted W g pid p igd igm keys vs news ->
    accounted W g pid p igd igm (k :: keys) (v :: vs) (new :: news).
