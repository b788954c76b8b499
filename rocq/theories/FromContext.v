(** * FromContext: [Field.from_context], fields.py:431-440: a field that reads a variable of the
    context instead of the source. *)
From Verif Require Import PyBase PyStr Source Field Context Fields More.

(** What [getattr(ctx, name)] gives as an object.  Simplification: objects of pilo's own that are
    not values (sources, paths, error lists, fields) have no attributes. *)
Definition object_of (c : cval) : val :=
  match c with
  | CNone => VNone
  | CVal v => v
  | CKey k => val_of_key k
  | CForm id => VForm id
  | CTags l => VList (map VStr l)
  | CSrc _ => VObj "Source" 0
  | CPath _ => VObj "Path" 0
  | CErrs _ => VObj "Errors" 0
  | CField _ => VObj "Field" 0
  end.
Definition attribute_value (a : attribute) : val :=
  match a with Entry c => object_of c | Method n => VObj n 0 end.

(** The context as an object: [ctx.k] is context.py:103-109, and [ctx[k]] is a TypeError, the class
    has no [__getitem__].  Simplification: the variables are those at the time the field
    resolves its source. *)
Definition ctx_object : val := VObj "Context" 0.
Definition is_ctx (v : val) : bool := match v with VObj c i => String.eqb c "Context" && (i =? 0)%Z | _ => false end.
Definition ctx_env (E : env) (s : st) : env := {|
  py3 := py3 E;
  e_attr := fun v k => if is_ctx v then option_map attribute_value (ctx_attr k s) else e_attr E v k;
  e_item := fun v k => if is_ctx v then Exn (EType "'Context' object has no attribute '__getitem__'") else e_item E v k;
  e_call := e_call E; e_float := e_float E; e_dec := e_dec E; e_str := e_str E; e_iso := e_iso E;
  e_strp := e_strp E; e_strptime_time := e_strptime_time E; e_uuid := e_uuid E; e_re := e_re E;
  e_compile := e_compile E; e_import := e_import E; e_shlex := e_shlex E; e_format := e_format E |}.
Definition ctx_world (W : world) (s : st) : world := MkWorld (ctx_env (w_env W) s) (w_class W).

(** fields.py:431-440: the resolve hook opens two blocks, [ctx(src=DefaultSource(ctx))] and
    [ctx(src=self.src)]; [contextlib.nested] closes them in reverse.  Python 3 has no
    [contextlib.nested]; the attribute is looked up before the blocks are opened. *)
Definition no_nested : exn := EAttr "module 'contextlib' has no attribute 'nested'".
Definition src_key (f : field) : key := match o_src (f_opts f) with Some k => k | None => KRaw VNone end.
Definition from_context_resolved {A} (W : world) (f : field) (body : M A) : M A :=
  if py3 (w_env W) then raise no_nested
  else with_ctx W [("src", CSrc (native ctx_object []))] (with_ctx W [("src", CKey (src_key f))] body).

(** fields.py:553-595 [Field._map] with that hook *)
Definition from_context__map (W : world) (n : nat) (f : field) (value : val) : M val :=
  if is_NONE value
  then from_context_resolved W f
         (fun s => let W' := ctx_world W s in field_body W' (field_map W' n) f value s)
  else field_body W (field_map W n) f value.

(** fields.py:597-617 [Field.map] *)
Definition from_context_map (W : world) (n : nat) (f : field) (value : val) : M val :=
  v <- with_ctx W [("field", CField f); ("parent", CField f)] (from_context__map W n f value);
  (if o_attach_parent (f_opts f) && negb (ignored v) then set_parent v else ret tt);;
  ret v.
