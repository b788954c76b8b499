(** * Context: pilo/context.py and the mutable state of a mapping. *)
From Verif Require Import PyBase PyStr Source Field.

(** Values of context variables: objects pilo itself puts there are references. *)
Inductive cval :=
| CNone
| CVal (v : val)               (* a user value *)
| CKey (k : key)               (* src = key *)
| CSrc (s : source)            (* src = a Source *)
| CPath (pid : nat)            (* src_path = a live Path *)
| CErrs (eid : nat)            (* errors = an error list *)
| CForm (id : nat)             (* form / parent *)
| CField (f : field)           (* field / parent *)
| CTags (l : list string).

(** context.py:33-41 [Frame]: the keyword arguments. *)
Definition frame := list (string * cval).

(** The state.  [stk]: [Context.stack], top first.  [forms]: every form object
    with its class and dict contents.  [paths]: every [Path] object.  [errs]: every
    [CollectErrors] / [RaiseErrors] list. *)
Record st := St {
  stk : list frame;
  forms : list (formty * list (val * val));
  paths : list path;
  errs : list (mode * list err)
}.

Definition M (A : Type) := st -> res A * st.
Definition ret {A} (a : A) : M A := fun s => (Ok a, s).
Definition raise {A} (e : exn) : M A := fun s => (Exn e, s).
Definition bind {A B} (m : M A) (f : A -> M B) : M B :=
  fun s => match m s with
           | (Ok a, s') => f a s'
           | (Exn e, s') => (Exn e, s')
           end.
(** [try: ... except]: the handler sees the outcome. *)
Definition catch {A B} (m : M A) (f : res A -> M B) : M B :=
  fun s => let '(r, s') := m s in f r s'.
Definition lift {A} (r : res A) : M A := fun s => (r, s).
Definition get {A} (f : st -> A) : M A := fun s => (Ok (f s), s).

Declare Scope m_scope.
Delimit Scope m_scope with m.
Notation "x <- m ; k" := (bind m (fun x => k))
  (at level 61, m at next level, right associativity) : m_scope.
Notation "m ;; k" := (bind m (fun _ => k))
  (at level 61, right associativity) : m_scope.
Open Scope m_scope.

Definition set_stk (l : list frame) : M unit :=
  fun s => (Ok tt, St l (forms s) (paths s) (errs s)).

Definition has_key (k : string) (f : frame) : bool :=
  match alookup f k with Some _ => true | None => false end.

(** context.py:103-109 [Context.__getattr__]: innermost frame having the name. *)
Fixpoint lookup (k : string) (l : list frame) : option cval :=
  match l with
  | [] => None
  | f :: rest => match alookup f k with Some c => Some c | None => lookup k rest end
  end.
Definition ctx_get_opt (k : string) : M (option cval) := get (fun s => lookup k (stk s)).
Definition ctx_get (k : string) : M cval :=
  o <- ctx_get_opt k;
  match o with
  | Some c => ret c
  | None => raise (EAttr ("'Context' object has no attribute '" ++ k ++ "'")%string)
  end.

Definition is_none_c (c : cval) : bool :=
  match c with
  | CNone | CVal VNone | CKey (KRaw VNone) => true
  | _ => false
  end.
Definition truthy_c (c : cval) : bool :=
  match c with
  | CNone => false
  | CVal v => truthy v
  | CKey k => truthy (val_of_key k)
  | CTags l => match l with [] => false | _ => true end
  | _ => true
  end.

(** The entries of a form object. *)
Definition entries (s : st) : entries_of :=
  fun i => match nth_error (forms s) i with Some (_, l) => l | None => [] end.

(** An operation on a live path. *)
Definition on_path {A} (W : world) (pid : nat)
           (op : env -> entries_of -> path -> path * res A) : M A :=
  fun s =>
    match nth_error (paths s) pid with
    | None => (Exn (EAttr "no such path"), s)
    | Some p =>
        let '(p', r) := op (w_env W) (entries s) p in
        (r, St (stk s) (forms s) (replace_nth pid p' (paths s)) (errs s))
    end.

(** [self.src_path], which must be a path for the operations below. *)
Definition cur_path : M nat :=
  c <- ctx_get "src_path";
  match c with
  | CPath pid => ret pid
  | _ => raise (EAttr "'NoneType' object has no attribute")
  end.

Definition key_of_cval (c : cval) : key :=
  match c with
  | CKey k => k
  | CVal v => key_of_val v
  | CNone => KRaw VNone
  | _ => KRaw (VObj "object" 0)
  end.

Definition new_path (p : path) : M nat :=
  fun s => (Ok (length (paths s)), St (stk s) (forms s) (paths s ++ [p]) (errs s)).

Definition push_frame (f : frame) : M unit :=
  fun s => (Ok tt, St (f :: stk s) (forms s) (paths s) (errs s)).

(** context.py:152-164 [Context.push] / [__call__] *)
Definition push (W : world) (kw : frame) : M unit :=
  match alookup kw "src" with
  | None => push_frame kw
  | Some (CSrc src) =>
      p <- (fun s => (source_path (w_env W) (entries s) src, s));
      pid <- new_path p;
      push_frame (("src_path", CPath pid) :: kw)
  | Some c =>
      pid <- cur_path;
      on_path W pid (fun _ _ p => (p_append (key_of_cval c) p, Ok tt));;
      push_frame kw
  end.

(** context.py:166-172 [Context.restore()] *)
Definition restore (W : world) : M unit :=
  fun s =>
    match stk s with
    | [] => (Exn EIndex, s)
    | f :: rest =>
        (set_stk rest;;
         (if has_key "src" f && negb (has_key "src_path" f) then
            pid <- cur_path;
            on_path W pid (fun _ _ p => p_pop p)
          else ret tt)) s
    end.

(** [with ctx.push(...): body] — context.py:53-66 [Close]: [restore] runs whatever
    the outcome. *)
Definition closing {A} (open_ close_ : M unit) (body : M A) : M A :=
  fun s =>
    match open_ s with
    | (Exn e, s1) => (Exn e, s1)
    | (Ok _, s1) =>
        let '(r, s2) := body s1 in
        match close_ s2 with
        | (Exn e, s3) => (Exn e, s3)
        | (Ok _, s3) => (r, s3)
        end
    end.
Definition with_ctx {A} (W : world) (kw : frame) (body : M A) : M A :=
  closing (push W kw) (restore W) body.

(** context.py:117-122 [Context.reset] *)
Definition with_reset {A} (W : world) (body : M A) : M A :=
  closing (push_frame [("src", CNone); ("src_path", CNone)]) (restore W) body.

(** context.py:137-142: index, from the top, of the first frame accepted. *)
Fixpoint find_frame (stop : frame -> bool) (l : list frame) : option nat :=
  match l with
  | [] => None
  | f :: rest => if stop f then Some O else option_map S (find_frame stop rest)
  end.

(** context.py:144-149 and 174-179: the frames (oldest first) that moved the path,
    up to the first that installs a path of its own. *)
Fixpoint src_frames (l : list frame) : list cval :=
  match l with
  | [] => []
  | f :: rest =>
      if has_key "src_path" f then []
      else match alookup f "src" with
           | Some c => c :: src_frames rest
           | None => src_frames rest
           end
  end.

Fixpoint repeat_m (n : nat) (m : M unit) : M unit :=
  match n with O => ret tt | S n' => m;; repeat_m n' m end.

(** context.py:124-150 [Context.rewind]; returns the removed frames, oldest first.
    [stack[-0:]] is the whole stack. *)
Definition rewind (W : world) (stop : frame -> bool) : M (list frame) :=
  fun s =>
    match find_frame stop (stk s) with
    | None => (Exn ERewind, s)
    | Some i =>
        let n := match i with O => length (stk s) | _ => i end in
        let frames := rev (firstn n (stk s)) in
        (set_stk (skipn n (stk s));;
         c <- ctx_get "src_path";
         (if is_none_c c then ret tt
          else repeat_m (length (src_frames frames))
                        (pid <- cur_path; on_path W pid (fun _ _ p => p_pop p)));;
         ret frames) s
    end.

Fixpoint append_all (W : world) (l : list cval) : M unit :=
  match l with
  | [] => ret tt
  | c :: rest =>
      pid <- cur_path;
      on_path W pid (fun _ _ p => (p_append (key_of_cval c) p, Ok tt));;
      append_all W rest
  end.

(** context.py:173-180 [Context.restore(frames)] *)
Definition restore_frames (W : world) (frames : list frame) : M unit :=
  match frames with
  | [] => ret tt
  | _ =>
      c <- ctx_get "src_path";
      (if is_none_c c then ret tt else append_all W (src_frames frames));;
      (fun s => (Ok tt, St (rev frames ++ stk s) (forms s) (paths s) (errs s)))
  end.

(** [with ctx.rewind(stop): body] *)
Definition with_rewind {A} (W : world) (stop : frame -> bool) (body : M A) : M A :=
  frames <- rewind W stop;
  closing (ret tt) (restore_frames W frames) body.

(** context.py:92-101: the initial context. *)
Definition base_frame : frame :=
  [("src", CNone); ("src_path", CNone);
   ("ignore_default", CVal (VBool false)); ("ignore_missing", CVal (VBool false))].
Definition init : st := St [base_frame] [] [] [].

(** ** Forms and error lists in the heap *)

(** A new form object (an empty dict). *)
Definition new_form (t : formty) : M nat :=
  fun s => (Ok (length (forms s)), St (stk s) (forms s ++ [(t, [])]) (paths s) (errs s)).

Definition form_entries (id : nat) : M (list (val * val)) := get (fun s => entries s id).
Definition form_type (id : nat) : M formty :=
  get (fun s => match nth_error (forms s) id with Some (t, _) => t | None => FormTy "" [] end).

Definition set_entries (id : nat) (l : list (val * val)) : M unit :=
  fun s =>
    match nth_error (forms s) id with
    | None => (Ok tt, s)
    | Some (t, _) => (Ok tt, St (stk s) (replace_nth id (t, l) (forms s)) (paths s) (errs s))
    end.

(** [form[key] = value] *)
Definition form_set (id : nat) (k v : val) : M unit :=
  l <- form_entries id; set_entries id (dict_set l k v).

(** [CollectErrors()] / [RaiseErrors()] *)
Definition new_errs (m : mode) : M nat :=
  fun s => (Ok (length (errs s)), St (stk s) (forms s) (paths s) (errs s ++ [(m, [])])).

Definition errs_of (eid : nat) : M (list err) :=
  get (fun s => match nth_error (errs s) eid with Some (_, l) => l | None => [] end).

(** [list.extend] on an error list *)
Definition extend_errs (eid : nat) (es : list err) : M unit :=
  fun s =>
    match nth_error (errs s) eid with
    | None => (Ok tt, s)
    | Some (m, l) =>
        (Ok tt, St (stk s) (forms s) (paths s) (replace_nth eid (m, l ++ es) (errs s)))
    end.

(** fields.py:150-163: calling an error list with errors. *)
Definition call_errs (eid : nat) (es : list err) : M unit :=
  extend_errs eid es;;
  m <- get (fun s => nth_error (errs s) eid);
  match m with
  | Some (Raise, l) => raise (EForm l)
  | _ => ret tt
  end.

(** [str(ctx.src_path)] with the identity of the path *)
Definition path_text (W : world) : M (string * option nat) :=
  c <- ctx_get "src_path";
  match c with
  | CPath pid =>
      t <- on_path W pid (fun E _ p => (p, p_str E p));
      ret (t, Some pid)
  | _ => ret ("None", None)
  end.

(** fields.py:113-147: building an error and reporting it to [ctx.errors].
    (Simplification: [ctx.Missing] / [ctx.Invalid] overrides: see Reports.v.) *)
Definition report (W : world) (kd : ekind) : M unit :=
  c <- ctx_get "errors";
  match c with
  | CErrs eid =>
      fc <- ctx_get "field";
      match fc with
      | CField f =>
          tl <- path_text W;
          call_errs eid [MkErr kd (fst tl) (f_name f) (snd tl)]
      | _ => raise (EAttr "no attribute 'ctx'")
      end
  | _ => raise (EAttr "no attribute 'invalid'")
  end.
