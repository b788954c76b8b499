(** * Eval: a direct recursive evaluation of fields on data (specification for C30).

    No context stack, no path object, no cache: the evaluator is handed the value found
    at the location of the field.  What it threads is what a caller can observe: the
    errors reported so far and the form objects.

    Pure functions of one value are those of the model (checks, date formats, matching a key
    to a group, selection by tags, the errors caught when parsing, the parsers of a source);
    the theorems C06-C13, C19-C25, C27, C28, C35 and C43 are about them. *)
From Verif Require Import PyBase PyStr Source Field Context Fields SpecSrc.

Definition heap := list (formty * list (val * val)).
(** A step: errors so far and forms in, outcome, errors so far and forms out. *)
Definition Ev (A : Type) := list err * heap -> res A * (list err * heap).
Definition eret {A} (a : A) : Ev A := fun s => (Ok a, s).
Definition eraise {A} (e : exn) : Ev A := fun s => (Exn e, s).
Definition ebind {A B} (m : Ev A) (f : A -> Ev B) : Ev B :=
  fun s => match m s with (Ok a, s') => f a s' | (Exn e, s') => (Exn e, s') end.
Definition ecatch {A B} (m : Ev A) (f : res A -> Ev B) : Ev B :=
  fun s => let '(r, s') := m s in f r s'.
Definition elift {A} (r : res A) : Ev A := fun s => (r, s).
Declare Scope ev_scope.
Delimit Scope ev_scope with ev.
Notation "x <~ m ; k" := (ebind m (fun x => k))
  (at level 61, m at next level, right associativity) : ev_scope.
Notation "m ;;; k" := (ebind m (fun _ => k))
  (at level 61, right associativity) : ev_scope.
Open Scope ev_scope.

(** Where and under which settings a field is evaluated:
    - the source, and the identity of its path object (part of every error)
    - error mode, [ctx.ignore_default], [ctx.ignore_missing], [ctx.tags], [ctx.form]
    - the name of the field (an [AttributeError] when there is no [ctx.field])
    - the keys of the location, and the value found there *)
Record rd := Rd {
  r_src : psource;
  r_pid : nat;
  r_mode : mode;
  r_igd : bool;
  r_igm : bool;
  r_tags : list string;
  r_form : res val;
  r_field : res (option string);
  r_keys : list key;
  r_val : res val
}.

Definition no_ents : entries_of := fun _ => [].
Definition hents (h : heap) : entries_of :=
  fun i => match nth_error h i with Some (_, l) => l | None => [] end.

(** What the evaluator does not follow. *)
Definition unevaluated : exn := EOther "not evaluated".

Section Eval.
Variable W : world.
Variable rec : rd -> field -> val -> Ev val.
Let E := w_env W.

(** The value one key further down. *)
Definition r_child (r : rd) (k : key) : res val :=
  match r_val r with Ok v => psource_resolve E no_ents (r_src r) [] v k | Exn e => Exn e end.
Definition r_at (r : rd) (k : key) : rd :=
  Rd (r_src r) (r_pid r) (r_mode r) (r_igd r) (r_igm r) (r_tags r) (r_form r) (r_field r)
     (r_keys r ++ [k]) (r_child r k).
Definition r_for (r : rd) (f : field) : rd :=
  Rd (r_src r) (r_pid r) (r_mode r) (r_igd r) (r_igm r) (r_tags r) (r_form r) (Ok (f_name f))
     (r_keys r) (r_val r).
Definition r_inform (r : rd) (id : nat) : rd :=
  Rd (r_src r) (r_pid r) (r_mode r) (r_igd r) (r_igm r) (r_tags r) (Ok (VForm id)) (r_field r)
     (r_keys r) (r_val r).
Definition r_collecting (r : rd) (m : mode) : rd :=
  Rd (r_src r) (r_pid r) m (r_igd r) (r_igm r) (r_tags r) (r_form r) (r_field r)
     (r_keys r) (r_val r).

(** *** Looking at the value *)
Definition on_val {A} (r : rd) (f : val -> res A) : Ev A :=
  elift (match r_val r with Ok v => f v | Exn e => Exn e end).
Definition ev_value (r : rd) : Ev val := on_val r Ok.
Definition ev_exists (r : rd) : Ev bool := on_val r (fun v => Ok (negb (is_NONE v))).
Definition ev_null (r : rd) : Ev bool := on_val r (fun v => Ok (is_None v)).
Definition ev_primitive (r : rd) (t : ptype) : Ev val := on_val r (psource_parse E (r_src r) t).
Definition ev_sequence (r : rd) : Ev nat := on_val r (psource_sequence E (r_src r)).
Definition ev_mapping (r : rd) : Ev view :=
  on_val r (psource_mapping E no_ents (r_src r) (length (r_keys r))).

(** *** Reporting *)
Definition ev_report (r : rd) (kd : ekind) : Ev unit :=
  fun '(es, h) =>
    match r_field r, pkeys_str E (r_src r) (r_keys r) with
    | Exn e, _ | _, Exn e => (Exn e, (es, h))
    | Ok n, Ok t =>
        let es' := es ++ [MkErr kd t n (Some (r_pid r))] in
        (match r_mode r with Raise => Exn (EForm es') | Collect => Ok tt end, (es', h))
    end.
Definition ev_invalid (r : rd) (x : viol) : Ev val := ev_report r (Invalid x);;; eret ERRORv.
Definition ev_missing (r : rd) : Ev val :=
  (if r_igm r then eret tt else ev_report r Missing);;; eret NOTSETv.

(** *** Forms *)
Definition ev_entries (id : nat) : Ev (list (val * val)) := fun s => (Ok (hents (snd s) id), s).
Definition ev_type (id : nat) : Ev formty :=
  fun s => (Ok (match nth_error (snd s) id with Some (t, _) => t | None => FormTy "" [] end), s).
Definition ev_set_entries (id : nat) (l : list (val * val)) : Ev unit :=
  fun s => match nth_error (snd s) id with
           | None => (Ok tt, s)
           | Some (t, _) => (Ok tt, (fst s, replace_nth id (t, l) (snd s)))
           end.
Definition ev_set (id : nat) (k v : val) : Ev unit :=
  l <~ ev_entries id; ev_set_entries id (dict_set l k v).
Definition ev_new (t : formty) : Ev nat := fun s => (Ok (length (snd s)), (fst s, snd s ++ [(t, [])])).
Definition ev_del (f : field) (id : nat) : Ev unit :=
  l <~ ev_entries id;
  if dict_has l (VStr (fname f)) then ev_set_entries id (dict_del l (VStr (fname f))) else eret tt.
Definition ev_setattr (id : nat) (a : string) (v : val) : Ev unit :=
  t <~ ev_type id;
  match find_field a t with Some f => ev_set id (VStr (fname f)) v | None => eret tt end.
Definition ev_delattr (id : nat) (a : string) : Ev unit :=
  t <~ ev_type id;
  match find_field a t with Some f => ev_del f id | None => eraise (EAttr a) end.
Definition ev_item (id : nat) (k : val) : Ev val :=
  if hashable k then
    l <~ ev_entries id;
    match dict_get l k with Some v => eret v | None => eraise EKey end
  else eraise dict_unhashable.

(** *** Hooks that use only the value, the errors and the forms *)
Definition ev_pathop (r : rd) (op : pathop) : Ev val :=
  match op with
  | OpValue => ev_value r
  | OpExists => b <~ ev_exists r; eret (VBool b)
  | OpIsNull => b <~ ev_null r; eret (VBool b)
  | OpPrimitive t => ev_primitive r t
  | OpSequence => n <~ ev_sequence r; eret (VInt (Z.of_nat n))
  | OpMapping => v <~ ev_mapping r; l <~ elift v; eret (VList l)
  end.
Definition ev_unit (m : Ev unit) : Ev val := m;;; eret VNone.
Fixpoint ev_prog (r : rd) (p : prog) : Ev val :=
  match p with
  | PRet v => eret v
  | PRaise e => eraise e
  | PCtxForm k => ecatch (elift (r_form r)) (fun x => ev_prog r (k x))
  | PSet id a v k => ecatch (ev_unit (ev_setattr id a v)) (fun x => ev_prog r (k x))
  | PDel id a k => ecatch (ev_unit (ev_delattr id a)) (fun x => ev_prog r (k x))
  | PItem id key k => ecatch (ev_item id key) (fun x => ev_prog r (k x))
  | PPath op k => ecatch (ev_pathop r op) (fun x => ev_prog r (k x))
  | PInvalid v k => ecatch (ev_unit (ev_report r (Invalid v))) (fun x => ev_prog r (k x))
  | PMissing k => ecatch (ev_unit (ev_report r Missing)) (fun x => ev_prog r (k x))
  | _ => eraise unevaluated
  end.
Definition ev_hook (r : rd) (h : hook prog) (args : list val) : Ev val :=
  target <~ (if hk_attached h then eret VNone else elift (r_form r));
  ev_prog r (hk_fun h target args).

(** *** The steps after a value has been found *)
Definition ev_default (r : rd) (f : field) : Ev val :=
  if r_igd r then ev_missing r
  else match o_default (f_opts f) with
       | DVal (VConst NOTSET) => ev_missing r
       | DVal v => eret v
       | DUnset (Some h) => ev_hook r h []
       | DUnset None => ev_missing r
       | DCall p => ev_prog r p
       end.
Definition ev_translate (f : field) (v : val) : Ev val :=
  match o_translations (f_opts f) with
  | [] => eret v
  | tr => if hashable v then eret (match dict_get tr v with Some w => w | None => v end)
          else eraise dict_unhashable
  end.
Definition ev_validate (r : rd) (f : field) (v : val) : Ev bool :=
  fun s =>
    match field_violation E (hents (snd s)) f v with
    | Exn e => (Exn e, s)
    | Ok None => (Ok true, s)
    | Ok (Some x) => (ev_report r (Invalid x);;; eret false) s
    end.
Definition ev_hook_or {A} (r : rd) (o : option (hook prog)) (args : list val) (d : A) (f : val -> A) : Ev A :=
  match o with None => eret d | Some h => v <~ ev_hook r h args; eret (f v) end.
Definition ev_after (r : rd) (f : field) (v : val) : Ev val :=
  v <~ ev_translate f v;
  v <~ (if ignored v then eret v else ev_hook_or r (o_munge (f_opts f)) [v] v (fun w => w));
  if is_NONE v then ev_default r f
  else if ignored v then eret v
  else if negb (field_filter f v) then ev_default r f
  else
    ok <~ ev_hook_or r (o_filter (f_opts f)) [v] true truthy;
    if negb ok then ev_default r f
    else
      ok <~ ev_validate r f v;
      if negb ok then eret ERRORv
      else
        ok <~ ev_hook_or r (o_validate (f_opts f)) [v] true truthy;
        eret (if (ok : bool) then v else ERRORv).

(** *** Forms in place *)
Fixpoint ev_reset (id : nat) (tags : list string) (fs : list field) : Ev unit :=
  match fs with
  | [] => eret tt
  | f :: rest => (if selected tags f then ev_del f id else eret tt);;; ev_reset id tags rest
  end.
Fixpoint ev_fields (r : rd) (id : nat) (tags : list string) (fs : list field) : Ev unit :=
  match fs with
  | [] => eret tt
  | f :: rest =>
      (if selected tags f then
         v <~ rec r f NONEv;
         if ignored v then eret tt else ev_set id (VStr (fname f)) v
       else eret tt);;;
      ev_fields r id tags rest
  end.
Definition ev_unmapped (r : rd) (id : nat) (u : unm) : Ev (option val) :=
  let go := fun kf vf => v <~ rec r (unmapped_dict id kf vf) NONEv; eret (Some v) in
  match u with
  | UFalsy | UIgnore => eret None
  | UBad s => eraise (EValue "unmapped invalid, should be capture or ignore")
  | UCapture => go plain_string plain_field
  | UField f => go plain_string f
  | UPair kf vf => go kf vf
  end.
Definition ev_form_map (r : rd) (id : nat) (tags : list string) (u : unm) : Ev unit :=
  ev_mapping r;;;
  t <~ ev_type id;
  ev_fields (r_inform r id) id tags (ft_fields t);;;
  o <~ ev_unmapped r id u;
  match o with
  | None => eret tt
  | Some VNone => eret tt
  | Some (VDict d) => l <~ ev_entries id; ev_set_entries id (dict_update l d)
  | Some _ => eraise (EType "not iterable")
  end.
(** A sub-form collects its own errors; they are appended to the enclosing ones when it
    returns, and forgotten when it raises. *)
Definition ev_sub (m : Ev unit) : Ev (list err) :=
  fun '(es, h) =>
    match m ([], h) with
    | (Ok _, (es', h')) => (Ok es', (es ++ es', h'))
    | (Exn e, (_, h')) => (Exn e, (es, h'))
    end.
Definition ev_form (r : rd) (t : formty) (reset : bool) (u : unm) : Ev val :=
  id <~ ev_new t;
  (if reset then ev_reset id (r_tags r) (ft_fields t) else eret tt);;;
  es <~ ev_sub (ev_form_map (r_collecting r Collect) id (r_tags r) u);
  eret (match es with [] => VForm id | _ => ERRORv end).

(** *** Polymorphic sub-forms: the data itself, as native data, is mapped into the probe; the
    first error (without the path it is about) or what the type field got decides.  Not
    followed: data that is a sequence, and probes that end without errors and without a value
    for the type field. *)
Definition r_probe (r : rd) (v : val) : rd :=
  Rd (SDefault v [] [] None) O Collect (r_igd r) (r_igm r) (r_tags r) (r_form r) (r_field r) [] (Ok v).
Definition ev_probe (r : rd) (probe : formty) (tf : field) (v : val) : Ev val :=
  fun '(es, h) =>
    let id := length h in
    let h1 := h ++ [(probe, [])] in
    match v with
    | VDict _ =>
        match ev_form_map (r_probe r v) id (r_tags r) UIgnore ([], h1) with
        | (Exn e, (_, h2)) => (Exn e, (es, h2))
        | (Ok _, (e :: _, h2)) => (Exn (EField (untied e)), (es, h2))
        | (Ok _, ([], h2)) =>
            (match dict_get (hents h2 id) (VStr (fname tf)) with Some w => Ok w | None => Exn unevaluated end, (es, h2))
        end
    | VNone | VForm _ | VList _ | VTuple _ => (Exn unevaluated, (es, h1))
    | _ => (Exn (EValue "Invalid src, expected None, dict or Source"), (es, h1))
    end.
Definition ev_poly (r : rd) (probe : formty) (tf : field) (table : list (val * string))
           (reset : bool) (u : unm) : Ev val :=
  v <~ ev_value r;
  ecatch (ev_probe r probe tf v)
         (fun x =>
            match x with
            | Exn e => if is_value_error e then ev_invalid r (VioExn (spoken e)) else eraise e
            | Ok ident =>
                if is_None ident then eret NONEv
                else if negb (hashable ident) then eraise dict_unhashable
                else match dict_get (map (fun ic => (fst ic, VStr (snd ic))) table) ident with
                     | Some (VStr c) =>
                         match w_class W c with
                         | Some t => ev_form r t reset u
                         | None => eraise (EOther "no such class")
                         end
                     | _ => ev_invalid r (VioIdentity ident)
                     end
            end).

(** *** Containers *)
Fixpoint ev_tuple (r : rd) (i : Z) (fs : list field) (acc : list val) : Ev (list val) :=
  match fs with
  | [] => eret acc
  | f :: rest => v <~ rec (r_at r (KInt i)) f NONEv; ev_tuple r (i + 1) rest (if ignored v then acc else acc ++ [v])
  end.
Fixpoint ev_list (r : rd) (i : Z) (n : nat) (f : field) (acc : list val) : Ev (list val) :=
  match n with
  | O => eret acc
  | S n' => v <~ rec (r_at r (KInt i)) f NONEv; ev_list r (i + 1) n' f (if ignored v then acc else acc ++ [v])
  end.
Definition ev_accept (r : rd) (kf : option (hook prog)) (k : val) : Ev bool :=
  ev_hook_or r kf [k] true truthy.
Fixpoint ev_dict (r : rd) (keyf : option (hook prog)) (kf vf : field) (keys : list val)
         (acc : list (val * val)) : Ev (list (val * val)) :=
  match keys with
  | [] => eret acc
  | k :: rest =>
      b <~ ev_accept r keyf k;
      if negb b then ev_dict r keyf kf vf rest acc
      else
        v <~ rec (r_at r (key_of_val k)) vf NONEv;
        if ignored v then ev_dict r keyf kf vf rest acc
        else
          k' <~ rec r kf k;
          if ignored k' then ev_dict r keyf kf vf rest acc
          else if hashable k' then ev_dict r keyf kf vf rest (dict_set acc k' v)
          else eraise dict_unhashable
  end.
Fixpoint ev_group (r : rd) (l : list (gmatch * field)) (keys : list val) (matches : nat)
         (acc : list val) : Ev val :=
  match keys with
  | [] => eret (match matches with O => NONEv | _ => VList acc end)
  | k :: rest =>
      m <~ elift (group_match W l k);
      match m with
      | None => ev_group r l rest matches acc
      | Some (f, captures) =>
          v <~ rec (r_at r (key_of_val k)) f NONEv;
          ev_group r l rest (S matches) (if ignored v then acc else acc ++ [VTuple [k; captures; v]])
      end
  end.

(** *** Parsing *)
Definition ev_need_str (v : val) : Ev string :=
  match v with VStr s => eret s | _ => eraise (EType "must be string") end.
Definition ev_decimal (r : rd) : Ev val :=
  v <~ ev_value r;
  match v with
  | VDec _ => eret v
  | _ => match dec_of_number v with
         | Some d => eret (VDec d)
         | None =>
             w <~ ev_primitive r TyStr;
             match w with
             | VStr s => match e_dec E s with Some d => eret (VDec d) | None => eraise EDecimal end
             | VDec _ => eret w
             | _ => match dec_of_number w with
                    | Some d => eret (VDec d)
                    | None => eraise (EType "Cannot convert to Decimal")
                    end
             end
         end
  end.
Definition ev_date (r : rd) (fmts : list string) : Ev val :=
  v <~ ev_value r;
  match v with
  | VDate _ | VDatetime _ => eret v
  | _ =>
      w <~ ev_primitive r TyStr;
      match fmts with
      | [] => ev_invalid r (VioFormat w)
      | _ => s <~ ev_need_str w; eret (try_date W fmts s)
      end
  end.
Definition ev_time (r : rd) (fmt : option string) : Ev val :=
  v <~ ev_value r;
  match v with
  | VTime _ => eret v
  | _ =>
      w <~ ev_primitive r TyStr;
      match fmt with
      | None => ev_invalid r (VioFormat w)
      | Some fm =>
          s <~ ev_need_str w;
          match e_strptime_time E s fm with
          | Some t => eret (VTime t)
          | None => eraise (EValue "time data does not match format")
          end
      end
  end.
Definition ev_datetime (r : rd) (fmt : option string) : Ev val :=
  v <~ ev_value r;
  match v with
  | VDatetime _ => eret v
  | _ =>
      w <~ ev_primitive r TyStr;
      match fmt with
      | None => ev_invalid r (VioFormat w)
      | Some fm =>
          s <~ ev_need_str w;
          if String.eqb fm "iso8601" then
            match e_iso E s with
            | Some t => eret (VDatetime t)
            | None => ev_invalid r (VioText "Unable to parse date string")
            end
          else
            match e_strp E s fm with
            | Some t => eret (VDatetime t)
            | None => eraise (EValue "time data does not match format")
            end
      end
  end.
Definition ev_code (r : rd) : Ev val :=
  v <~ ev_primitive r TyAuto;
  match v with
  | VStr s =>
      if has_char newline s then
        match e_compile E s with Ok m => eret m | Exn e => ev_invalid r (VioExn e) end
      else
        match e_import E s with
        | Some (Ok m) => eret m
        | Some (Exn e) => ev_invalid r (VioExn e)
        | None => ev_invalid r (VioCode v)
        end
  | _ => eret v
  end.
Definition ev_uuid (r : rd) : Ev val :=
  let text := w <~ ev_primitive r TyStr;
              match w with
              | VStr s => match e_uuid E s with
                          | Some u => eret u
                          | None => eraise (EValue "badly formed hexadecimal UUID string")
                          end
              | _ => eraise (EAttr "no attribute 'replace'")
              end in
  v <~ ev_primitive r TyAuto;
  match v with
  | VObj c _ => if String.eqb c "UUID" then eret v else text
  | _ => text
  end.
Definition ev_parse (r : rd) (k : kind) : Ev val :=
  match k with
  | KAny => ev_primitive r TyAuto
  | KString _ => ev_primitive r TyStr
  | KInteger _ _ => ev_primitive r TyInt
  | KFloat _ _ => ev_primitive r TyFloat
  | KDecimal _ _ => ev_decimal r
  | KBool => ev_primitive r TyBool
  | KDate fmts _ _ => ev_date r fmts
  | KTime fmt _ _ => ev_time r fmt
  | KDatetime fmt _ _ => ev_datetime r fmt
  | KTuple fs =>
      n <~ ev_sequence r;
      if Nat.eqb n (length fs) then l <~ ev_tuple r 0 fs []; eret (VTuple l)
      else ev_invalid r (VioItems (length fs))
  | KList f _ _ allow =>
      ecatch (ev_sequence r)
             (fun x => match x with
                       | Ok n => l <~ ev_list r 0 n f []; eret (VList l)
                       | Exn (ESource e) =>
                           if allow then v <~ rec r f NONEv; eret (if ignored v then v else VList [v])
                           else eraise (ESource e)
                       | Exn e => eraise e
                       end)
  | KDict kf vf keyf _ _ =>
      vw <~ ev_mapping r; keys <~ elift vw; d <~ ev_dict r keyf kf vf keys []; eret (VDict d)
  | KCode => ev_code r
  | KUUID => ev_uuid r
  | KSubForm t reset u => ev_form r t reset u
  | KPoly probe tf table reset u => ev_poly r probe tf table reset u
  | KGroup l => vw <~ ev_mapping r; keys <~ elift vw; ev_group r l keys O []
  end.
Definition ev_compute (r : rd) (f : field) : Ev val :=
  ex <~ ev_exists r;
  if negb ex then eret NONEv
  else
    nl <~ ev_null r;
    if (nl : bool) then eret VNone
    else
      ecatch (match o_parse (f_opts f) with
              | Some h => ev_hook r h [VNone]
              | None => ev_parse r (f_kind f)
              end)
             (fun x => match x with
                       | Ok v => eret v
                       | Exn e => if caught_by_compute e then ev_invalid r (VioExn (spoken e)) else eraise e
                       end).
Definition ev_body (r : rd) (f : field) (value : val) : Ev val :=
  if is_NONE value then
    v <~ (match o_compute (f_opts f) with Some h => ev_hook r h [] | None => ev_compute r f end);
    if is_NONE v then
      match o_default (f_opts f) with
      | DUnset (Some h) => ev_hook r h []
      | _ => ev_default r f
      end
    else if ignored v then eret v
    else ev_after r f v
  else ev_after r f value.
(** The key at which the field reads, if it names one. *)
Definition ev_where (r : rd) (f : field) : Ev (option key) :=
  match o_resolve (f_opts f) with
  | Some h => v <~ ev_hook r h []; eret (if is_None v then None else Some (key_of_val v))
  | None => eret (match f_kind f with KGroup _ => None | _ => o_src (f_opts f) end)
  end.
Definition ev_parent (v : val) : Ev unit :=
  match v with
  | VForm i => ev_setattr i "parent" (VObj "weakproxy" 0)
  | VObj _ _ => eret tt
  | _ => eraise (EAttr "object has no attribute 'parent'")
  end.
Definition ev_field_body (r0 : rd) (f : field) (value : val) : Ev val :=
  let r := r_for r0 f in
  k <~ (if is_NONE value then ev_where r f else eret None);
  v <~ ev_body (match k with Some k => r_at r k | None => r end) f value;
  (if o_attach_parent (f_opts f) && negb (ignored v) then ev_parent v else eret tt);;;
  eret v.
End Eval.

Fixpoint ev_field (W : world) (fuel : nat) (r : rd) (f : field) (v : val) : Ev val :=
  match fuel with
  | O => eraise ERecursion
  | S n => ev_field_body W (ev_field W n) r f v
  end.

(** ** The whole mapping of a form *)

(** The context a mapping starts in, as far as mapping can see it. *)
Record outer := Outer {
  ou_pid : nat;                        (* identity of the new path *)
  ou_igd : bool;
  ou_igm : bool;
  ou_tags : list string;
  ou_form : res val;
  ou_field : res (option string)
}.
Definition r_start (o : outer) (src : psource) (m : mode) (root : val) : rd :=
  Rd src (ou_pid o) m (ou_igd o) (ou_igm o) (ou_tags o) (ou_form o) (ou_field o) [] (Ok root).
(** What [form.map(src, tags, reset, unmapped, error)] returns or raises, and the forms
    afterwards. *)
Definition ev_map (W : world) (fuel : nat) (o : outer) (src : psource) (root : val) (id : nat)
           (tags : list string) (reset : bool) (u : unm) (m : mode) (h : heap)
  : res (list err) * heap :=
  let tags := match tags with [] => ou_tags o | _ => tags end in
  let t := match nth_error h id with Some (t, _) => t | None => FormTy "" [] end in
  let '(_, (_, h1)) := (if reset then ev_reset id tags (ft_fields t) else eret tt) ([], h) in
  match ev_form_map W (ev_field W fuel) (r_start o src m root) id tags u ([], h1) with
  | (Exn e, (_, h2)) => (Exn e, h2)
  | (Ok _, (es, h2)) =>
      (match m, es with Raise, _ :: _ => Exn (EForm es) | _, _ => Ok es end, h2)
  end.

(** ** Reading the starting context off a state *)
Definition field_seen (o : option cval) : res (option string) :=
  match o with
  | None => Exn (EAttr "'Context' object has no attribute 'field'")
  | Some (CField f) => Ok (f_name f)
  | Some _ => Exn (EAttr "no attribute 'ctx'")
  end.
Definition form_seen (o : option cval) : res val :=
  match o with
  | None => Exn (EAttr "'Context' object has no attribute 'form'")
  | Some (CForm i) => Ok (VForm i)
  | Some (CVal v) => Ok v
  | Some _ => Ok VNone
  end.
Definition tags_seen (o : option cval) : list string :=
  match o with
  | Some (CTags l) => l
  | Some (CVal (VList l)) => match texts_of l with Some ts => ts | None => [] end
  | _ => []
  end.
Definition outer_of (s : st) : outer :=
  Outer (length (paths s))
        (match lookup "ignore_default" (stk s) with Some c => truthy_c c | None => false end)
        (match lookup "ignore_missing" (stk s) with Some c => truthy_c c | None => false end)
        (tags_seen (lookup "tags" (stk s))) (form_seen (lookup "form" (stk s))) (field_seen (lookup "field" (stk s))).

(** ** The fields covered: no [resolve] hook, string or integer [src], other hooks using
    only the value, the errors and the forms; every kind but [KPoly] ([pdirect] in Sim.v has it too). *)
Fixpoint direct_prog (p : prog) : Prop :=
  match p with
  | PRet _ | PRaise _ => True
  | PCtxForm k => forall x, direct_prog (k x)
  | PSet _ _ _ k => forall x, direct_prog (k x)
  | PDel _ _ k => forall x, direct_prog (k x)
  | PItem _ _ k => forall x, direct_prog (k x)
  | PPath _ k => forall x, direct_prog (k x)
  | PInvalid _ k => forall x, direct_prog (k x)
  | PMissing k => forall x, direct_prog (k x)
  | _ => False
  end.
Definition direct_hook (h : hook prog) : Prop := forall t args, direct_prog (hk_fun h t args).
Definition direct_ohook (o : option (hook prog)) : Prop := forall h, o = Some h -> direct_hook h.
Record direct_opts (o : fopts prog) : Prop := {
  do_src : forall k, o_src o = Some k -> plain_key k;
  do_default : match o_default o with
               | DUnset h => direct_ohook h
               | DVal _ => True
               | DCall p => direct_prog p
               end;
  do_compute : direct_ohook (o_compute o);
  do_resolve : o_resolve o = None;
  do_parse : direct_ohook (o_parse o);
  do_munge : direct_ohook (o_munge o);
  do_filter : direct_ohook (o_filter o);
  do_validate : direct_ohook (o_validate o)
}.
Inductive direct : field -> Prop :=
| direct_field o k : direct_opts o -> direct_kind k -> direct (MkField o k)
with direct_kind : kind -> Prop :=
| dk_any : direct_kind KAny
| dk_string c : direct_kind (KString c)
| dk_integer lo hi : direct_kind (KInteger lo hi)
| dk_float lo hi : direct_kind (KFloat lo hi)
| dk_decimal lo hi : direct_kind (KDecimal lo hi)
| dk_bool : direct_kind KBool
| dk_date fmts lo hi : direct_kind (KDate fmts lo hi)
| dk_time fmt lo hi : direct_kind (KTime fmt lo hi)
| dk_datetime fmt lo hi : direct_kind (KDatetime fmt lo hi)
| dk_tuple fs : (forall f, In f fs -> direct f) -> direct_kind (KTuple fs)
| dk_list f lo hi a : direct f -> direct_kind (KList f lo hi a)
| dk_dict kf vf keyf rq mx : direct kf -> direct vf -> direct_ohook keyf -> direct_kind (KDict kf vf keyf rq mx)
| dk_code : direct_kind KCode
| dk_uuid : direct_kind KUUID
| dk_form t rs u : direct_form t -> direct_unm u -> direct_kind (KSubForm t rs u)
| dk_group l : (forall m f, In (m, f) l -> direct f) -> direct_kind (KGroup l)
with direct_form : formty -> Prop :=
| direct_formty n fs : (forall f, In f fs -> direct f) -> direct_form (FormTy n fs)
with direct_unm : unm -> Prop :=
| du_ignore : direct_unm UIgnore
| du_capture : direct_unm UCapture
| du_falsy : direct_unm UFalsy
| du_bad s : direct_unm (UBad s)
| du_field f : direct f -> direct_unm (UField f)
| du_pair kf vf : direct kf -> direct vf -> direct_unm (UPair kf vf).

(** ** The native data covered: without forms, mapping keys that are strings (not looking
    like a call) or integers *)
Record plain_native (E : env) (P : val -> Prop) : Prop := {
  pn_data : native_data E no_ents P;
  pn_form : forall i, ~ P (VForm i);
  pn_call : forall v w, P v -> e_call E v = Ok w -> P w;
  pn_keys : forall l k, P (VDict l) -> In k (map fst l) ->
            (exists z, k = VInt z) \/ (exists s, k = VStr s /\ strip_call s = None)
}.

(** ** The contexts covered: the variables of the initial context are visible. *)
Definition mapping_context (s : st) : Prop :=
  (exists c, lookup "src" (stk s) = Some c) /\
  (exists c, lookup "ignore_default" (stk s) = Some c) /\
  (exists c, lookup "ignore_missing" (stk s) = Some c).
