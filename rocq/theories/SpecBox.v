(** * SpecBox: what the theorems about containers are about. *)
From Verif Require Import PyBase PyStr Source Field Context Fields SpecCtx SpecField.
Open Scope Z_scope.

(** No user function is attached to the field itself, nor [attach_parent]; any default. *)
Record plain_steps (f : field) : Prop := {
  ps_compute : o_compute (f_opts f) = None;
  ps_resolve : o_resolve (f_opts f) = None;
  ps_parse : o_parse (f_opts f) = None;
  ps_munge : o_munge (f_opts f) = None;
  ps_filter : o_filter (f_opts f) = None;
  ps_validate : o_validate (f_opts f) = None;
  ps_parent : o_attach_parent (f_opts f) = false
}.

(** Inside the field: its blocks are open, the path number [pid] has become [q]. *)
Definition within (f : field) (s : st) (pid : nat) (q : path) : st :=
  St (match own_key f with Some k => [[("src", CKey k)]] | None => [] end
        ++ [("field", CField f); ("parent", CField f)] :: stk s)
     (forms s) (replace_nth pid q (paths s)) (errs s).

(** What is found at the place of the field; [q] is the path after looking. *)
Definition present_at (W : world) (s : st) (f : field) (p q : path) : Prop :=
  exists q1, p_exists (w_env W) (entries s) (place f p) = (q1, Ok true) /\
             p_is_null (w_env W) (entries s) q1 = (q, Ok false).
Definition sequence_at (W : world) (s : st) (f : field) (p : path) (len : nat) (q : path) : Prop :=
  exists q2, present_at W s f p q2 /\ p_sequence (w_env W) (entries s) q2 = (q, Ok len).
Definition no_sequence_at (W : world) (s : st) (f : field) (p : path) (e : exn) (q : path) : Prop :=
  exists q2, present_at W s f p q2 /\ p_sequence (w_env W) (entries s) q2 = (q, Exn e).
Definition of_mount (q : path) : Prop := match q with PMount _ _ _ => True | _ => False end.
Definition mapping_at (W : world) (s : st) (f : field) (p : path) (keys : list val) (q : path) : Prop :=
  exists q2, present_at W s f p q2 /\ p_mapping (w_env W) (entries s) q2 = (q, Ok (Ok keys)).

(** The items of a container, each mapped by its field one key further down, one after
    the other; the values in order. *)
Inductive items (W : world) (n : nat) : list (key * field) -> st -> list val -> st -> Prop :=
| it_nil s : items W n [] s [] s
| it_cons k g l s v s1 vs s2 :
    with_ctx W [("src", CKey k)] (field_map W n g NONEv) s = (Ok v, s1) ->
    items W n l s1 vs s2 -> items W n ((k, g) :: l) s (v :: vs) s2.
(** Some item raises. *)
Inductive items_raise (W : world) (n : nat) : list (key * field) -> st -> exn -> st -> Prop :=
| ir_here k g l s e s1 :
    with_ctx W [("src", CKey k)] (field_map W n g NONEv) s = (Exn e, s1) ->
    items_raise W n ((k, g) :: l) s e s1
| ir_later k g l s v s1 e s2 :
    with_ctx W [("src", CKey k)] (field_map W n g NONEv) s = (Ok v, s1) ->
    items_raise W n l s1 e s2 -> items_raise W n ((k, g) :: l) s e s2.
(** One field for every index; one field per index. *)
Definition indexed (len : nat) (g : field) : list (key * field) :=
  map (fun i => (KInt (Z.of_nat i), g)) (seq 0 len).
Fixpoint zipped (i : nat) (gs : list field) : list (key * field) :=
  match gs with [] => [] | g :: gs' => (KInt (Z.of_nat i), g) :: zipped (S i) gs' end.
(** Those that are values and not one of NONE, ERROR, NOT_SET. *)
Definition survivors (vs : list val) : list val := filter (fun v => negb (ignored v)) vs.

(** How the mapping of the container ends, when its items ended in state [s1]: with a
    value and no error of its own; *)
Definition ends (W : world) (n : nat) (f : field) (s s1 : st) (v : val) : Prop :=
  exists s', field_map W n f NONEv s = (Ok v, s') /\
             stk s' = stk s /\ forms s' = forms s1 /\ errs s' = errs s1.
(** without a value and with exactly one error of its own; *)
Definition rejects (W : world) (n : nat) (f : field) (s s1 : st) (eid : nat) (e : err) : Prop :=
  exists m es s', nth_error (errs s1) eid = Some (m, es) /\
    field_map W n f NONEv s = (match m with Raise => Exn (EForm (es ++ [e])) | Collect => Ok ERRORv end, s') /\
    stk s' = stk s /\ forms s' = forms s1 /\ errs s' = replace_nth eid (m, es ++ [e]) (errs s1).
(** by an exception. *)
Definition fails (W : world) (n : nat) (f : field) (s s1 : st) (x : exn) : Prop :=
  exists s', field_map W n f NONEv s = (Exn x, s') /\
             stk s' = stk s /\ forms s' = forms s1 /\ errs s' = errs s1.

(** Length bounds of a list. *)
Definition long_enough (lo : option Z) (len : nat) : Prop := forall k, lo = Some k -> k <= Z.of_nat len.
Definition short_enough (hi : option Z) (len : nat) : Prop := forall k, hi = Some k -> Z.of_nat len <= k.

(** *** Dicts *)
(** The key filter. *)
Inductive accepts (W : world) (n : nat) (k : val) (s : st) : option (hook prog) -> bool -> st -> Prop :=
| acc_all : accepts W n k s None true s
| acc_hook h r s1 : call_hook W (field_map W n) h [k] s = (Ok r, s1) -> accepts W n k s (Some h) (truthy r) s1.
(** The pairs a dict keeps, in source order: refused key, no value, no key, or a pair. *)
Inductive pairs (W : world) (n : nat) (keyf : option (hook prog)) (kf vf : field)
  : list val -> st -> list (val * val) -> st -> Prop :=
| pr_nil s : pairs W n keyf kf vf [] s [] s
| pr_refused k l s s1 ps s2 :
    accepts W n k s keyf false s1 -> pairs W n keyf kf vf l s1 ps s2 ->
    pairs W n keyf kf vf (k :: l) s ps s2
| pr_no_value k l s s1 v s2 ps s3 :
    accepts W n k s keyf true s1 ->
    with_ctx W [("src", CKey (key_of_val k))] (field_map W n vf NONEv) s1 = (Ok v, s2) -> ignored v = true ->
    pairs W n keyf kf vf l s2 ps s3 -> pairs W n keyf kf vf (k :: l) s ps s3
| pr_no_key k l s s1 v s2 k' s3 ps s4 :
    accepts W n k s keyf true s1 ->
    with_ctx W [("src", CKey (key_of_val k))] (field_map W n vf NONEv) s1 = (Ok v, s2) -> ignored v = false ->
    field_map W n kf k s2 = (Ok k', s3) -> ignored k' = true ->
    pairs W n keyf kf vf l s3 ps s4 -> pairs W n keyf kf vf (k :: l) s ps s4
| pr_pair k l s s1 v s2 k' s3 ps s4 :
    accepts W n k s keyf true s1 ->
    with_ctx W [("src", CKey (key_of_val k))] (field_map W n vf NONEv) s1 = (Ok v, s2) -> ignored v = false ->
    field_map W n kf k s2 = (Ok k', s3) -> ignored k' = false -> ~ unhashable k' ->
    pairs W n keyf kf vf l s3 ps s4 -> pairs W n keyf kf vf (k :: l) s ((k', v) :: ps) s4.
(** The dict with these pairs assigned one after the other. *)
Definition dict_of (ps : list (val * val)) : list (val * val) :=
  fold_left (fun d kv => dict_set d (fst kv) (snd kv)) ps [].
Definition has_required (required : list val) (d : list (val * val)) : Prop :=
  forall k, In k required -> exists v, dict_get d k = Some v.
(** The required keys that a dict does not have; whether they are all strings. *)
Definition lacks (required : list val) (d : list (val * val)) (k : val) : Prop := In k required /\ dict_get d k = None.
Definition lacks_strings (required : list val) (d : list (val * val)) : Prop :=
  forall k, lacks required d k -> exists s, k = VStr s.
Definition few_enough (mx : option Z) (d : list (val * val)) : Prop :=
  forall k, mx = Some k -> k <> 0 -> Z.of_nat (length d) <= k.

(** *** Groups *)
(** The entry accepts the key, with these captures; the entry does not. *)
Inductive hit (E : env) (k : val) : gmatch -> val -> Prop :=
| hit_name s : py_eq (VStr s) k = true -> hit E k (GName s) VNone
| hit_re p s groups : k = VStr s -> e_re E p s = Some groups ->
    hit E k (GRe p) (VDict (map (fun g => (val_of_key (fst g), snd g)) groups)).
Inductive miss (E : env) (k : val) : gmatch -> Prop :=
| miss_name s : py_eq (VStr s) k = false -> miss E k (GName s)
| miss_re p s : k = VStr s -> e_re E p s = None -> miss E k (GRe p).
Definition first_hit (E : env) (l : list (gmatch * field)) (k : val) (g : field) (c : val) : Prop :=
  exists pre m post, l = pre ++ (m, g) :: post /\ hit E k m c /\ Forall (fun mg => miss E k (fst mg)) pre.
(** A key that is not a text comes to a pattern. *)
Definition unmatchable (E : env) (l : list (gmatch * field)) (k : val) : Prop :=
  exists pre p g post, l = pre ++ (GRe p, g) :: post /\ Forall (fun mg => miss E k (fst mg)) pre /\ forall s, k <> VStr s.
(** The triples a group keeps, in source key order; the number of keys matched. *)
Inductive grouped (W : world) (n : nat) (l : list (gmatch * field)) : list val -> st -> list val -> nat -> st -> Prop :=
| gr_nil s : grouped W n l [] s [] 0 s
| gr_unmatched k ks s ts c s1 :
    Forall (fun mg => miss (w_env W) k (fst mg)) l -> grouped W n l ks s ts c s1 ->
    grouped W n l (k :: ks) s ts c s1
| gr_dropped k ks s g cap v s1 ts c s2 :
    first_hit (w_env W) l k g cap ->
    with_ctx W [("src", CKey (key_of_val k))] (field_map W n g NONEv) s = (Ok v, s1) -> ignored v = true ->
    grouped W n l ks s1 ts c s2 -> grouped W n l (k :: ks) s ts (S c) s2
| gr_kept k ks s g cap v s1 ts c s2 :
    first_hit (w_env W) l k g cap ->
    with_ctx W [("src", CKey (key_of_val k))] (field_map W n g NONEv) s = (Ok v, s1) -> ignored v = false ->
    grouped W n l ks s1 ts c s2 -> grouped W n l (k :: ks) s (VTuple [k; cap; v] :: ts) (S c) s2.
(** The exception some key of the mapping stops the group with: matching it, or mapping its field. *)
Inductive stops (W : world) (n : nat) (l : list (gmatch * field)) (k : val) (s : st) : exn -> st -> Prop :=
| st_match : unmatchable (w_env W) l k -> stops W n l k s (EType "expected string or buffer") s
| st_field g cap e s1 : first_hit (w_env W) l k g cap ->
    with_ctx W [("src", CKey (key_of_val k))] (field_map W n g NONEv) s = (Exn e, s1) -> stops W n l k s e s1.
