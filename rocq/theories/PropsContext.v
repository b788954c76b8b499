(** * Theorems C01-C06: the context. *)
From Verif Require Import PyBase PyStr Source Field Context Fields Threads SpecCtx CtxProofs Demo.

(** A state inside two nested blocks, one moving the source path, for the examples. *)
Definition in_blocks : st :=
  snd (push world0 [("src", CKey (KStr "sub"))] (snd (push world0 [("src", CSrc (json outer_bad))] init))).
Example in_blocks_reachable : reach world0 in_blocks /\ cur_keys in_blocks = Some [KStr "sub"].
Proof.
  split; [|reflexivity].
  apply (reach_open world0 [("src", CKey (KStr "sub"))] (snd (push world0 [("src", CSrc (json outer_bad))] init)));
    [|reflexivity|vm_compute; reflexivity].
  apply (reach_open world0 [("src", CSrc (json outer_bad))] init); [apply reach_init|reflexivity|vm_compute; reflexivity].
Qed.

(** C01: whatever the outcome, mapping leaves the context stack and every path that
    existed as it found them.  All forms, hooks, sources, depths and failures. *)
Theorem C01_form_map_balanced : forall W fuel s id a tags rst u m,
  reach W s -> same_context s (snd (Form_map W fuel id a tags rst u m s)).
Proof. exact C01_form_map_lem. Qed.
Print Assumptions C01_form_map_balanced.
Example C01_form_map_case :
  let out := map_new world0 9 Outer (ASrc (json outer_bad)) [] UIgnore Raise init in
  (exists e, fst out = Exn e) /\ stk (snd out) = stk init.
Proof. split; [eexists|]; vm_compute; reflexivity. Qed.

Theorem C01_field_map_balanced : forall W fuel s f v,
  reach W s -> same_context s (snd (field_map W fuel f v s)).
Proof. exact C01_field_map_lem. Qed.
Print Assumptions C01_field_map_balanced.
Example C01_field_map_case :
  reach world0 in_blocks /\
  exists e, fst (field_map world0 5 (fld "x" (KInteger None None)) (VConst NONE) in_blocks) = Exn e.
Proof. split; [apply in_blocks_reachable|]. eexists; vm_compute; reflexivity. Qed.

Theorem C01_attribute_balanced : forall W fuel s id a,
  reach W s -> same_context s (snd (form_getattr W (field_map W fuel) id a s)).
Proof. exact C01_attribute_lem. Qed.
Print Assumptions C01_attribute_balanced.
Example C01_attribute_case :
  reach world0 (snd (new_form Inner in_blocks)) /\
  fst (form_getattr world0 (field_map world0 5) 0 "x" (snd (new_form Inner in_blocks))) <> Ok VNone.
Proof. split; [apply reach_form, in_blocks_reachable|]. vm_compute; discriminate. Qed.

Theorem C01_hook_balanced : forall W fuel s p,
  reach W s -> same_context s (snd (run W (field_map W fuel) p s)).
Proof. exact C01_hook_lem. Qed.
Print Assumptions C01_hook_balanced.
Example C01_hook_case :
  fst (run world0 (field_map world0 5)
           (PPush (VStr "x") (PPath OpValue (fun r => match r with Ok v => PRet v | Exn e => PRaise e end))
                  (fun r => match r with Ok v => PRet v | Exn e => PRaise e end)) in_blocks)
  = Ok (VStr "r").
Proof. vm_compute; reflexivity. Qed.

(** C02: inside a block a variable has the value the block gives it, and otherwise
    the value it had outside ([src_path] is computed from [src], see C03). *)
Theorem C02_inside_block : forall W kw s s1 k,
  push W kw s = (Ok tt, s1) -> k <> "src_path" ->
  lookup k (stk s1) = match alookup kw k with Some c => Some c | None => lookup k (stk s) end.
Proof. exact C02_inside_lem. Qed.
Print Assumptions C02_inside_block.
Example C02_inside_case :
  lookup "src" (stk in_blocks) = Some (CKey (KStr "sub")) /\
  lookup "ignore_default" (stk in_blocks) = Some (CVal (VBool false)).
Proof. split; reflexivity. Qed.

Theorem C02_nested_blocks : forall W blocks s s1 k,
  open_all W blocks s = (Ok tt, s1) -> k <> "src_path" ->
  lookup k (stk s1) = latest k blocks (lookup k (stk s)).
Proof. exact C02_nest_lem. Qed.
Print Assumptions C02_nested_blocks.
Example C02_nested_case :
  let blocks := [[("a", CVal (VInt 1)); ("b", CVal (VInt 2))]; [("a", CVal (VInt 3))]; [("c", CNone)]] in
  exists s1, open_all world0 blocks init = (Ok tt, s1) /\ latest "a" blocks None = Some (CVal (VInt 3)) /\
             latest "b" blocks None = Some (CVal (VInt 2)).
Proof. eexists. split; [reflexivity|split; reflexivity]. Qed.

(** After the block every variable has the value it had before, even if the body or
    the opening raised. *)
Theorem C02_after_block : forall W fuel kw p s k, reach W s -> block kw ->
  lookup k (stk (snd (with_ctx W kw (run W (field_map W fuel) p) s))) = lookup k (stk s).
Proof. exact C02_after_map_lem. Qed.
Print Assumptions C02_after_block.
Example C02_after_case :
  reach world0 in_blocks /\ block [("x", CVal (VInt 1)); ("src", CKey (KStr "x"))] /\
  fst (with_ctx world0 [("x", CVal (VInt 1)); ("src", CKey (KStr "x"))]
        (run world0 (field_map world0 1) (PRaise EKey)) in_blocks) = Exn EKey.
Proof. split; [apply in_blocks_reachable|split; reflexivity]. Qed.

(** The same for a body that is any operation at all which itself leaves the stack
    as it found it. *)
Theorem C02_after_any_block : forall A W kw (body : M A) s k,
  (forall s, stk (snd (body s)) = stk s) ->
  lookup k (stk (snd (with_ctx W kw body s))) = lookup k (stk s).
Proof. exact (@C02_after_lem). Qed.
Print Assumptions C02_after_any_block.
Example C02_after_any_case : forall s : st, stk (snd (ctx_get "x" s)) = stk s.
Proof. intros s. unfold ctx_get, ctx_get_opt, bind, get. destruct (lookup "x" (stk s)); reflexivity. Qed.

(** C03: rewinding to a block puts the stack and the current path back to what they
    were when that block was the innermost one, however many blocks were opened and
    whatever was run since; and when the rewind block closes, the context is again
    what it was before it. *)
Theorem C03_rewind_round_trip : forall W fuel p s0 s l stop (f0 : frame) rest0,
  reach W s0 -> later W s0 s l -> l <> [] -> stk s0 = f0 :: rest0 ->
  Forall (fun f => stop f = false) l -> stop f0 = true ->
  exists s1, rewind W stop s = (Ok (rev l), s1) /\
    stk s1 = stk s0 /\ cur_keys s1 = cur_keys s0 /\
    same_context s (snd (with_rewind W stop (run W (field_map W fuel) p) s)).
Proof. exact C03_rewind_prog_lem. Qed.
Print Assumptions C03_rewind_round_trip.
Definition mark (f : frame) : bool := has_key "mark" f.
Example C03_case :
  let s0 := snd (push world0 [("mark", CNone)] in_blocks) in
  let s := snd (push world0 [("src", CKey (KStr "x"))] s0) in
  reach world0 s0 /\ later world0 s0 s [[("src", CKey (KStr "x"))]] /\
  Forall (fun f => mark f = false) [[("src", CKey (KStr "x"))]] /\
  cur_keys s = Some [KStr "sub"; KStr "x"] /\
  cur_keys (snd (rewind world0 mark s)) = Some [KStr "sub"].
Proof.
  cbv zeta. repeat split.
  - apply (reach_open world0 [("mark", CNone)] in_blocks); [apply in_blocks_reachable|reflexivity|reflexivity].
  - apply (later_open world0 _ [("src", CKey (KStr "x"))]
             (snd (push world0 [("mark", CNone)] in_blocks))
             (snd (push world0 [("src", CKey (KStr "x"))] (snd (push world0 [("mark", CNone)] in_blocks)))) []);
      [apply later_now|reflexivity|vm_compute; reflexivity].
  - repeat constructor.
Qed.

(** C04 as stated is false: rewinding when the innermost frame is already the one
    asked for empties the whole stack and fails. *)
Theorem C04_rewind_to_innermost_refuted : exists W stop s f rest,
  reach W s /\ stk s = f :: rest /\ stop f = true /\
  fst (rewind W stop s) = Exn (EAttr "'Context' object has no attribute 'src_path'") /\
  stk (snd (rewind W stop s)) = [].
Proof.
  exists world0, mark, (snd (push world0 [("mark", CNone)] in_blocks)), [("mark", CNone)], (stk in_blocks).
  split; [|vm_compute; repeat split; reflexivity].
  apply (reach_open world0 [("mark", CNone)] in_blocks); [apply in_blocks_reachable|reflexivity|reflexivity].
Qed.
Print Assumptions C04_rewind_to_innermost_refuted.
(** It does so every time. *)
Theorem C04_rewind_to_innermost_always_fails : forall W stop s f rest,
  stk s = f :: rest -> stop f = true ->
  stk (snd (rewind W stop s)) = [] /\
  fst (rewind W stop s) = Exn (EAttr "'Context' object has no attribute 'src_path'").
Proof. exact C04_empties_lem. Qed.
Print Assumptions C04_rewind_to_innermost_always_fails.
Example C04_case : exists f rest, stk (snd (push world0 [("mark", CNone)] in_blocks)) = f :: rest /\ mark f = true.
Proof. do 2 eexists. split; reflexivity. Qed.

(** C05: rewinding to a block that is not there raises [RewindDidNotStop] and
    changes nothing; the body of the [with] never runs. *)
Theorem C05_rewind_nowhere : forall W stop s,
  Forall (fun f => stop f = false) (stk s) -> rewind W stop s = (Exn ERewind, s).
Proof. exact C05_lem. Qed.
Print Assumptions C05_rewind_nowhere.
Theorem C05_rewind_block_nowhere : forall A W stop (body : M A) s,
  Forall (fun f => stop f = false) (stk s) -> with_rewind W stop body s = (Exn ERewind, s).
Proof. exact (@C05_with_lem). Qed.
Print Assumptions C05_rewind_block_nowhere.
Example C05_case : Forall (fun f => mark f = false) (stk in_blocks).
Proof. repeat constructor. Qed.

(** C06: in any interleaving, each thread observes exactly what it would observe if
    it ran its own operations alone from the fresh context. *)
Theorem C06_thread_isolation : forall A (l : list (thread * M A)) t,
  of_thread t (schedule cells0 l) = alone init (of_thread t l).
Proof. exact (@C06_lem). Qed.
Print Assumptions C06_thread_isolation.
Example C06_case :
  let op1 := (push world0 [("a", CVal (VInt 1))];; ctx_get "a") in
  let op2 := ctx_get "a" in
  schedule cells0 [(1%nat, op1); (2%nat, op2); (1%nat, op2)]
  = [(1%nat, Ok (CVal (VInt 1))); (2%nat, Exn (EAttr "'Context' object has no attribute 'a'"));
     (1%nat, Ok (CVal (VInt 1)))].
Proof. reflexivity. Qed.
