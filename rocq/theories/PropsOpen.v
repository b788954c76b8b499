(** * PropsOpen: sources that cannot be opened (C104). *)
From Verif Require Import PyBase PyStr Source Field Context Fields SpecUnion Eval SpecForm SpecOpen Demo OpenProofs.

(** Plain sources with their section, unions of documents and, on Python 2, mounts of these open... *)
Theorem C104_opens : forall E ents src, opens E src -> exists p, source_path E ents src = Ok p.
Proof. exact C104_opens_lem. Qed.
Print Assumptions C104_opens.
(** ...and for want of a section, of a source or of a mapping, or of [iteritems], they do not. *)
Theorem C104_shut : forall E ents src x, shut E src x -> source_path E ents src = Exn x.
Proof. exact C104_shut_lem. Qed.
Print Assumptions C104_shut.
(** Mapping a form from such a source raises in every mode; the context, the paths and the other
    forms are as before, but the form has been reset already. *)
Theorem C104_map_raises : forall W n id t l a src tags reset u m s tg gs x,
  nth_error (forms s) id = Some (t, l) -> at_top s a -> as_source a src -> shut (w_env W) src x ->
  in_force s tags tg -> choice tg (ft_fields t) gs ->
  let r := Form_map W n id a tags reset u m s in
  fst r = Exn x /\ stk (snd r) = stk s /\ paths (snd r) = paths s /\ nth_error (forms (snd r)) id = Some (t, if reset then without gs l else l) /\
  forall i, i <> id -> nth_error (forms (snd r)) i = nth_error (forms s) i.
Proof. exact C104_map_lem. Qed.
Print Assumptions C104_map_raises.
(** The same for an argument that is no source. *)
Theorem C104_no_source : forall W n id t l a tags reset u m s tg gs,
  nth_error (forms s) id = Some (t, l) -> at_top s a -> no_source a -> in_force s tags tg -> choice tg (ft_fields t) gs ->
  let r := Form_map W n id a tags reset u m s in
  fst r = Exn (EValue "Invalid src, expected None, dict or Source") /\ stk (snd r) = stk s /\ paths (snd r) = paths s /\
  nth_error (forms (snd r)) id = Some (t, if reset then without gs l else l) /\
  forall i, i <> id -> nth_error (forms (snd r)) i = nth_error (forms s) i.
Proof. exact C104_no_source_lem. Qed.
Print Assumptions C104_no_source.

Definition app_only : config := [("app", [("a", "1")])].
Definition of_section (sec : string) : psource := SConfig app_only (Some sec) (VDict []) None.
Definition One : formty := FormTy "One" [fld "a" (KInteger None None); fld "b" (KInteger None None)].
Definition s_one : st := St (stk init) [(One, [(VStr "a", VInt 1); (VStr "z", VInt 2)]); (One, [(VStr "a", VInt 3)])] (paths init) (errs init).
Lemma web_shut : no_section (of_section "web").
Proof. split; [discriminate|]. intros o [Q|[]]. discriminate. Qed.
Lemma one_json : plain_src env0 (SJson (VDict []) false None). Proof. now constructor. Qed.
Lemma list_json : plain_src env0 (SJson (VList []) false None). Proof. now constructor. Qed.
Definition joined (l : list psource) : bsource := BUnion (USource l MFirst MFirst None).
Example C104_open_case : opens env0 (SBase (BPlain (of_section "app"))) /\ opens env0 (SBase (joined [SJson VNone false None; SJson (VDict []) false None])) /\
  opens (w_env world2) (SMount [("m", BPlain (of_section "app"))]).
Proof.
  assert (A : ~ no_section (of_section "app")) by (intros [_ N]; apply (N [("a", "1")]); now left).
  split; [constructor; constructor; exact A|]. split.
  - constructor. constructor; [discriminate|repeat constructor|]. intros s [<-|[<-|[]]]; [now left|right; eexists; reflexivity].
  - constructor; [reflexivity|]. intros k b [[= <- <-]|[]]. constructor. exact A.
Qed.
Example C104_case : shut (w_env world0) (SBase (BPlain (of_section "web"))) (EOther "NoSectionError") /\
  shut (w_env world0) (SBase (joined [])) (EValue "All paths must have equal length") /\
  shut (w_env world0) (SBase (joined [SJson (VDict []) false None; of_section "web"])) (EOther "NoSectionError") /\
  shut (w_env world0) (SBase (joined [SJson (VDict []) false None; SJson (VList []) false None])) (ESource NotMapping) /\
  shut (w_env world2) (SMount [("m", BPlain (of_section "app")); ("n", BPlain (of_section "web"))]) (EOther "NoSectionError") /\
  shut (w_env world0) (SMount []) (EAttr "'dict' object has no attribute 'iteritems'").
Proof.
  split; [constructor; constructor; exact web_shut|]. split; [constructor; now apply sh_empty|].
  split; [constructor; apply (sh_part _ _ (of_section "web")); [right; now left|exact web_shut]|].
  split; [constructor; apply (sh_shape _ _ (SJson (VList []) false None)); [constructor; [exact one_json|constructor; [exact list_json|constructor]]|right; now left|discriminate|discriminate]|].
  split; [|now constructor]. apply (shut_mount _ [("m", BPlain (of_section "app"))] "n" (BPlain (of_section "web")) []); [reflexivity| |constructor; exact web_shut].
  intros k b [[= <- <-]|[]]. constructor. intros [_ N]. apply (N [("a", "1")]). now left.
Qed.
Example C104_map_case : at_top s_one (ASrc (SBase (BPlain (of_section "web")))) /\ in_force s_one [] [] /\ choice [] (ft_fields One) (ft_fields One) /\
  (let r := Form_map world0 3 0 (ASrc (SBase (BPlain (of_section "web")))) [] true UIgnore Collect s_one in
   fst r = Exn (EOther "NoSectionError") /\ forms (snd r) = [(One, [(VStr "z", VInt 2)]); (One, [(VStr "a", VInt 3)])]) /\
  no_source (AVal (VInt 3)) /\ at_top s_one (AVal (VInt 3)).
Proof.
  split; [eexists; reflexivity|]. split; [right; split; [reflexivity|vm_compute; auto]|]. split; [repeat constructor|]. split; [vm_compute; auto|]. split; [exact I|eexists; reflexivity].
Qed.
