(** * Properties about forms mapped from a list or a tuple (C71). *)
From Verif Require Import PyBase PyStr Source Field Context Fields SpecSrc SpecPos PosProofs PropsField Demo.

(** C71: the source a form makes of a list or a tuple finds at each field's name the item at
    the field's position, and nothing when the sequence is too short. *)
Theorem C71_positions : forall E ents t vs sq src i f,
  (sq = VList vs \/ sq = VTuple vs) -> root_source t (AVal sq) = Ok (SBase (BPlain src)) ->
  Forall (fun v => is_NONE v = false) vs -> NoDup (map fname (ft_fields t)) ->
  nth_error (ft_fields t) i = Some f -> identifier (fname f) ->
  (nth_error vs i = None -> e_attr E sq (fname f) = None) ->
  value_at E ents src sq [KStr (fname f)] = Ok (match nth_error vs i with Some v => v | None => VConst NONE end).
Proof.
  intros E ents t vs sq src i f SQ RS. assert (src = SDefault sq (seq_aliases 0 (ft_fields t)) [] None) as -> by (destruct SQ as [-> | ->]; injection RS as <-; reflexivity).
  exact (C71_value_lem E ents (ft_fields t) vs sq i f SQ).
Qed.
Print Assumptions C71_positions.
Definition Pair : formty := FormTy "Pair" [fld "a" (KInteger None None); fld "b" (KList (anon (KInteger None None)) None None false)].
Example C71_positions_case :
  root_source Pair (AVal (VTuple [VInt 7; VList [VInt 1]])) = Ok (SBase (BPlain (SDefault (VTuple [VInt 7; VList [VInt 1]]) [("a", KInt 0); ("b", KInt 1)] [] None))) /\
  NoDup (map fname (ft_fields Pair)) /\ identifier "b" /\
  value_at env0 (fun _ => []) (SDefault (VTuple [VInt 7; VList [VInt 1]]) [("a", KInt 0); ("b", KInt 1)] [] None) (VTuple [VInt 7; VList [VInt 1]]) [KStr "b"] = Ok (VList [VInt 1]).
Proof.
  split; [reflexivity|]. split; [repeat constructor; cbn; intuition discriminate|]. split; [|reflexivity].
  split; [intros [H|[]]; discriminate|reflexivity].
Qed.

(** Whatever is done at a field's location after a first read of it (reads, descents, returns
    to the location) observes exactly what the dict that names the items would. *)
Theorem C71_reads : forall E ents t vs sq src i f op l,
  (sq = VList vs \/ sq = VTuple vs) -> root_source t (AVal sq) = Ok (SBase (BPlain src)) ->
  Forall (fun v => is_NONE v = false) vs -> NoDup (map fname (ft_fields t)) ->
  nth_error (ft_fields t) i = Some f -> identifier (fname f) ->
  (nth_error vs i = None -> e_attr E sq (fname f) = None /\ e_attr E (VDict (by_name (ft_fields t) vs)) (fname f) = None) ->
  stays_below 0 l ->
  drive E ents (Down (KStr (fname f)) :: Read op :: l) (untouched src sq []) =
  drive E ents (Down (KStr (fname f)) :: Read op :: l)
    (untouched (SDefault (VDict (by_name (ft_fields t) vs)) [] [] None) (VDict (by_name (ft_fields t) vs)) []).
Proof.
  intros E ents t vs sq src i f op l SQ RS. assert (src = SDefault sq (seq_aliases 0 (ft_fields t)) [] None) as -> by (destruct SQ as [-> | ->]; injection RS as <-; reflexivity).
  exact (C71_reads_lem E ents (ft_fields t) vs sq i f op l SQ).
Qed.
Print Assumptions C71_reads.
Example C71_reads_case :
  stays_below 0 [Down (KInt 0); Read (OpPrimitive TyInt); Up; Read OpSequence] /\
  drive env0 (fun _ => []) [Down (KStr "b"); Read OpExists; Down (KInt 0); Read (OpPrimitive TyInt); Up; Read OpSequence]
    (untouched (SDefault (VTuple [VInt 7; VList [VInt 1]]) [("a", KInt 0); ("b", KInt 1)] [] None) (VTuple [VInt 7; VList [VInt 1]]) []) =
  [ObsUnit (Ok tt); ObsBool (Ok true); ObsUnit (Ok tt); ObsVal (Ok (VInt 1)); ObsUnit (Ok tt); ObsNat (Ok 1%nat)].
Proof. split; [cbn; auto|reflexivity]. Qed.

(** Two keys appended before anything is read, as a field with a source inside a flat
    sub-form does, miss the item: the aliases hold only while the path has one key. *)
Theorem C71_unread_refuted : exists vs f k,
  identifier (fname f) /\ Forall (fun v => is_NONE v = false) vs /\
  drive env0 (fun _ => []) [Down (KStr (fname f)); Down k; Read OpExists]
    (untouched (SDefault (VDict (by_name [f] vs)) [] [] None) (VDict (by_name [f] vs)) []) = [ObsUnit (Ok tt); ObsUnit (Ok tt); ObsBool (Ok true)] /\
  drive env0 (fun _ => []) [Down (KStr (fname f)); Down k; Read OpExists]
    (untouched (SDefault (VList vs) (seq_aliases 0 [f]) [] None) (VList vs) []) = [ObsUnit (Ok tt); ObsUnit (Ok tt); ObsBool (Ok false)].
Proof.
  exists [VDict [(VStr "k", VInt 1)]], (fld "a" (KInteger None None)), (KStr "k").
  split; [split; [intros [H|[]]; discriminate|reflexivity]|]. split; [repeat constructor|]. split; reflexivity.
Qed.
Print Assumptions C71_unread_refuted.

(** Asked for its mapping, the sequence lists every field, also those it has no item for. *)
Theorem C71_keys_refuted : exists vs fs f,
  In f fs /\ NoDup (map fname fs) /\
  psource_mapping env0 (fun _ => []) (SDefault (VList vs) (seq_aliases 0 fs) [] None) 0 (VList vs) = Ok (Ok (map (fun f => VStr (fname f)) fs)) /\
  value_at env0 (fun _ => []) (SDefault (VList vs) (seq_aliases 0 fs) [] None) (VList vs) [KStr (fname f)] = Ok (VConst NONE).
Proof.
  exists [VInt 1], (ft_fields Pair), (fld "b" (KList (anon (KInteger None None)) None None false)).
  split; [right; left; reflexivity|]. split; [repeat constructor; cbn; intuition discriminate|]. split; reflexivity.
Qed.
Print Assumptions C71_keys_refuted.
