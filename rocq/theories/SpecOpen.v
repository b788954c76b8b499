(** * SpecOpen: sources that can be opened, and those that cannot (C104). *)
From Verif Require Import PyBase PyStr Source Field Context Fields SpecUnion Eval.

(** The section a configuration is read for is not there. *)
Definition no_section (s : psource) : Prop :=
  match s with
  | SConfig cfg (Some sec) _ _ => sec <> "" /\ forall opts, ~ In (sec, opts) cfg
  | _ => False
  end.
(** ** What opens: plain sources with their section; unions of at least one document whose roots
    are mappings or null; on Python 2, mounts of such *)
Inductive opens_base (E : env) : bsource -> Prop :=
| op_plain s : ~ no_section s -> opens_base E (BPlain s)
| op_union u : us_srcs u <> [] -> Forall (plain_src E) (us_srcs u) ->
    (forall s, In s (us_srcs u) -> data_of s = VNone \/ exists l, data_of s = VDict l) -> opens_base E (BUnion u).
Inductive opens (E : env) : source -> Prop :=
| op_base b : opens_base E b -> opens E (SBase b)
| op_mount l : py3 E = false -> (forall k b, In (k, b) l -> opens_base E b) -> opens E (SMount l).
(** ** What does not, and how it fails *)
Inductive shut_base (E : env) : bsource -> exn -> Prop :=
| sh_section s : no_section s -> shut_base E (BPlain s) (EOther "NoSectionError")
| sh_empty u : us_srcs u = [] -> shut_base E (BUnion u) (EValue "All paths must have equal length")
| sh_part u s : In s (us_srcs u) -> no_section s -> shut_base E (BUnion u) (EOther "NoSectionError")
| sh_shape u s : Forall (plain_src E) (us_srcs u) -> In s (us_srcs u) ->
    data_of s <> VNone -> (forall l, data_of s <> VDict l) -> shut_base E (BUnion u) (ESource NotMapping).
Inductive shut (E : env) : source -> exn -> Prop :=
| shut_of b x : shut_base E b x -> shut E (SBase b) x
| shut_python3 l : py3 E = true -> shut E (SMount l) (EAttr "'dict' object has no attribute 'iteritems'")
| shut_mount l1 k b l2 x : py3 E = false -> (forall k' b', In (k', b') l1 -> opens_base E b') -> shut_base E b x ->
    shut E (SMount (l1 ++ (k, b) :: l2)) x.

(** An argument of [form.map] that is neither a source nor made into one *)
Definition no_source (a : srcarg) : Prop :=
  match a with
  | AVal (VNone | VDict _ | VForm _ | VList _ | VTuple _) | ANone | ASrc _ => False
  | AVal _ => True
  end.
