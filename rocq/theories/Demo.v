(** * Demo: a concrete environment and concrete forms, used by the examples beside
    the theorems and by the witnesses of refuted claims. *)
From Verif Require Import PyBase PyStr Source Field Context Fields.

(** An interpreter where every oracle gives its plainest answer: no object has
    attributes, and nothing parses as a float, date, and so on. *)
Definition env_of (is3 : bool) : env := {|
  py3 := is3;
  e_attr := fun _ _ => None;
  e_item := fun _ _ => Exn EKey;
  e_call := fun _ => Exn (EType "object is not callable");
  e_float := fun _ => None;
  e_dec := fun _ => None;
  e_str := fun _ => "?";
  e_iso := fun _ => None;
  e_strp := fun _ _ => None;
  e_strptime_time := fun _ _ => None;
  e_uuid := fun _ => None;
  e_re := fun p s => if String.prefix p s then Some [(KInt 0, VStr p)] else None;
  e_compile := fun _ => Exn (EOther "SyntaxError");
  e_import := fun _ => None;
  e_shlex := fun s => Ok [s];
  e_format := fun _ _ => Exn EKey
|}.
Definition env0 : env := env_of true.
Definition world0 : world := MkWorld env0 (fun _ => None).
Definition world2 : world := MkWorld (env_of false) (fun _ => None).

(** [name = Kind()] in a form class *)
Definition fld (n : string) (k : kind) : field := MkField (named n no_opts) k.
(** an anonymous [Kind()] *)
Definition anon (k : kind) : field := MkField no_opts k.
(** with a static default *)
Definition with_default (v : val) (f : field) : field :=
  let o := f_opts f in
  MkField (MkOpts (o_name o) (o_src o) (o_nullable o) (DVal v) (o_ignores o) (o_translations o)
                  (o_tags o) (o_attach_parent o) (o_compute o) (o_resolve o) (o_parse o)
                  (o_munge o) (o_filter o) (o_validate o)) (f_kind f).
Definition with_tags (l : list string) (f : field) : field :=
  let o := f_opts f in
  MkField (MkOpts (o_name o) (o_src o) (o_nullable o) (o_default o) (o_ignores o) (o_translations o)
                  l (o_attach_parent o) (o_compute o) (o_resolve o) (o_parse o)
                  (o_munge o) (o_filter o) (o_validate o)) (f_kind f).

Definition json (v : val) : source := SBase (BPlain (SJson v false None)).
Definition jdict (l : list (string * val)) : val := VDict (map (fun kv => (VStr (fst kv), snd kv)) l).

(** Two nested form classes. *)
Definition Inner : formty := FormTy "Inner" [fld "x" (KInteger None None); fld "y" (KString no_strc)].
Definition Outer : formty :=
  FormTy "Outer" [fld "a" (KInteger None None);
                  fld "l" (KList (anon (KInteger None None)) None None false);
                  fld "sub" (KSubForm Inner false UIgnore)].
Definition outer_ok : val :=
  jdict [("a", VInt 1); ("l", VList [VInt 1; VInt 2]);
         ("sub", jdict [("x", VInt 3); ("y", VStr "z")])].
Definition outer_bad : val :=
  jdict [("l", VList [VInt 1; VStr "q"]); ("sub", jdict [("x", VStr "r")])].

(** [form = Cls(); errors = form.map(src, error='collect')] in the fresh context *)
Definition map_new (W : world) (fuel : nat) (t : formty) (a : srcarg) (tags : list string)
           (u : unm) (m : mode) : M (nat * list err) :=
  id <- new_form t; es <- Form_map W fuel id a tags true u m; ret (id, es).
