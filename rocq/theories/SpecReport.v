(** * SpecReport: what the theorems about replaced error classes are about (C98). *)
From Verif Require Import PyBase PyStr Source Field Context Reports.

(** The block gives [k] the value [x]. *)
Inductive gives (k : string) (x : cval) : frame -> Prop :=
| g_first rest : gives k x ((k, x) :: rest)
| g_later k' y rest : k' <> k -> gives k x rest -> gives k x ((k', y) :: rest).

(** [x] is in force: some block gives [k] the value [x], and no block inside that one gives [k]. *)
Inductive in_force (k : string) (x : cval) : list frame -> Prop :=
| if_here fr below : gives k x fr -> in_force k x (fr :: below)
| if_below fr below : (forall y, ~ gives k y fr) -> in_force k x below -> in_force k x (fr :: below).

(** An instance of [FieldError]. *)
Definition field_error (i : item) : Prop := (exists e, i = Stock e) \/ (exists c e, i = Derived c e) \/ (exists e, i = Other (EField e)).

(** [l] without the objects that are not field errors, in order. *)
Inductive field_errors_of : list item -> list item -> Prop :=
| fe_nil : field_errors_of [] []
| fe_keep i l fs : field_error i -> field_errors_of l fs -> field_errors_of (i :: l) (i :: fs)
| fe_drop i l fs : ~ field_error i -> field_errors_of l fs -> field_errors_of (i :: l) fs.

(** What a raising list that holds [all] raises. *)
Inductive raises : list item -> outcome -> Prop :=
| rs_form all f fs : field_errors_of all (f :: fs) -> raises all (RaisedForm (f :: fs))
| rs_first i all : field_errors_of (i :: all) [] -> (forall v, i <> Object v) -> raises (i :: all) (RaisedItem i)
| rs_type v all : field_errors_of (Object v :: all) [] -> raises (Object v :: all) RaisedType
| rs_index : raises [] RaisedIndex.
