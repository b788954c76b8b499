(** * SpecAttr: the attributes of forms that are no fields (C50, C75). *)
From Verif Require Import PyBase PyStr Source Field Context.

(** Names of [Form] that are bound methods... *)
Definition bound_method (a : string) : Prop :=
  In a ["copy"; "filter"; "flatten"; "from_fields"; "has"; "map"; "munge";
        "_map"; "_map_source"; "_nested_map"; "_reset"; "_root_map"; "_seq_source"; "_unmapped"].
(** ...and names of anything else. *)
Definition other_attribute (E : env) (a : string) : Prop :=
  In a ["clear"; "ctx"; "fields"; "fromkeys"; "get"; "items"; "keys"; "pop"; "popitem"; "setdefault"; "update"; "values"; "_count"; "_created_count"] \/
  py3 E = false /\ In a ["has_key"; "iteritems"; "iterkeys"; "itervalues"; "viewitems"; "viewkeys"; "viewvalues"].
Definition no_attribute (E : env) (a : string) : Prop := ~ bound_method a /\ ~ other_attribute E a.
