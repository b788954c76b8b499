(** * AttrProofs: the attributes of forms that are no fields. *)
From Coq Require Import Lia.
From Verif Require Import PyBase PyStr Source Field Context Fields Forms SpecAttr Balance ObjProofs.

Lemma in_names a l : existsb (String.eqb a) l = true <-> In a l.
Proof.
  rewrite existsb_exists. split.
  - intros (x & I & Q). apply String.eqb_eq in Q. now subst.
  - intros I. exists a. split; [exact I|apply String.eqb_refl].
Qed.
Lemma not_in_names a l : existsb (String.eqb a) l = false <-> ~ In a l.
Proof. rewrite <- in_names. destruct (existsb (String.eqb a) l); intuition congruence. Qed.
Lemma methods_same a : bound_method a <-> In a form_methods.
Proof. unfold bound_method, form_methods. cbn [In]. intuition. Qed.
Lemma others_same E a : other_attribute E a <-> In a (dict_methods (py3 E)) \/ In a form_data.
Proof.
  unfold other_attribute, dict_methods, form_data. rewrite in_app_iff. destruct (py3 E); cbn [In].
  - split; [intros [H|[X _]]; [|discriminate]|]; intuition.
  - split; [intros [H|[_ H]]|]; intuition.
Qed.
Lemma attribute_is E id a :
  match form_attribute (py3 E) id a with
  | Some v => (bound_method a /\ is_method v = true) \/ (other_attribute E a /\ is_method v = false /\ v <> VNone)
  | None => no_attribute E a
  end.
Proof.
  unfold form_attribute. destruct (existsb (String.eqb a) form_methods) eqn:M.
  - left. split; [apply methods_same, in_names, M|destruct a; reflexivity].
  - apply not_in_names in M. destruct (existsb (String.eqb a) (dict_methods (py3 E))) eqn:D.
    + right. split; [apply others_same; left; apply in_names, D|]. split; [reflexivity|discriminate].
    + destruct (existsb (String.eqb a) form_data) eqn:X.
      * right. split; [apply others_same; right; apply in_names, X|]. split; [reflexivity|discriminate].
      * apply not_in_names in D, X. split; [rewrite methods_same; exact M|]. rewrite others_same. intuition.
Qed.
Lemma methods_first a E : bound_method a -> ~ other_attribute E a.
Proof.
  unfold bound_method, other_attribute. intros H K. cbn [In] in H, K.
  repeat (destruct H as [<-|H]; [repeat (destruct K as [K|K]; try discriminate; try contradiction); destruct K as [_ K]; repeat (destruct K as [K|K]; try discriminate); contradiction|]). contradiction.
Qed.
Lemma unknown_is E id a : no_attribute E a -> form_attribute (py3 E) id a = None.
Proof.
  intros [M O]. pose proof (attribute_is E id a) as H. destruct (form_attribute (py3 E) id a); [|reflexivity]. exfalso. intuition.
Qed.
Lemma getattr_unknown W rec s id t l a : nth_error (forms s) id = Some (t, l) ->
  (forall f, In f (ft_fields t) -> o_name (f_opts f) <> Some a) ->
  form_getattr W rec id a s = match form_attribute (py3 (w_env W)) id a with Some v => (Ok v, s) | None => (Exn (EAttr a), s) end.
Proof.
  intros FI NF. unfold form_getattr, form_type, bind, get. rewrite FI. unfold find_field.
  destruct (find (name_is a) (ft_fields t)) as [g|] eqn:FF.
  - exfalso. apply find_some in FF. destruct FF as [IG FF]. apply (NF g IG). unfold name_is, f_name in FF.
    destruct (o_name (f_opts g)) as [x|]; [|discriminate]. apply String.eqb_eq in FF. now subst.
  - destruct (form_attribute _ id a); reflexivity.
Qed.
(** ** C50 *)
Lemma C50_yes_lem W fuel id a s : dict_get (entries s id) (VStr a) <> None -> has_name W (field_map W fuel) id a s = (Ok true, s).
Proof.
  unfold has_name, bind, form_entries, get. intros H. destruct (dict_has (entries s id) (VStr a)) eqn:D; [reflexivity|]. apply dict_has_none in D. congruence.
Qed.
Lemma C50_true_lem W fuel id a t l s s' : nth_error (forms s) id = Some (t, l) -> has_name W (field_map W fuel) id a s = (Ok true, s') ->
  dict_get l (VStr a) <> None \/ (find_field a t = None /\ bound_method a) \/
  exists f c z, find_field a t = Some f /\ form_getattr W (field_map W fuel) id a s = (Ok (VObj c z), s') /\ String.prefix "method " c = true.
Proof.
  intros N H. unfold has_name, bind, form_entries, get, entries in H. rewrite N in H. destruct (dict_has l (VStr a)) eqn:D; [left; intros X; apply dict_has_none in X; congruence|right].
  unfold catch in H. destruct (find_field a t) as [f|] eqn:FF.
  - right. destruct (form_getattr W (field_map W fuel) id a s) as [[v|e] s2]; [|destruct e; discriminate].
    destruct (is_method v) eqn:M; [|destruct v; discriminate]. destruct v; try discriminate. injection H as <-.
    do 3 eexists. split; [reflexivity|]. split; [reflexivity|exact M].
  - left. split; [reflexivity|]. unfold form_getattr, form_type, bind, get in H. rewrite N, FF in H. pose proof (attribute_is (w_env W) id a) as A.
    destruct (form_attribute _ id a) as [v|]; [|discriminate]. destruct A as [[B _]|(B & C & NN)]; [exact B|]. cbn [ret] in H. destruct v; try discriminate.
    rewrite C in H. discriminate.
Qed.
Lemma C50_unknown_lem W fuel id a t l s : nth_error (forms s) id = Some (t, l) -> dict_get l (VStr a) = None ->
  (forall f, In f (ft_fields t) -> o_name (f_opts f) <> Some a) ->
  (bound_method a -> has_name W (field_map W fuel) id a s = (Ok true, s)) /\
  (other_attribute (w_env W) a -> has_name W (field_map W fuel) id a s = (Exn (EAttr "__get__"), s)) /\
  (no_attribute (w_env W) a -> has_name W (field_map W fuel) id a s = (Ok false, s)).
Proof.
  intros N D NF. apply dict_has_none in D. unfold has_name, bind, form_entries, get, entries. rewrite N, D. unfold catch. rewrite (getattr_unknown W _ s id t l a N NF).
  pose proof (attribute_is (w_env W) id a) as A. destruct (form_attribute _ id a) as [v|].
  - destruct A as [[B C]|(B & C & V)].
    + split; [intros _; destruct v; try discriminate; rewrite C; reflexivity|]. split; [intros X; exfalso; eapply methods_first; eauto|intros [X _]; contradiction].
    + split; [intros X; exfalso; eapply methods_first; eauto|]. split; [|intros [_ X]; contradiction].
      intros _. destruct v; try congruence; rewrite C; reflexivity.
  - split; [intros X; destruct A as [A _]; contradiction|]. split; [intros X; destruct A as [_ A]; contradiction|reflexivity].
Qed.
