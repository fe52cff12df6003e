(** Property theorems about character classes (C30).  Statements only. *)
From Verif Require Import Base ClassModel ClassSpec ClassProofs ClassFinal.
Open Scope string_scope.
Open Scope list_scope.

(** A class denotes a set exactly when its evaluation, given enough depth,
    returns that set. *)
Theorem C30_classes_compute_set_algebra : forall u look c, shaped c -> shaped_table look -> forall S,
  denotes u look c S <->
  exists n, forall f, (n <= f)%nat -> exists s, class_set u look f c = Ok s /\ forall x, s x = true <-> S x.
Proof. exact class_evaluates. Qed.
Print Assumptions C30_classes_compute_set_algebra.

(** Whatever the depth: a returned set is the denoted one, an error means the
    class denotes nothing and does not go away with more depth. *)
Theorem C30_outcomes : forall u look c, shaped c -> shaped_table look -> forall f,
  match class_set u look f c with
  | Ok s => denotes u look c (fun x => s x = true)
  | Raise e => e = OutOfFuel \/ ((forall S, ~ denotes u look c S) /\ forall f', (f <= f')%nat -> class_set u look f' c = Raise e)
  end.
Proof. exact class_outcome. Qed.
Print Assumptions C30_outcomes.

(** A class denotes one set, within the code points of the database. *)
Theorem C30_one_set : forall u look c S S', denotes u look c S -> denotes u look c S' -> forall x, S x <-> S' x.
Proof. exact denotes_unique. Qed.
Print Assumptions C30_one_set.
Theorem C30_within_unicode : forall u look c S, denotes u look c S -> forall x, S x -> x <= ud_max u.
Proof. exact denotes_bounded. Qed.
Print Assumptions C30_within_unicode.

(** Classes added one after the other, validated and never redefined, all
    evaluate, whatever happens to the tags meanwhile. *)
Theorem C30_validated_classes_evaluate_partial : forall u ops n c, tidy_classes u ops -> dget String.eqb n (class_run ops) = Some c ->
  exists S, denotes u (class_run ops) c S.
Proof. exact tidy_class_evaluates. Qed.
Print Assumptions C30_validated_classes_evaluate_partial.
Theorem C30_validated_tables_shaped : forall u ops, tidy_classes u ops -> shaped_table (class_run ops).
Proof. exact tidy_class_shaped. Qed.
Print Assumptions C30_validated_tables_shaped.

(** What validation accepts, and that a refused class leaves the table as it was. *)
Theorem C30_validation : forall look c n, cls_name c = Some n ->
  forall force look' o, add_class look c force = (look', o) ->
  (o = Ok tt -> (force = true \/ valid_class look true c) /\ forall m, dget String.eqb m look' = if String.eqb m n then Some c else dget String.eqb m look) /\
  (forall e, o = Raise e -> force = false /\ ~ valid_class look true c /\ look' = look /\ exists r, e = LGRFormatException r).
Proof. exact add_class_spec. Qed.
Print Assumptions C30_validation.

(** Construction keeps the number of children within bounds. *)
Theorem C30_add_child_bounds : forall c d c', shaped c -> shaped d -> add_child c d = Ok c' -> shaped c'.
Proof. exact add_child_shaped. Qed.
Print Assumptions C30_add_child_bounds.
Theorem C30_reference_excludes_the_rest : forall n b t p r l,
  (exists c, new_class n (Some b) t p r l = Ok c) <-> n = None /\ t = None /\ p = None /\ r = false.
Proof. exact new_class_by_ref. Qed.
Print Assumptions C30_reference_excludes_the_rest.

(** Adding and removing code points of a class of code points change exactly
    the set it stands for; a reference to another class cannot be changed. *)
Theorem C30_edited_set : forall u look n l0 l (add : bool) c' (S : N -> Prop),
  denotes u look (ClPlain n None None None l0) S ->
  (if add then add_class_codepoints else del_class_codepoints) (ClPlain n None None None l0) l = Ok c' ->
  cls_name c' = n /\ denotes u look c' (if add then fun x => S x \/ (x <= ud_max u /\ In x l) else fun x => S x /\ ~ In x l).
Proof. exact class_edits. Qed.
Print Assumptions C30_edited_set.
Theorem C30_edited_keeps : forall c l (add : bool) c', (if add then add_class_codepoints else del_class_codepoints) c l = Ok c' ->
  match c, c' with
  | ClPlain n b t p l0, ClPlain n' b' t' p' l1 => n' = n /\ b = None /\ b' = None /\ t' = t /\ p' = p /\ (NoDup l0 -> NoDup l1)
  | _, _ => c' = c
  end.
Proof. exact class_edits_kept. Qed.
Print Assumptions C30_edited_keeps.
Theorem C30_edit_refused : forall c l (add : bool),
  (exists e, (if add then add_class_codepoints else del_class_codepoints) c l = Raise e) <-> cls_by_ref c <> None.
Proof. exact class_edits_refused. Qed.
Print Assumptions C30_edit_refused.
Example C30_edits_nontrivial : add_class_codepoints (ClPlain (Some "c") None None None [1; 2]) [2; 3] = Ok (ClPlain (Some "c") None None None [1; 2; 3]) /\
  del_class_codepoints (ClPlain (Some "c") None None None [1; 2]) [2; 3] = Ok (ClPlain (Some "c") None None None [1]).
Proof. vm_compute. auto. Qed.

(** A class redefined in terms of itself passes validation and never evaluates. *)
Theorem C30_redefinition_loops_refuted : exists ops n c,
  (forall pre o post, ops = pre ++ o :: post ->
     match o with CAdd c f => f = false /\ snd (add_class (class_run pre) c f) = Ok tt | _ => False end) /\
  dget String.eqb n (class_run ops) = Some c /\ forall u f, class_set u (class_run ops) f c = Raise OutOfFuel.
Proof. exact redefinition_loops. Qed.
Print Assumptions C30_redefinition_loops_refuted.

(** So does a class with a malformed property. *)
Theorem C30_malformed_property_refuted : exists c, valid_class [] true c /\ forall u f, (1 <= f)%nat -> class_set u [] f c = Raise ValueError.
Proof. exact bad_property_accepted. Qed.
Print Assumptions C30_malformed_property_refuted.

Example C30_nontrivial : tidy_classes sample_db sample_ops /\ shaped_table (class_run sample_ops) /\
  match class_set sample_db (class_run sample_ops) 10 (cref "C") with Ok s => filter s (nrange 0 50) | Raise _ => [] end =
  [0; 1; 2; 3; 4; 5; 6; 7; 8; 9; 10; 11; 12; 13; 14; 15; 16; 17; 18; 19; 25; 31].
Proof. split; [exact sample_tidy|]. split; [exact (tidy_class_shaped _ _ sample_tidy)|exact sample_value]. Qed.
