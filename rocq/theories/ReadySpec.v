(** Documents read with a Unicode database. *)
From Verif Require Import Base BaseFacts ClassModel ClassSpec RuleModel Rfc7940Model SerialModel RulesXmlModel RulesXmlSpec DocModel.
Open Scope string_scope.
Open Scope list_scope.

(** No rule takes a name already in use. *)
Definition new_rules (t : rtable) (l : list xelem) : Prop :=
  forall pre e post n, rule_elems l = pre ++ e :: post -> x_get e "name" = Some n ->
    dget String.eqb n t = None /\ forall x, In x pre -> x_get x "name" <> Some n.
(** No name is given to two classes or to two rules, and none to a class that is
    that of the class of a tag. *)
Definition each_once (l : list xelem) : Prop :=
  forall pre e post n, l = pre ++ e :: post -> x_get e "name" = Some n -> forall x, In x pre -> x_get x "name" <> Some n.
Definition orderly_names (l : list xelem) : Prop :=
  each_once (class_elems l) /\ each_once (rule_elems l) /\
  forall e n, In e (class_elems l) -> x_get e "name" = Some n -> ~ tag_like n.
Definition rules_part (d : document) : list xelem := match dc_rules d with Some l => l | None => [] end.
