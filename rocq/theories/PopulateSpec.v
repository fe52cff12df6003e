(** Specification of the population of variants. *)
From Verif Require Import Base CharModel RepSpec LgrModel LgrSpec ValidateModel ValidateSpec PopulateModel.
Open Scope string_scope.
Open Scope list_scope.

(** Related through a chain of variant mappings, taken in either direction. *)
Inductive linked (r : repertoire) : cps -> cps -> Prop :=
| linked_refl : forall a, linked r a a
| linked_forth : forall a b c, has_target r a b -> linked r b c -> linked r a c
| linked_back : forall a b c, has_target r b a -> linked r b c -> linked r a c.

(** An entry, or the target of a variant. *)
Definition mentioned (r : repertoire) (a : cps) : Prop := lookup r a <> None \/ exists x, has_target r x a.

(** Equal but for the variants. *)
Definition same_entry (ch ch' : char) : Prop :=
  ch_cp ch' = ch_cp ch /\ ch_kind ch' = ch_kind ch /\ ch_comment ch' = ch_comment ch /\ ch_refs ch' = ch_refs ch /\
  ch_tags ch' = ch_tags ch /\ ch_when ch' = ch_when ch /\ ch_not_when ch' = ch_not_when ch.
Definition bare (a : cps) : char := mkChar a (kind_of a) None [] [] None None [].

(** Same type, comment and references. *)
Definition alike (v w : variant) : Prop :=
  v_type w = v_type v /\ v_comment w = v_comment v /\ v_refs w = v_refs v.
Definition unconditional (v : variant) : Prop := v_when v = None /\ v_not_when v = None.
Definition plain_blocked (v : variant) : Prop := v_type v = Some "blocked" /\ v_comment v = None /\ v_refs v = [].

(** Nothing stands in the way of completing the variants: no variant targets a
    member of a range, has two contexts, or cites references that are repeated
    or not defined. *)
Definition populatable (g : lgr) : Prop :=
  (forall a b ch, has_target (lg_rep g) a b -> lookup (lg_rep g) b = Some ch -> is_range ch = false) /\
  (forall a b v, mapping (lg_rep g) a b v ->
     (v_when v = None \/ v_not_when v = None) /\ NoDup (v_refs v) /\ forall x, In x (v_refs v) -> defined_ref g x).
(** No context is the empty string (which the code takes for no context). *)
Definition neat (g : lgr) : Prop :=
  forall a b v, mapping (lg_rep g) a b v -> v_when v <> Some "" /\ v_not_when v <> Some "".

(** The reverse of a mapping under a rule is under some rule of the same kind. *)
Definition rules_both_ways (r : repertoire) : Prop := forall a b v, mapping r a b v ->
  (truthy (v_when v) = true -> exists w, mapping r b a w /\ truthy (v_when w) = true) /\
  (truthy (v_not_when v) = true -> exists w, mapping r b a w /\ truthy (v_not_when w) = true).
