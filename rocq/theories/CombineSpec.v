(** Specification of the collisions of labels in LGRs that were combined. *)
From Verif Require Import Base CharModel RepSpec ActionModel LabelModel LabelSpec LgrModel ValidateSpec.
Open Scope N_scope.
Open Scope list_scope.

(** Code points and variants one by one, without context rules. *)
Definition letters (r : repertoire) : Prop := forall c ch, lookup r c = Some ch ->
  (exists x, c = [x]) /\ ch_when ch = None /\ ch_not_when ch = None /\
  forall v, In v (get_variants ch) -> v_when v = None /\ v_not_when v = None /\ exists y, v_cp v = [y].

(** Two labels of an LGR collide: each code point is the other one's, or a
    variant of it. *)
Definition variant_labels (r : repertoire) (a b : cps) : Prop := Forall2 (fun x y => x = y \/ has_target r [x] [y]) a b.
(** An LGR with rules [rm] gives [label] the index [i]. *)
Definition has_index (rm : rule_oracle) (r : repertoire) (label i : cps) : Prop :=
  index_once rm r label = Ok i /\ forall n t, index_label rm r n t label = Ok i.
(** [q], built by the operations of an LGR, has the code points, context rules
    and variants of [r], in any order. *)
Definition rebuilt (r q : repertoire) : Prop := reachable q /\
  (forall c, lookup q c <> None <-> lookup r c <> None) /\
  forall c ch ch', lookup r c = Some ch -> lookup q c = Some ch' -> ch_when ch' = ch_when ch /\ ch_not_when ch' = ch_not_when ch /\
    forall v, In v (get_variants ch') <-> In v (get_variants ch).
