(** Specification: the variant graph of a repertoire. *)
From Verif Require Import Base CharModel RepSpec.

(** [b] is a variant of entry [a]; targets outside the repertoire only count
    when [force] is set. *)
Definition edge (r : repertoire) (force : bool) (a b : cps) : Prop :=
  exists ch v, lookup r a = Some ch /\ In v (get_variants ch) /\ v_cp v = b /\
               (force = true \/ lookup r b <> None).

Inductive reach (r : repertoire) (force : bool) : cps -> cps -> Prop :=
| reach_refl : forall a, reach r force a a
| reach_step : forall a b c, edge r force a b -> reach r force b c -> reach r force a c.

(** [s] lists, in strictly increasing order, the code points reachable from
    [a]. *)
Definition cps_lt (a b : cps) : Prop := cps_leb a b = true /\ a <> b.
