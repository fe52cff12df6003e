(** Specification of harmonizing two LGRs and then merging them. *)
From Verif Require Import Base CharModel RepSpec LgrModel LgrSpec ValidateSpec HarmonizeSpec MergeModel MergeSpec.
Open Scope list_scope.

(** The member with its LGR replaced: all the rest of it stays. *)
Definition with_lgr (m : member) (g : lgr) : member :=
  mkMember (mb_languages m) g (mb_extensions m) (mb_actions m) (mb_rules m) (mb_classes m).
(** One of the two relates the code points. *)
Definition either (m1 m2 : member) (a b : cps) : Prop := gives m1 a b \/ gives m2 a b.
(** A code point [m1] does not have and gets because [m2] gives it as variant to
    a code point of both. *)
Definition gets (m1 m2 : member) (a : cps) : Prop :=
  ~ has_cp m1 a /\ exists c, has_cp m1 c /\ has_cp m2 c /\ gives m2 c a.
(** Related by [m1] or [m2], or by the root zone LGR [z] where one of them has
    the code point. *)
Definition zoned (m1 m2 z : member) (a b : cps) : Prop := gives m1 a b \/ gives m2 a b \/ (has_cp m1 a \/ has_cp m2 a) /\ gives z a b.
