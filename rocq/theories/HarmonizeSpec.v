(** Specification of harmonization. *)
From Coq Require Import Permutation.
From Verif Require Import Base CharModel RepSpec LgrModel LgrSpec ValidateSpec PopulateSpec.
Open Scope string_scope.
Open Scope list_scope.

Definition rearranges (order : list cps -> list cps) : Prop := forall l, Permutation (order l) l.

Definition common (r s : repertoire) (c : cps) : Prop := lookup r c <> None /\ lookup s c <> None.
(** The variants of an LGR, and those the other one gives to the common code
    points. *)
Definition pooled (r s : repertoire) (a b : cps) : Prop := has_target r a b \/ (common r s a /\ has_target s a b).
(** Joined by a chain, in either direction. *)
Inductive chained (R : cps -> cps -> Prop) : cps -> cps -> Prop :=
| chained_refl : forall a, chained R a a
| chained_forth : forall a b c, R a b -> chained R b c -> chained R a c
| chained_back : forall a b c, R b a -> chained R b c -> chained R a c.

(** A code point taken over from the other LGR. *)
Definition outside (a : cps) : char := mkChar a (kind_of a) (Some "Out-of-repertoire") [] [] None None [].
Definition outside_variant (a : cps) : variant := mkVariant a (Some "out-of-repertoire") None None (Some "Out-of-repertoire") [].
Definition blocked_variant (b : cps) : variant := mkVariant b (Some "blocked") None None None [].

(** Equal but for the variants and for being part of a range. *)
Definition same_but_range (ch ch' : char) : Prop := same_entry (single ch) ch'.

(** What one LGR ([r], harmonized with [s]) becomes: its code points and the
    targets of the pooled variants; code points are variants of each other when
    a chain of pooled variants joins them.  A code point is mapped to itself if
    it was, or if it was taken over. *)
Definition taken_over (r s : repertoire) (a : cps) : Prop :=
  lookup r a = None /\ exists c, common r s c /\ has_target s c a /\ ~ has_target r c a.
Record completed (r s t : repertoire) : Prop := mkCompleted {
  co_entries : forall a, lookup t a <> None <-> lookup r a <> None \/ exists x, pooled r s x a;
  co_symmetric : symmetric t;
  co_transitive : transitive t;
  co_related : forall a b, a <> b -> (has_target t a b <-> chained (pooled r s) a b);
  co_itself : forall a, has_target t a a <-> has_target r a a \/ taken_over r s a
}.
(** What is not changed, and what is new. *)
Record respected (g s h : lgr) : Prop := mkRespected {
  re_raise : lg_raise h = lg_raise g;
  re_refs : lg_refs h = lg_refs g;
  re_tags : lg_tags h = lg_tags g;
  re_ranges : rep_ranges (lg_rep h) = [];
  re_old : forall a ch, lookup (lg_rep g) a = Some ch -> exists ch', lookup (lg_rep h) a = Some ch' /\ same_but_range ch ch';
  re_new : forall a ch', lookup (lg_rep g) a = None -> lookup (lg_rep h) a = Some ch' ->
    (taken_over (lg_rep g) (lg_rep s) a /\ same_entry (outside a) ch') \/ (~ taken_over (lg_rep g) (lg_rep s) a /\ same_entry (bare a) ch');
  re_variants : forall a b w, mapping (lg_rep h) a b w ->
    (exists v, mapping (lg_rep g) a b v /\ alike v w) \/ plain_blocked w \/
    (a = b /\ taken_over (lg_rep g) (lg_rep s) a /\ alike (outside_variant a) w)
}.
(** Code points of one LGR only. *)
Definition only_in (r s : repertoire) (l : list cps) : Prop :=
  NoDup l /\ forall a, In a l <-> lookup r a <> None /\ lookup s a = None.

(** No variant has two contexts, or cites references that are repeated or not
    defined. *)
Definition plain_variants (g : lgr) : Prop :=
  forall a b v, mapping (lg_rep g) a b v ->
    (v_when v = None \/ v_not_when v = None) /\ NoDup (v_refs v) /\ forall x, In x (v_refs v) -> defined_ref g x.

(** Variants keep their type, comment and references, and their rules if they
    had any. *)
Definition kept (g h : lgr) : Prop :=
  forall a b v, mapping (lg_rep g) a b v -> exists w, mapping (lg_rep h) a b w /\ alike v w /\ (w = v \/ unconditional v).
(** Entries stay, and so do the variants. *)
Definition nothing_removed (g h : lgr) : Prop :=
  lg_refs h = lg_refs g /\ lg_tags h = lg_tags g /\
  (forall a ch, lookup (lg_rep g) a = Some ch -> exists ch', lookup (lg_rep h) a = Some ch' /\ same_but_range ch ch') /\
  (forall a b, has_target (lg_rep g) a b -> has_target (lg_rep h) a b).
