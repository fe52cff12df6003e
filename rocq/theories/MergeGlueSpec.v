(** Specification: members that meet at few code points. *)
From Coq Require Import Permutation.
From Verif Require Import Base CharModel RepSpec LgrModel LgrSpec ValidateSpec HarmonizeModel HarmonizeSpec MergeModel MergeSpec HarmMergeSpec.
Open Scope list_scope.

(** One of them has it, or relates them. *)
Definition some_has (l : list member) (a : cps) : Prop := exists m, In m l /\ has_cp m a.
Definition some_gives (l : list member) (a b : cps) : Prop := exists m, In m l /\ gives m a b.
(** At a code point a member shares with those before it, either it is the only
    shared one of its variants, for the member and through those before, or the
    one side knows all the variants of the other. *)
Definition alone_shared (before : list member) (m : member) (c : cps) : Prop :=
  forall d, has_cp m d -> some_has before d -> gives m c d \/ chained (some_gives before) c d -> d = c.
Definition one_knows (before : list member) (m : member) (c : cps) : Prop :=
  (forall x, gives m c x -> chained (some_gives before) c x) \/ (forall y, chained (some_gives before) c y -> y = c \/ gives m c y).
Definition glued (l : list member) : Prop := forall before m after, l = before ++ m :: after ->
  forall c, has_cp m c -> some_has before c -> alone_shared before m c \/ one_knows before m c.

(** At [c], the member relates a code point no chain of those before leads to;
    it does not relate one such a chain leads to. *)
Definition news (before : list member) (m : member) (c : cps) : Prop := exists x, gives m c x /\ ~ chained (some_gives before) c x.
Definition lacks (before : list member) (m : member) (c : cps) : Prop := exists y, chained (some_gives before) c y /\ y <> c /\ ~ gives m c y.
(** Two shared code points: where both sides relate them, neither has both news
    and something the member lacks; where only those before relate them, not
    both have news; where only the member does, not both have something it
    lacks. *)
Definition fitted (l : list member) : Prop := forall before m after, l = before ++ m :: after ->
  forall c d, c <> d -> some_has before c -> has_cp m c -> some_has before d -> has_cp m d ->
  (chained (some_gives before) c d -> gives m c d -> ~ (news before m c /\ lacks before m c)) /\
  (chained (some_gives before) c d -> ~ gives m c d -> ~ (news before m c /\ news before m d)) /\
  (gives m c d -> ~ chained (some_gives before) c d -> ~ (lacks before m c /\ lacks before m d)).

(** Two members: a variant of [c] for the second and not for the first. *)
Definition extra (m1 m2 : member) (c : cps) : Prop := exists x, x <> c /\ gives m2 c x /\ ~ gives m1 c x.
Definition pair_fits (m1 m2 : member) : Prop := forall c d, c <> d -> has_cp m1 c -> has_cp m2 c -> has_cp m1 d -> has_cp m2 d ->
  (gives m1 c d -> gives m2 c d -> ~ (extra m1 m2 c /\ extra m2 m1 c)) /\
  (gives m1 c d -> ~ gives m2 c d -> ~ (extra m1 m2 c /\ extra m1 m2 d)) /\
  (gives m2 c d -> ~ gives m1 c d -> ~ (extra m2 m1 c /\ extra m2 m1 d)).

(** Members give the same variants, besides the code point itself, to the code
    points they share. *)
Definition same_variants (l : list member) : Prop := forall m m' c d, In m l -> In m' l -> c <> d -> has_cp m c -> has_cp m' c -> gives m c d -> gives m' c d.
(** Harmonizing two members adds no variant to the first. *)
Definition settled_pair (m m' : member) : Prop := exists order h h' rs, rearranges order /\ harmonize order (mb_lgr m) (mb_lgr m') None = Ok (h, h', rs) /\
  forall a b, has_target (lg_rep h) a b -> gives m a b.

(** Pairs of members are harmonized, any number of times and in any order. *)
Inductive harmonized_run : list member -> list member -> Prop :=
| run_end : forall l, harmonized_run l l
| run_pair : forall l m1 m2 rest order h1 h2 rs l', Permutation l (m1 :: m2 :: rest) -> rearranges order ->
    harmonize order (mb_lgr m1) (mb_lgr m2) None = Ok (h1, h2, rs) ->
    harmonized_run (with_lgr m1 h1 :: with_lgr m2 h2 :: rest) l' -> harmonized_run l l'.
(** [n] pairs are harmonized one after the other, each time adding a variant. *)
Inductive gaining_run : nat -> list member -> list member -> Prop :=
| gain_end : forall l, gaining_run 0 l l
| gain_pair : forall n l m1 m2 rest order h1 h2 rs l', Permutation l (m1 :: m2 :: rest) -> rearranges order ->
    harmonize order (mb_lgr m1) (mb_lgr m2) None = Ok (h1, h2, rs) ->
    (exists a b, (has_target (lg_rep h1) a b /\ ~ gives m1 a b) \/ (has_target (lg_rep h2) a b /\ ~ gives m2 a b)) ->
    gaining_run n (with_lgr m1 h1 :: with_lgr m2 h2 :: rest) l' -> gaining_run (S n) l l'.
