(** Specification of what the LGR merged from a set says of labels. *)
From Verif Require Import Base CharModel RepSpec ActionModel ActionSpec LabelModel LabelSpec LgrModel ValidateSpec MergeModel MergeSpec.
Open Scope string_scope.
Open Scope list_scope.

(** ** The default actions *)
(** A list of types with [t] as its only element. *)
Definition just (o : option (list string)) (t : string) : Prop := exists l, o = Some l /\ forall s, In s l <-> s = t.
(** RFC 7940 section 7.6: invalid, blocked and allocatable variants, labels all
    of whose variants are activated, all other labels. *)
Definition by_default (a : action) : Prop :=
  a_match a = None /\ a_not_match a = None /\
  ((exists t, In t ["invalid"; "blocked"; "allocatable"] /\ a_disp a = t /\ just (a_any a) t /\ a_all a = None /\ a_only a = None) \/
   (a_disp a = "activated" /\ a_any a = None /\ just (a_all a) "activated" /\ a_only a = None) \/
   (a_disp a = "valid" /\ a_any a = None /\ a_all a = None /\ a_only a = None)).

(** ** The members *)
Section Members.
  (** The rules of each member. *)
  Variable rms : member -> rule_oracle.
  (** The label triggers an action of [m] that is not a default one. *)
  Definition triggered (m : member) (label : cps) (types : dispset) (only : bool) (a : action) : Prop :=
    In a (mb_actions m) /\ ~ by_default a /\ triggers (rms m) a label types only.
  (** [a], of [m], is the first one, looking at the members [l] in turn. *)
  Definition first_triggered (l : list member) (label : cps) (types : dispset) (only : bool) (m : member) (a : action) : Prop :=
    exists l1 l2 x1 x2, l = l1 ++ m :: l2 /\ mb_actions m = x1 ++ a :: x2 /\ ~ by_default a /\ triggers (rms m) a label types only /\
      (forall b, In b x1 -> ~ by_default b -> ~ triggers (rms m) b label types only) /\
      forall m' b, In m' l1 -> ~ triggered m' label types only b.

  (** A rule in the merged LGR answers as it does in the member: rules of
      actions, the common one being called [Common-leading-combining-mark],
      and context rules of code points. *)
  Definition rules_follow (rm : rule_oracle) (l : list member) : Prop :=
    (forall m a n label, In m l -> In a (mb_actions m) -> a_match a = Some n \/ a_not_match a = Some n ->
       n <> "" /\ (n = "leading-combining-mark" -> rm "Common-leading-combining-mark" label None = rms m n label None) /\
       (n <> "leading-combining-mark" -> rm (get_script m ++ "-" ++ n)%string label None = rms m n label None)) /\
    (forall m c n label at_, In m l -> when_of m c = Some n \/ not_when_of m c = Some n ->
       n <> "" /\ rm (get_script m ++ "-" ++ n)%string label (Some at_) = rms m n label (Some at_)).

  (** [x] may stand at position [i]: one member has it, and its context rule
      holds there; or no member has a context rule for it. *)
  Definition fits (l : list member) (label : cps) (i : nat) (x : N) : Prop :=
    (exists m ch, only_member l m [x] /\ lookup (lg_rep (mb_lgr m)) [x] = Some ch /\
       context_holds (rms m) (ch_when ch) (ch_not_when ch) [x] label i) \/
    ((exists m, In m l /\ has_cp m [x]) /\
     forall m ch, In m l -> lookup (lg_rep (mb_lgr m)) [x] = Some ch -> ch_when ch = None /\ ch_not_when ch = None).
End Members.

(** No code point is a variant of itself. *)
Definition no_selves (r : repertoire) : Prop := forall c, ~ has_target r c c.
(** The default actions of a member, if any, come last. *)
Definition defaults_last (m : member) : Prop := exists x y, mb_actions m = x ++ y /\ (forall a, In a x -> ~ by_default a) /\ forall a, In a y -> by_default a.
(** No code point is in two members. *)
Definition apart_members (l : list member) : Prop := forall c, ~ in_two l c.
