(** Specification of when the merge of a set of LGRs succeeds. *)
From Coq Require Import Permutation.
From Verif Require Import Base CharModel RepSpec RefModel ActionModel LgrModel LgrSpec ValidateSpec MergeModel MergeSpec.
Open Scope string_scope.
Open Scope list_scope.

(** [m] gives [c] neither a context rule nor a variant. *)
Definition nothing_said (m : member) (c : cps) : Prop :=
  when_of m c = None /\ not_when_of m c = None /\ forall b v, ~ mapping (lg_rep (mb_lgr m)) c b v.
(** Of two members with a code point, one at most says something of it. *)
Definition one_speaks (l : list member) : Prop :=
  forall c m1 m2 rest, Permutation l (m1 :: m2 :: rest) -> has_cp m1 c -> has_cp m2 c -> nothing_said m1 c \/ nothing_said m2 c.
(** No text is there under two ids. *)
Definition texts_once (m : member) : Prop :=
  forall id1 id2 t, text_in (mb_lgr m) id1 = Some t -> text_in (mb_lgr m) id2 = Some t -> id1 = id2.
(** No variant has a context rule without name. *)
Definition contexts_named (m : member) : Prop :=
  forall a b v, mapping (lg_rep (mb_lgr m)) a b v -> v_when v <> Some "" /\ v_not_when v <> Some "".

(** Members asking for a rule on a code point ask for the same one. *)
Definition same_rules (f : member -> cps -> option string) (l : list member) : Prop :=
  forall c m1 m2 n1 n2, In m1 l -> In m2 l -> f m1 c = Some n1 -> f m2 c = Some n2 -> n1 <> "" -> n2 <> "" -> n1 = n2.
(** The variants [m] gives [c] have no context rule. *)
Definition plainly_given (m : member) (c : cps) : Prop := forall b v, mapping (lg_rep (mb_lgr m)) c b v -> v_when v = None /\ v_not_when v = None.
(** [m2] gives [c] all the variants [m1] gives it. *)
Definition all_given (m1 m2 : member) (c : cps) : Prop := forall b, gives m1 c b -> gives m2 c b.
(** Of two members giving a code point variants, one gives those of the other
    one, and maybe more. *)
Definition variants_agree (l : list member) : Prop :=
  forall c m1 m2 rest, Permutation l (m1 :: m2 :: rest) -> has_cp m1 c -> has_cp m2 c ->
    (forall b, ~ gives m1 c b) \/ (forall b, ~ gives m2 c b) \/
    plainly_given m1 c /\ plainly_given m2 c /\ (all_given m1 m2 c \/ all_given m2 m1 c).

(** [m] gives [c] the variant [b], and gives it under a rule with a name. *)
Definition conditional (m : member) (c b : cps) : Prop :=
  exists v n, mapping (lg_rep (mb_lgr m)) c b v /\ (v_when v = Some n \/ v_not_when v = Some n) /\ n <> "".
(** No rule of a variant looks like a merged one. *)
Definition variant_rules_clear (l : list member) : Prop :=
  forall m x a b v n, In m l -> In x l -> mapping (lg_rep (mb_lgr x)) a b v -> (v_when v = Some n \/ v_not_when v = Some n) -> ~ starts (get_script m) n.

(** Only [m1] gives [c] the variant [x], of two members that have [c]. *)
Definition alone (m1 m2 : member) (c x : cps) : Prop := has_cp m2 c /\ gives m1 c x /\ ~ gives m2 c x /\ x <> c.
(** Each of the two gives [c] one of the variants [x] and [y] alone. *)
Definition between (m1 m2 : member) (c x y : cps) : Prop :=
  alone m1 m2 c x /\ alone m2 m1 c y \/ alone m2 m1 c x /\ alone m1 m2 c y.
(** Such variants are code points, are not related yet, and they are given to
    one code point only. *)
Definition joinable (m1 m2 : member) : Prop :=
  forall c x y, between m1 m2 c x y -> (has_cp m1 x \/ has_cp m2 x) /\ ~ gives m1 x y /\ ~ gives m2 x y /\ forall c', between m1 m2 c' x y -> c' = c.

(** ** Members one after the other *)
(** [H] are the code points and [R] the variants so far.  At a code point [c]
    there before, [m] gives a variant new to it, and gives not one it has. *)
Definition coming (H : cps -> Prop) (R : cps -> cps -> Prop) (m : member) (c x : cps) : Prop := H c /\ gives m c x /\ ~ R c x /\ x <> c.
Definition missing (R : cps -> cps -> Prop) (m : member) (c y : cps) : Prop := has_cp m c /\ R c y /\ ~ gives m c y /\ y <> c.
Definition meeting (H : cps -> Prop) (R : cps -> cps -> Prop) (m : member) (c a b : cps) : Prop :=
  coming H R m c a /\ missing R m c b \/ coming H R m c b /\ missing R m c a.
(** Those that meet are code points not related yet, and meet once. *)
Definition takes (H : cps -> Prop) (R : cps -> cps -> Prop) (m : member) : Prop :=
  forall c a b, meeting H R m c a b -> (H a \/ has_cp m a) /\ ~ R a b /\ ~ gives m a b /\ forall d, meeting H R m d a b -> d = c.
(** After [m]: what was related, what [m] relates, and what met. *)
Definition then_has (H : cps -> Prop) (m : member) (a : cps) : Prop := H a \/ has_cp m a.
Definition then_related (H : cps -> Prop) (R : cps -> cps -> Prop) (m : member) (a b : cps) : Prop := R a b \/ gives m a b \/ exists c, meeting H R m c a b.
Fixpoint all_taken (H : cps -> Prop) (R : cps -> cps -> Prop) (l : list member) : Prop :=
  match l with [] => True | m :: l' => takes H R m /\ all_taken (then_has H m) (then_related H R m) l' end.
Fixpoint related_after (H : cps -> Prop) (R : cps -> cps -> Prop) (l : list member) (a b : cps) : Prop :=
  match l with [] => R a b | m :: l' => related_after (then_has H m) (then_related H R m) l' a b end.
Definition no_one (_ : cps) : Prop := False.
Definition nothing (_ _ : cps) : Prop := False.
