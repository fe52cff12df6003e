(** Specification of the labels of the union and of the intersection of two
    LGRs. *)
From Verif Require Import Base CharModel RepSpec ActionModel LabelModel LabelSpec LgrModel CompareModel CompareSpec ValidateSpec CombineSpec.
Open Scope list_scope.

(** [label] is tested against [d] and none of its code points is reported. *)
Definition no_complaint (rm : rule_oracle) (d : doc) (acts : list action) (label : cps) : Prop :=
  exists e, test_label_eligible rm (lg_rep (doc_lgr d)) acts label false = Ok e /\ el_invalid e = [].

Definition both_have (d1 d2 : doc) (c : cps) : Prop := entry_of d1 c <> None /\ entry_of d2 c <> None.
(** [d] has [c], and its context rule lets it stand at position [i]. *)
Definition allows (rm : rule_oracle) (d : doc) (label c : cps) (i : nat) : Prop :=
  exists a, entry_of d c = Some a /\ context_holds rm (ch_when a) (ch_not_when a) c label i.
(** What the union asks of [c] at position [i]: nothing more than to be in both
    LGRs, else that the one that has it allows it. *)
Definition either_allows (rm : rule_oracle) (d1 d2 : doc) (label c : cps) (i : nat) : Prop :=
  both_have d1 d2 c \/ (allows rm d1 label c i /\ entry_of d2 c = None) \/ (entry_of d1 c = None /\ allows rm d2 label c i).

(** No entry is a sequence. *)
Definition one_by_one (d : doc) : Prop := forall c, entry_of d c <> None -> exists x, c = [x].

(** No entry has a context rule. *)
Definition free (d : doc) : Prop := forall c a, entry_of d c = Some a -> ch_when a = None /\ ch_not_when a = None.

(** [label], from position [i] on, is the succession of [parts], each of which
    satisfies [P] where it stands. *)
Inductive made_of (P : cps -> nat -> Prop) : nat -> cps -> Prop :=
| made_end : forall i, made_of P i []
| made_cons : forall i c rest, c <> [] -> P c i -> made_of P (i + length c) rest -> made_of P i (c ++ rest).

(** The LGR [d] gives the labels [a] and [b] the same index. *)
Definition collide (rm : rule_oracle) (d : doc) (a b : cps) : Prop :=
  exists i, has_index rm (lg_rep (doc_lgr d)) a i /\ has_index rm (lg_rep (doc_lgr d)) b i.
