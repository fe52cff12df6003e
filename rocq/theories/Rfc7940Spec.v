(** Specification of the RFC 7940 verdict in terms of the reports made. *)
From Verif Require Import Base Rfc7940Model.
Open Scope string_scope.

(** Status of a test after a list of reports. *)
Definition executed (l : list report) (t : string) : Prop := exists b, In (t, b) l.
Definition failed (l : list report) (t : string) : Prop := In (t, false) l.

(** Policies other than IGNORE and WARNING enforce the test. *)
Definition enforcing (p : string) : Prop := p <> "IGNORE" /\ p <> "WARNING".
(** The run must fail: a test of the policy was not executed, or failed
    while enforced; it must warn: a test under WARNING failed. *)
Definition spec_error (l : list report) (pol : dict string string) : Prop :=
  exists t p, In (t, p) pol /\ (~ executed l t \/ (failed l t /\ enforcing p)).
Definition spec_warn (l : list report) (pol : dict string string) : Prop :=
  exists t, In (t, "WARNING") pol /\ failed l t.

(** Same set of reports, whatever their order and multiplicity. *)
Definition same_reports (l1 l2 : list report) : Prop := forall p, In p l1 <-> In p l2.

