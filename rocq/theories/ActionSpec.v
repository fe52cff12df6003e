(** Specification of when an action triggers. *)
From Verif Require Import Base ActionModel.

(** Independent reading of RFC 7940 section 7: when an action triggers. *)
Definition rule_condition (rmatch : rule_oracle) (a : action) (label : cps) : Prop :=
  match a_match a, a_not_match a with
  | Some r, _ => rmatch r label None = true
  | None, Some r => rmatch r label None = false
  | None, None => True
  end.
Definition type_listed (l : list string) (d : option string) : Prop := exists s, d = Some s /\ In s l.
Definition variant_condition (a : action) (ds : dispset) (only : bool) : Prop :=
  match a_any a, a_all a, a_only a with
  | Some l, _, _ => exists d, In d ds /\ type_listed l d
  | None, Some l, _ => ds <> [] /\ forall d, In d ds -> type_listed l d
  | None, None, Some l => only = true /\ ds <> [] /\ forall d, In d ds -> type_listed l d
  | None, None, None => True
  end.
Definition triggers rmatch a label ds only : Prop :=
  rule_condition rmatch a label /\ variant_condition a ds only.

