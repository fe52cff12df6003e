(** Specification of the validation checks, in terms of the variants found by
    looking entries up. *)
From Verif Require Import Base CharModel RepSpec VarSetSpec LgrModel ValidateModel.
Open Scope string_scope.
Open Scope list_scope.

(** [v] is one of the variants of entry [a], its target being [b]. *)
Definition mapping (r : repertoire) (a b : cps) (v : variant) : Prop :=
  exists ch, lookup r a = Some ch /\ In v (get_variants ch) /\ v_cp v = b.
(** [a] has a variant targeting [b]. *)
Definition has_target (r : repertoire) (a b : cps) : Prop := exists v, mapping r a b v.

(** ** Symmetry *)
Definition asymmetric_at (r : repertoire) (a b : cps) : Prop :=
  has_target r a b /\ (lookup r b = None \/ ~ has_target r b a).
Definition symmetric (r : repertoire) : Prop :=
  forall a b, has_target r a b -> lookup r b <> None /\ has_target r b a.
(** Some reverse mapping carries the same rule. *)
Definition rules_mirrored (r : repertoire) : Prop :=
  forall a b v, mapping r a b v ->
    (truthy (v_when v) = true -> exists w, mapping r b a w /\ v_when w = v_when v) /\
    (truthy (v_not_when v) = true -> exists w, mapping r b a w /\ v_not_when w = v_not_when v).
(** The problem reported for one mapping. *)
Inductive sym_violation (r : repertoire) (ignore_rules : bool) (a : cps) (v : variant) : sym_problem -> Prop :=
| SV_absent : lookup r (v_cp v) = None -> sym_violation r ignore_rules a v SymNotInRepertoire
| SV_missing : lookup r (v_cp v) <> None -> ~ has_target r (v_cp v) a ->
    sym_violation r ignore_rules a v SymMissing
| SV_when : ignore_rules = false -> has_target r (v_cp v) a -> truthy (v_when v) = true ->
    (forall w, mapping r (v_cp v) a w -> v_when w <> v_when v) ->
    sym_violation r ignore_rules a v (SymWhen (v_when v))
| SV_not_when : ignore_rules = false -> has_target r (v_cp v) a ->
    (truthy (v_when v) = true -> exists w, mapping r (v_cp v) a w /\ v_when w = v_when v) ->
    truthy (v_not_when v) = true ->
    (forall w, mapping r (v_cp v) a w -> v_not_when w <> v_not_when v) ->
    sym_violation r ignore_rules a v (SymNotWhen (v_not_when v)).

(** ** Transitivity *)
Definition transitive (r : repertoire) : Prop :=
  forall a b, has_target r a b -> lookup r b <> None /\
    forall c, has_target r b c -> c <> a -> has_target r a c.
(** A composed mapping from [a] to [c] is missing. *)
Definition gap (r : repertoire) (a c : cps) : Prop :=
  exists b, has_target r a b /\ has_target r b c /\ c <> a /\ ~ has_target r a c.

(** ** Statistics *)
(** [es] lists every entry exactly once. *)
Definition enumerates (r : repertoire) (es : list char) : Prop :=
  NoDup es /\ forall ch, In ch es <-> lookup r (ch_cp ch) = Some ch.
Definition sumN {A} (f : A -> N) (l : list A) : N := fold_right (fun x s => f x + s) 0 l.
Definition countN {A} (p : A -> bool) (l : list A) : N := N.of_nat (length (filter p l)).
(** A counter is absent when the count is zero. *)
Definition counted (n : N) : option N := if N.eqb n 0 then None else Some n.
(** [n] is the largest of the values (0 for none). *)
Definition is_max {A} (f : A -> N) (l : list A) (n : N) : Prop :=
  (forall x, In x l -> f x <= n) /\ (n = 0 \/ exists x, In x l /\ f x = n).

(** Number of distinct code points among an entry and its variants (0: no
    variant). *)
Definition vset (c : char) : N :=
  match get_variants c with [] => 0 | _ => N.of_nat (length (dedup cps_eqb (map v_cp (get_variants c) ++ [ch_cp c]))) end.

(** ** Driver *)
Definition spec_checks (rfc7940 : bool) : list string :=
  initial_checks ++ (if rfc7940 then rfc7940_checks else []).
(** The list of checks after a history of calls with the given flags. *)
Definition checks_after (history : list bool) : list string :=
  fold_left (fun cs b => fst (validate_lgr (R := unit) (fun _ => Ok tt) cs b)) history initial_checks.
