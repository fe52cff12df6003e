(** The rules an LGR mentions, and what is asked of them. *)
From Verif Require Import Base CharModel RepSpec ActionModel ActionSpec LgrModel LabelModel LabelSpec ClassModel ClassSpec RuleModel RuleSpec EvalModel.
Open Scope string_scope.
Open Scope list_scope.
Open Scope nat_scope.

(** Of a positive and a negative condition the negative one only counts when the
    other is absent. *)
Definition consulted (pos neg : option string) : option string := match pos with Some n => Some n | None => neg end.
Inductive mentioned (r : repertoire) (acts : list action) : string -> Prop :=
| M_char : forall x l ch n, dget N.eqb x (rep_chars r) = Some l -> In ch l ->
    consulted (ch_when ch) (ch_not_when ch) = Some n -> mentioned r acts n
| M_variant : forall x l ch c vs v n, dget N.eqb x (rep_chars r) = Some l -> In ch l ->
    dget cps_eqb c (ch_variants ch) = Some vs -> In v vs -> consulted (v_when v) (v_not_when v) = Some n -> mentioned r acts n
| M_action : forall a n, In a acts -> consulted (a_match a) (a_not_match a) = Some n -> mentioned r acts n.

(** Rules are there for all names mentioned (and none of them is the empty
    name). *)
Definition all_defined (r : repertoire) (acts : list action) (rules : rtable) : Prop :=
  forall n, mentioned r acts n -> n <> "" /\ exists x, dget String.eqb n rules = Some x.
(** The rules of a table all resolve. *)
Definition all_resolve (u : ClassModel.unidb) (look : table) (rules : rtable) : Prop :=
  forall n x, dget String.eqb n rules = Some x -> resolves_rule u look rules x.

(** An oracle that gives the verdicts of RFC 7940. *)
Definition truthful (u : ClassModel.unidb) (look : table) (rules : rtable) (rm : rule_oracle) : Prop :=
  (forall n x label a i, dget String.eqb n rules = Some x -> length label <= max_label -> i <= length label ->
     (rm n label (Some (a, i)) = true <-> rule_verdict u look rules x label (Some a) i)) /\
  (forall n x label, dget String.eqb n rules = Some x -> length label <= max_label -> ~ In 37%N label ->
     (rm n label None = true <-> rule_verdict u look rules x label None 0)).

(** What can go wrong with the rules an LGR mentions: one is missing, has the
    empty name, or fails. *)
Definition rule_trouble (u : ClassModel.unidb) (look : table) (rules : rtable) (obj : nat -> option rule)
  (r : repertoire) (acts : list action) (e : exn) : Prop :=
  (exists n, mentioned r acts n /\ dget String.eqb n rules = None /\ e = KeyErrorStr n) \/
  (exists x, mentioned r acts "" /\ dget String.eqb "" rules = Some x /\ e = TypeError) \/
  (exists n x f k label a i, mentioned r acts n /\ dget String.eqb n rules = Some x /\ used u look rules obj k /\
     snd (rule_matches u look rules f x label a i k) = Raise e).

(** The context condition of an entry or variant [c] at position [i], and the
    condition of an action, by the verdicts of RFC 7940. *)
Section Rfc.
  Variable u : ClassModel.unidb.
  Variable look : table.
  Variable rules : rtable.
  Definition condition_met (pos neg : option string) (label : cps) (anchor : option cps) (i : nat) : Prop :=
    match pos, neg with
    | Some n, _ => exists x, dget String.eqb n rules = Some x /\ rule_verdict u look rules x label anchor i
    | None, Some n => exists x, dget String.eqb n rules = Some x /\ ~ rule_verdict u look rules x label anchor i
    | None, None => True
    end.
  (** The entries [l] make up [label] from position [i] on. *)
  Inductive makes_up (r : repertoire) (label : cps) : nat -> list char -> Prop :=
  | makes_end : makes_up r label (length label) []
  | makes_cons : forall i ch l, entry r ch -> occurs_at label i (ch_cp ch) ->
      condition_met (ch_when ch) (ch_not_when ch) label (Some (ch_cp ch)) i ->
      makes_up r label (i + length (ch_cp ch)) l -> makes_up r label i (ch :: l).
  Definition action_met (a : action) (label : cps) (ds : dispset) (only : bool) : Prop :=
    condition_met (a_match a) (a_not_match a) label None 0 /\ variant_condition a ds only.
  (** Action number [i] is the first whose conditions are met. *)
  Definition first_met (acts : list action) (label : cps) (ds : dispset) (only : bool) (a : action) (i : nat) : Prop :=
    nth_error (acts ++ default_actions) i = Some a /\ action_met a label ds only /\
    forall j b, j < i -> nth_error (acts ++ default_actions) j = Some b -> ~ action_met b label ds only.
End Rfc.

(** The types of the reflexive variants of a label, and whether every entry found
    in it has one. *)
Section Reflexive.
  Variable u : ClassModel.unidb.
  Variable look : table.
  Variable rules : rtable.
  Variable r : repertoire.
  Variable label : cps.
  Definition stands (i : nat) (ch : char) : Prop :=
    entry r ch /\ occurs_at label i (ch_cp ch) /\ condition_met u look rules (ch_when ch) (ch_not_when ch) label (Some (ch_cp ch)) i.
  Definition maps_itself (i : nat) (ch : char) (v : variant) : Prop :=
    In v (get_variants ch) /\ v_cp v = ch_cp ch /\ condition_met u look rules (v_when v) (v_not_when v) label (Some (v_cp v)) i.
  Definition reflexive_type (t : option string) : Prop := exists i ch v, stands i ch /\ maps_itself i ch v /\ v_type v = t.
  Definition all_reflexive : Prop := forall i ch, stands i ch -> exists v, maps_itself i ch v.
End Reflexive.
