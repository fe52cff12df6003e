(** What RFC 7940 (section 6) says a rule matches, without patterns. *)
From Verif Require Import Base ClassModel ClassSpec RuleModel.
Open Scope string_scope.
Open Scope list_scope.
Open Scope nat_scope.

(** How often an element with a count must occur. *)
Definition counted (k : option count) (n : nat) : Prop :=
  match k with
  | None => n = 1
  | Some (CExactly a) => n = a
  | Some (CAtLeast a) => a <= n
  | Some (CBetween a b) => a <= n <= b
  | Some (COther _) => False
  end.
Definition count_of (m : matcher) : option count :=
  match m with MAny k | MChar _ k | MClass _ k | MChoice k _ | MRule _ k => k | _ => None end.
(** The code points [l] stand in label [w] at position [i]. *)
Definition occurs (w l : cps) (i : nat) : Prop := forall n c, nth_error l n = Some c -> nth_error w (i + n) = Some c.

Section Semantics.
  Variable u : unidb.
  Variable look : table.
  Variable rules : rtable.
  Variable w : cps.
  Variable anchor : option cps.
  (** [once m i j]: one occurrence of [m] from position [i] to [j] of the label;
      [reps m n i j]: [n] of them in a row; [seqm l i j]: the elements [l] one
      after the other, each with its count; [rsem r i j]: rule [r]. *)
  Inductive once : matcher -> nat -> nat -> Prop :=
  | O_start : once MStart 0 0
  | O_end : once MEnd (length w) (length w)
  | O_anchor : forall a i, anchor = Some a -> occurs w a i -> once MAnchor i (i + length a)
  | O_any : forall k i, i < length w -> once (MAny k) i (i + 1)
  | O_char : forall l k i, occurs w l i -> once (MChar l k) i (i + length l)
  | O_class : forall c k i x (P : N -> Prop), denotes u look c P -> nth_error w i = Some x -> P x -> once (MClass c k) i (i + 1)
  | O_choice : forall k alts m i j, In m alts -> seqm [m] i j -> once (MChoice k alts) i j
  | O_ahead : forall l i j, seqm l i j -> once (MAhead l) i i
  | O_behind : forall l i j, j <= length w -> seqm l j i -> once (MBehind l) i i
  | O_rule : forall r k i j, rsem r i j -> once (MRule r k) i j
  with reps : matcher -> nat -> nat -> nat -> Prop :=
  | P_none : forall m i, reps m 0 i i
  | P_more : forall m n i x j, once m i x -> reps m n x j -> reps m (1 + n) i j
  with seqm : list matcher -> nat -> nat -> Prop :=
  | S_nil : forall i, seqm [] i i
  | S_cons : forall m l n i x j, counted (count_of m) n -> reps m n i x -> seqm l x j -> seqm (m :: l) i j
  with rsem : rule -> nat -> nat -> Prop :=
  | R_children : forall id nm ch i j, seqm ch i j -> rsem (Rule id nm None ch) i j
  | R_by_ref : forall id nm b ch r i j, dget String.eqb b rules = Some r -> rsem r i j -> rsem (Rule id nm (Some b) ch) i j.

  (** The rule mentions the anchor, itself or through the rules it refers to. *)
  Inductive anchored : matcher -> Prop :=
  | A_anchor : anchored MAnchor
  | A_choice : forall k l m, In m l -> anchored m -> anchored (MChoice k l)
  | A_ahead : forall l m, In m l -> anchored m -> anchored (MAhead l)
  | A_behind : forall l m, In m l -> anchored m -> anchored (MBehind l)
  | A_rule : forall r k, anchored_rule r -> anchored (MRule r k)
  with anchored_rule : rule -> Prop :=
  | A_children : forall id nm ch m, In m ch -> anchored m -> anchored_rule (Rule id nm None ch)
  | A_by_ref : forall id nm b ch r, dget String.eqb b rules = Some r -> anchored_rule r -> anchored_rule (Rule id nm (Some b) ch).

  (** Every reference of the rule leads, in finitely many steps, to rules and
      classes that are defined. *)
  Inductive resolves : matcher -> Prop :=
  | V_start : resolves MStart
  | V_end : resolves MEnd
  | V_anchor : resolves MAnchor
  | V_any : forall k, resolves (MAny k)
  | V_char : forall l k, resolves (MChar l k)
  | V_class : forall c k (P : N -> Prop), denotes u look c P -> resolves (MClass c k)
  | V_choice : forall k l, (forall m, In m l -> resolves m) -> resolves (MChoice k l)
  | V_ahead : forall l, (forall m, In m l -> resolves m) -> resolves (MAhead l)
  | V_behind : forall l, (forall m, In m l -> resolves m) -> resolves (MBehind l)
  | V_rule : forall r k, resolves_rule r -> resolves (MRule r k)
  with resolves_rule : rule -> Prop :=
  | V_children : forall id nm ch, (forall m, In m ch -> resolves m) -> resolves_rule (Rule id nm None ch)
  | V_by_ref : forall id nm b ch r, dget String.eqb b rules = Some r -> resolves_rule r -> resolves_rule (Rule id nm (Some b) ch).

  (** Rules RFC 7940 gives a meaning to: ranges of counts in order, minimal
      counts within the length of a label, classes that are not empty, choices
      and rules that have members. *)
  Definition good_count (k : option count) : Prop :=
    match k with Some (CBetween a b) => a <= b | Some (CAtLeast n) => n <= max_label | Some (COther _) => False | _ => True end.
  Definition good_class (c : cls) : Prop :=
    shaped c /\ forall (P : N -> Prop), denotes u look c P -> exists x, P x.
  Fixpoint good_matcher (m : matcher) : Prop :=
    match m with
    | MStart | MEnd | MAnchor => True
    | MAny k => good_count k
    | MChar l k => l <> [] /\ good_count k
    | MClass c k => good_class c /\ good_count k
    | MChoice k l => l <> [] /\ good_count k /\
        (fix all l := match l with [] => True | x :: l' => good_matcher x /\ all l' end) l
    | MAhead l | MBehind l => (fix all l := match l with [] => True | x :: l' => good_matcher x /\ all l' end) l
    | MRule r k => good_rule r /\ good_count k
    end
  with good_rule (r : rule) : Prop :=
    match r with
    | Rule _ _ by_ref ch =>
        match by_ref with
        | Some _ => True
        | None => ch <> [] /\ (fix all l := match l with [] => True | x :: l' => good_matcher x /\ all l' end) ch
        end
    end.
  Definition good_rules : Prop := forall n r, dget String.eqb n rules = Some r -> good_rule r.
End Semantics.

(** Rule objects: [obj] gives for each identity the rule that has it; two rules
    reached from a rule or table are the same object only if they are equal. *)
Section Objects.
  Variable obj : nat -> option rule.
  Fixpoint owned_matcher (m : matcher) : Prop :=
    match m with
    | MChoice _ l | MAhead l | MBehind l => (fix all l := match l with [] => True | x :: l' => owned_matcher x /\ all l' end) l
    | MRule r _ => owned r
    | _ => True
    end
  with owned (r : rule) : Prop :=
    match r with
    | Rule id _ _ ch => obj id = Some r /\ (fix all l := match l with [] => True | x :: l' => owned_matcher x /\ all l' end) ch
    end.
  Definition owned_rules (rules : rtable) : Prop := forall n r, dget String.eqb n rules = Some r -> owned r.
End Objects.

(** What validation asks of a rule (RFC 7940, 6.3): exactly the outermost rule
    has a name, references are to rules and classes seen. *)
Inductive valid_matcher (look : table) (rules : rtable) : matcher -> Prop :=
| ok_simple : forall m, match m with MClass _ _ | MChoice _ _ | MAhead _ | MBehind _ | MRule _ _ => False | _ => True end ->
    valid_matcher look rules m
| ok_class : forall c k, valid_class look false c -> valid_matcher look rules (MClass c k)
| ok_choice : forall k l, (forall m, In m l -> valid_matcher look rules m) -> valid_matcher look rules (MChoice k l)
| ok_ahead : forall l, (forall m, In m l -> valid_matcher look rules m) -> valid_matcher look rules (MAhead l)
| ok_behind : forall l, (forall m, In m l -> valid_matcher look rules m) -> valid_matcher look rules (MBehind l)
| ok_mrule : forall r k, valid_rule look rules false r -> valid_matcher look rules (MRule r k)
with valid_rule (look : table) (rules : rtable) : bool -> rule -> Prop :=
| ok_rule : forall top i n b l, (top = true <-> n <> None) -> (forall x, b = Some x -> dget String.eqb x rules <> None) ->
    (forall m, In m l -> valid_matcher look rules m) -> valid_rule look rules top (Rule i n b l).

(** The verdict RFC 7940 asks for.  A rule that mentions the anchor is matched
    where the anchor stands; any other rule matches anywhere in the label. *)
Definition rule_verdict (u : unidb) (look : table) (rules : rtable) (r : rule) (label : cps) (anchor : option cps) (index : nat) : Prop :=
  match anchor with
  | Some a =>
      (anchored_rule rules r /\ exists j, rsem u look rules label anchor r index j) \/
      (~ anchored_rule rules r /\ exists i j, i <= length label /\ rsem u look rules label anchor r i j)
  | None => exists i j, index <= i <= length label /\ rsem u look rules label anchor r i j
  end.

(** Caches left by evaluations and by computing patterns ahead of them, the
    definitions being left alone. *)
Inductive used (u : unidb) (look : table) (rules : rtable) (obj : nat -> option rule) : cache -> Prop :=
| used_none : used u look rules obj []
| used_more : forall k f r label anchor index, used u look rules obj k -> owned obj r ->
    used u look rules obj (fst (rule_matches u look rules f r label anchor index k))
| used_ahead : forall k f lb r, used u look rules obj k -> owned obj r -> used u look rules obj (fst (rpat u look rules f lb r k)).

(** Rules added to a table one after the other. *)
Definition rules_run (look : table) (l : list rule) : rtable := fold_left (fun t r => fst (add_rule look t r false)) l [].
Fixpoint classes_of_matcher (m : matcher) : list cls :=
  match m with
  | MClass c _ => [c]
  | MChoice _ l | MAhead l | MBehind l => flat_map classes_of_matcher l
  | MRule r _ => classes_of_rule r
  | _ => []
  end
with classes_of_rule (r : rule) : list cls := match r with Rule _ _ _ ch => flat_map classes_of_matcher ch end.
Definition tidy_rules (u : unidb) (look : table) (l : list rule) : Prop :=
  forall pre r post, l = pre ++ r :: post ->
    snd (add_rule look (rules_run look pre) r false) = Ok tt /\
    (forall n, r_name r = Some n -> dget String.eqb n (rules_run look pre) = None) /\
    (forall c, In c (classes_of_rule r) -> exists P, denotes u look c P).
