(** What the reports of the IDN review are expected to say, without reference to
    how they are computed. *)
From Coq Require Import Permutation Sorted.
From Verif Require Import Base CharModel RepSpec ActionModel LgrModel LabelSpec CompareModel CompareSpec ReviewModel.
Open Scope string_scope.
Open Scope list_scope.

(** ** Summary *)
(** Reports as they reach the summary: results by name. *)
Definition named (l : list (review * string)) : list (string * string) := map (fun p => (result_name (fst p), snd p)) l.
(** How serious a result is, from "match" to "review". *)
Definition severity (r : review) : nat :=
  match r with RMatch => 0 | RSubset => 1 | RNote => 2 | RManual => 3 | RReview => 4 end%nat.
(** [o] is the worst of the results, "match" if there is none. *)
Definition worst (l : list (review * string)) (o : review) : Prop :=
  (forall p, In p l -> (severity (fst p) <= severity o)%nat) /\ (o = RMatch \/ exists p, In p l /\ fst p = o).
(** How often a remark was made. *)
Definition times (m : string) (l : list (review * string)) : nat := List.length (filter (fun p => String.eqb (snd p) m) l).
(** The result of the last report with a remark. *)
Definition last_with (m : string) (l : list (review * string)) (r : review) : Prop :=
  exists l1 l2, l = l1 ++ (r, m) :: l2 /\ forall p, In p l2 -> snd p <> m.
(** A remark always goes with the same result. *)
Definition consistent (l : list (review * string)) : Prop := forall r r' m, In (r, m) l -> In (r', m) l -> r = r'.

(** ** Repertoire *)
(** A tag that matters: script tags are ignored. *)
Definition plain_tag (t : string) : Prop := forall u, t <> ("sc:" ++ u)%string.
(** The context of a code point. *)
Inductive context : Type := NoContext | When (n : string) | NotWhen (n : string).
Definition context_of_char (c : char) : context :=
  match ch_when c, ch_not_when c with
  | Some (String a w), _ => When (String a w)
  | _, Some (String a n) => NotWhen (String a n)
  | _, _ => NoContext
  end.
Definition lacks_tag (idn ref : char) : Prop := exists t, plain_tag t /\ In t (ch_tags ref) /\ ~ In t (ch_tags idn).
Definition extra_tag (idn ref : char) : Prop := lacks_tag ref idn.
(** Something required by the reference is not there. *)
Definition violates (idn ref : char) : Prop :=
  lacks_tag idn ref \/ (context_of_char ref <> NoContext /\ context_of_char idn <> context_of_char ref).
(** Something is there that the reference does not require. *)
Definition exceeds (idn ref : char) : Prop :=
  extra_tag idn ref \/ (context_of_char ref = NoContext /\ context_of_char idn <> NoContext).

Definition any_order {A} (order : list A -> list A) : Prop := forall l, Permutation (order l) l.

(** ** Classes *)
Definition same_set {A} (a b : list A) : Prop := forall x, In x a <-> In x b.
(** A member of one class known to the other LGR but not in its class. *)
Definition disagreement (idn ref idn_rep ref_rep : list N) : Prop :=
  (exists x, In x idn /\ ~ In x ref /\ In x ref_rep) \/ (exists x, In x ref /\ ~ In x idn /\ In x idn_rep).

(** ** Actions *)
(** An action with the same content is in the list. *)
Definition found (a : action) (l : list action) : Prop := exists b, In b l /\ same_action a b.
(** [kept P l l']: [l'] is [l] without the elements that do not satisfy [P]. *)
Inductive kept {A} (P : A -> Prop) : list A -> list A -> Prop :=
| kept_nil : kept P [] []
| kept_yes x l l' : P x -> kept P l l' -> kept P (x :: l) (x :: l')
| kept_no x l l' : ~ P x -> kept P l l' -> kept P (x :: l) l'.

(** ** Variants *)
Definition variant_context (v : variant) : context * context :=
  (match v_when v with Some (String a w) => When (String a w) | _ => NoContext end,
   match v_not_when v with Some (String a w) => NotWhen (String a w) | _ => NoContext end).
(** How conservative a type is: the types, the least conservative first. *)
Definition conservative : list string := ["activated"; "optionally-activated"; "allocatable"; "optionally-allocatable"; "blocked"].
Inductive at_least : string -> string -> Prop :=
| at_least_intro a b l1 l2 l3 : conservative = l1 ++ b :: l2 ++ a :: l3 -> at_least a b
| at_least_same a : In a conservative -> at_least a a.

(** ** Pairing of variant sets *)
(** Sorted lists without repetitions, nonempty and disjoint. *)
Definition family (sets : list (list cps)) : Prop :=
  (forall s, In s sets -> s <> [] /\ forall x, In x s -> cps_leb (hd [] s) x = true) /\
  NoDup sets /\
  (forall s t x, In s sets -> In t sets -> In x s -> In x t -> s = t).

(** ** Rules *)
(** The rules a code point of the table counts for, and those of the reference. *)
Definition idn_rule (ch : char) (n : string) : Prop :=
  n <> "" /\ (ch_when ch = Some n \/ (truthy (ch_when ch) = false /\ ch_not_when ch = Some n)).
Definition ref_rule (ch : char) (n : string) : Prop := n <> "" /\ (ch_when ch = Some n \/ ch_not_when ch = Some n).
Definition no_ranges (r : repertoire) : Prop := forall c ch, lookup r c = Some ch -> is_range ch = false.
Definition one_rule (r : repertoire) : Prop := forall c ch, lookup r c = Some ch -> truthy (ch_when ch) = false \/ truthy (ch_not_when ch) = false.
(** A way to cut a label into entries of a repertoire. *)
Definition made_of (r : repertoire) (label : cps) : Prop :=
  exists l, (forall ch, In ch l -> entry r ch) /\ concat (map ch_cp l) = label.

(** ** Rows *)
(** What is known of a variant set in a direction. *)
Definition side (d : direction) (x : vdata) : list variant := match d with Forward => vd_fwd x | Reverse => vd_rev x end.
(** Both sides have the set. *)
Definition compared (order : list variant -> list variant) (d : direction) (idn ref : vdata) (x : bool) : res (review * string) :=
  variant_result order false false idn ref d x.
(** A row is a match in both directions. *)
Definition row_match (x : vrow) : Prop := fst (vr_fwd x) = RMatch /\ fst (vr_rev x) = RMatch.
(** The least member of a set, its id in the report. *)
Definition head (s : list cps) : cps := hd [] s.
