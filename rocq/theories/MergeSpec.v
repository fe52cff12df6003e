(** Specification of merging a set of LGRs. *)
From Coq Require Import Permutation Sorting.Sorted.
From Verif Require Import Base CharModel RepSpec RefModel ActionModel LgrModel LgrSpec ValidateSpec CompareModel MergeModel.
Open Scope string_scope.
Open Scope list_scope.

(** The order in which the elements of a set come is any. *)
Definition any_order {A} (order : list A -> list A) : Prop := forall l, Permutation (order l) l.

Definition has_cp (m : member) (c : cps) : Prop := lookup (lg_rep (mb_lgr m)) c <> None.
(** The text of a reference. *)
Definition text_in (g : lgr) (id : string) : option string := option_map ref_value (dget String.eqb id (rm_refs (lg_refs g))).
(** [id'] in [g'] is the same reference as [id] in [g]. *)
Definition same_text (g g' : lgr) (id id' : string) : Prop := forall t, text_in g id = Some t -> text_in g' id' = Some t.

(** A rule [n] of script [s] is called [s-n]. *)
Definition renamed (s : string) (o : option string) : option string :=
  match o with Some n => if String.eqb n "" then None else Some (s ++ "-" ++ n)%string | None => None end.
(** Variant [w] of the merged LGR comes from variant [v] of member [m]. *)
Definition copied (m : member) (v w : variant) : Prop :=
  v_cp w = v_cp v /\ v_type w = Some "blocked" /\ v_when w = renamed (get_script m) (v_when v) /\
  v_not_when w = renamed (get_script m) (v_not_when v) /\ v_comment w = v_comment v.
(** A variant added to join those of different members. *)
Definition joins (w : variant) : Prop :=
  v_type w = Some "blocked" /\ v_when w = None /\ v_not_when w = None /\ v_refs w = [] /\ v_comment w = Some "New variant for merge to keep transitivity".
(** [c] is in two members. *)
Definition in_two (l : list member) (c : cps) : Prop :=
  exists m1 m2 rest, Permutation l (m1 :: m2 :: rest) /\ has_cp m1 c /\ has_cp m2 c.

(** The tags a member gives to a code point. *)
Definition tag_from (m : member) (c : cps) (t : string) : Prop :=
  exists ch, lookup (lg_rep (mb_lgr m)) c = Some ch /\
    ((exists x, In x (ch_tags ch) /\ t = if has_colon x then x else (get_script m ++ "-" ++ x)%string) \/
     exists f x, mb_extensions m = Some f /\ c = [x] /\ In t (f x)).

(** [c] is in one member only. *)
Definition only_member (l : list member) (m : member) (c : cps) : Prop :=
  has_cp m c /\ exists rest, Permutation l (m :: rest) /\ forall x, In x rest -> ~ has_cp x c.

(** ** Context rules *)
Definition when_of (m : member) (c : cps) : option string :=
  match lookup (lg_rep (mb_lgr m)) c with Some ch => ch_when ch | None => None end.
Definition not_when_of (m : member) (c : cps) : option string :=
  match lookup (lg_rep (mb_lgr m)) c with Some ch => ch_not_when ch | None => None end.
(** The members asking for a rule, and the name under which it is asked for. *)
Definition asking (f : member -> cps -> option string) (l : list member) (c : cps) : list member :=
  filter (fun m => truthy (f m c)) l.
Fixpoint chain (scripts : list string) (n : string) : string :=
  match scripts with [] => n | s :: ss => (s ++ "-" ++ chain ss n)%string end.
(** No name begins like the name of a renamed rule. *)
Definition starts (s n : string) : Prop := exists r, n = (s ++ "-" ++ r)%string.
Definition unambiguous (f : member -> cps -> option string) (l : list member) : Prop :=
  (forall m x c n, In m l -> In x l -> f x c = Some n -> ~ starts (get_script m) n) /\
  (forall m x rest, Permutation l (m :: x :: rest) -> ~ starts (get_script m) (get_script x ++ "-")).

(** Every member's context rules are among its rules, and none has the name of
    the rule shared by all. *)
Definition rules_known (m : member) : Prop :=
  (forall c n, (when_of m c = Some n \/ not_when_of m c = Some n) -> n <> "" -> In n (mb_rules m) /\ ~ In n msr_rules) /\
  (forall a b v n, mapping (lg_rep (mb_lgr m)) a b v -> (v_when v = Some n \/ v_not_when v = Some n) -> n <> "" -> In n (mb_rules m) /\ ~ In n msr_rules).

(** The members in the order of their scripts, those without language last. *)
Definition sort_key (m : member) : string := replace_und 0 (get_script m).
Definition in_script_order (l : list member) : Prop := StronglySorted (fun a b => String.compare (sort_key a) (sort_key b) <> Gt) l.
(** The rule an entry with [scripts] asks for under the name [n]: none when no
    one asks. *)
Definition asked_as (f : member -> cps -> option string) (l : list member) (c : cps) (o : option string) : Prop :=
  (asking f l c = [] /\ o = None) \/
  exists n, asking f l c <> [] /\ (forall m, In m (asking f l c) -> f m c = Some n) /\
            o = Some (chain (map get_script (rev (asking f l c))) n).

(** No variant has a context rule. *)
Definition unconditional (m : member) : Prop := forall a b v, mapping (lg_rep (mb_lgr m)) a b v -> v_when v = None /\ v_not_when v = None.
Definition gives (m : member) (a b : cps) : Prop := has_target (lg_rep (mb_lgr m)) a b.
(** Symmetric and transitive. *)
Definition complete (m : member) : Prop := symmetric (lg_rep (mb_lgr m)) /\ transitive (lg_rep (mb_lgr m)).
