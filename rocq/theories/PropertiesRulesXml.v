(** C72: the <rules> section of LGR documents. *)
From Coq Require Import Ascii.
From Verif Require Import Base UtilsModel ClassModel ClassSpec RuleModel ActionModel Rfc7940Model SerialModel.
From Verif Require Import RulesXmlModel RulesXmlSpec RulesXmlClass RulesXmlRule RulesXmlFinal RulesXmlSection RulesXmlDoc RulesXmlTrip RulesXmlWitness.
Open Scope string_scope.
Open Scope list_scope.

(** ** Single elements *)

(** An element is read as a class just if it says one, and as what it says. *)
Theorem C72_class : forall e,
  (forall c, parse_class e = Ok c -> class_of e c) /\
  (forall c, class_of e c -> exists c', parse_class e = Ok c' /\ same_class c c').
Proof. exact class_reading. Qed.
Print Assumptions C72_class.
Example C72_class_sample : parse_class vowel = Ok (ClPlain (Some "vowel") None None None [97; 101; 102]%N) /\
  parse_class both = Ok (ClComb (Some "both") Union [ClPlain None (Some "vowel") None None []; ClPlain None (Some "digit") None None []]).
Proof. vm_compute. auto. Qed.

Theorem C72_count : forall o k, read_count o = k <-> count_is o k.
Proof. exact read_count_iff. Qed.
Print Assumptions C72_count.
Example C72_count_sample : map (fun s => read_count (Some s)) ["12"; "3+"; "2:10"; "+"; ""] =
  [Some (CExactly 12); Some (CAtLeast 3); Some (CBetween 2 10); Some (COther "+"); None].
Proof. vm_compute. reflexivity. Qed.

(** A rule read is what its element says, with or without a database; without
    one, every element that says a rule is read. *)
Theorem C72_rule : forall db look rules fuel e s s' r, lgr_elem "rule" e ->
  parse_rule db look rules fuel e s = Ok (s', r) -> rule_of e r.
Proof. exact rule_read. Qed.
Print Assumptions C72_rule.
Theorem C72_rule_readable : forall look rules fuel e r s, rule_of e r ->
  exists s' r', parse_rule None look rules fuel e s = Ok (s', r') /\ same_rule r r'.
Proof. exact rule_readable. Qed.
Print Assumptions C72_rule_readable.
Example C72_rule_sample : parse_rule None [] [] 30 ends start =
  Ok (mkRead 1 [] [("parse_xml", false)],
      Rule 0 (Some "ends") None [MStart; MClass (ClPlain None (Some "vowel") None None []) (Some (CAtLeast 1)); MEnd]).
Proof. vm_compute. reflexivity. Qed.
(** Elements of unknown name below a rule are reported, and nothing else is. *)
Theorem C72_rule_report : forall db look rules fuel e s s' r, lgr_elem "rule" e ->
  parse_rule db look rules fuel e s = Ok (s', r) -> reports_of (passes_over e) s s'.
Proof. exact rule_report. Qed.
Print Assumptions C72_rule_report.

Theorem C72_action : forall e a, parse_action e = Ok a <-> action_of e a.
Proof. exact action_reading. Qed.
Print Assumptions C72_action.
Example C72_action_sample : exists a, parse_action act = Ok a /\ a_any a = Some ["blocked"; "allocatable"] /\ a_match a = Some "ends".
Proof. eexists. vm_compute. auto. Qed.

(** ** Sections *)

(** What a section gives: each name means what the last element of that name
    says, names and actions are listed in order, and the elements are kept. *)
Theorem C72_section : forall db fuel force l g s g' s', process_rules db fuel force l g s = Ok (g', s') ->
  defines class_of (ru_classes g) (ru_classes g') (class_elems l) /\
  ru_class_names g' = ru_class_names g ++ map (fun e => x_get e "name") (class_elems l) /\
  defines rule_of (ru_rules g) (ru_rules g') (rule_elems l) /\
  ru_rule_names g' = ru_rule_names g ++ map (fun e => x_get e "name") (rule_elems l) /\
  (exists acts, ru_actions g' = ru_actions g ++ acts /\ Forall2 action_of (action_elems l) acts) /\
  ru_classes_xml g' = ru_classes_xml g ++ map drop_ns (class_elems l) /\
  ru_rules_xml g' = ru_rules_xml g ++ map drop_ns (rule_elems l) /\
  ru_actions_xml g' = ru_actions_xml g ++ map drop_ns (action_elems l).
Proof. exact section_read. Qed.
Print Assumptions C72_section.
Example C72_section_sample : (forall db, In db [None; Some u0] -> process_rules db 30 false section blank start = Ok (section_of db)) /\
  map fst (ru_rules (fst (section_of None))) = ["ends"; "outer"] /\
  map fst (ru_classes (fst (section_of None))) = [tag_classname "tag"; "vowel"; "digit"; "both"] /\
  rd_results (snd (section_of None)) = [("parse_xml", false)].
Proof. exact (conj section_ok section_rules). Qed.
Theorem C72_section_report : forall db fuel force l g s g' s', process_rules db fuel force l g s = Ok (g', s') ->
  reports_of (exists x, In x l /\ noticed x) s s'.
Proof. exact section_report. Qed.
Print Assumptions C72_section_report.

(** Without a database: forced, a section is read just if each of its elements
    says something; else just if, moreover, each class and rule is valid given
    those before it. *)
Theorem C72_forced : forall fuel l g s, (exists p, process_rules None fuel true l g s = Ok p) <-> Forall readable_elem l.
Proof. exact section_forced. Qed.
Print Assumptions C72_forced.
Theorem C72_unforced : forall fuel l g s, (exists p, process_rules None fuel false l g s = Ok p) <->
  Forall readable_elem l /\ each_valid (ru_classes g) (ru_rules g) l.
Proof. exact section_unforced. Qed.
Print Assumptions C72_unforced.
Example C72_unforced_sample : (exists p, process_rules None 30 false section blank start = Ok p) /\
  process_rules None 30 false [both; vowel; digit09] blank start <> Raise OutOfFuel /\
  ~ (exists p, process_rules None 30 false [both; vowel; digit09] blank start = Ok p) /\
  (exists p, process_rules None 30 true [both; vowel; digit09] blank start = Ok p).
Proof. vm_compute. repeat split; [eexists; reflexivity|discriminate|intros [p H]; discriminate H|eexists; reflexivity]. Qed.
(** A database adds patterns to what is read, and failures: what is read with
    it is read without it. *)
Theorem C72_database : forall db fuel force l g s g' s' t, process_rules db fuel force l g s = Ok (g', s') -> level s t ->
  exists t', process_rules None fuel force l g t = Ok (g', t') /\ level s' t'.
Proof. exact database_adds. Qed.
Print Assumptions C72_database.
Theorem C72_forced_with_database_refuted : exists l g s u fuel, Forall readable_elem l /\
  (exists p, process_rules None fuel true l g s = Ok p) /\ process_rules (Some u) fuel true l g s = Raise (RuleError "none").
Proof. exact forced_with_database. Qed.
Print Assumptions C72_forced_with_database_refuted.
Theorem C72_unknown_reported_refuted : process_rules None 30 true [el "foo" [] []; vowel] blank start <> Raise TypeError /\
  process_rules None 30 true [odd_union] blank start = Raise TypeError /\
  process_rules None 30 true [el "class" [("name", "odd")] [el "foo" [] []]] blank start = Raise TypeError.
Proof. exact unknown_crashes. Qed.
Print Assumptions C72_unknown_reported_refuted.

(** ** Writing *)

(** The classes are written first, then the rules, then the actions; elements of
    unknown name are not written. *)
Theorem C72_written : forall db fuel force l g s g' s', process_rules db fuel force l g s = Ok (g', s') -> Forall qualified l ->
  ru_classes_xml g = [] -> ru_rules_xml g = [] -> ru_actions_xml g = [] ->
  serialize_rules g' = class_elems l ++ rule_elems l ++ action_elems l.
Proof. exact written. Qed.
Print Assumptions C72_written.
Example C72_written_sample : Forall qualified section /\ serialize_rules (fst (section_of None)) = [vowel; digit09; both; ends; outer; act].
Proof. exact (conj section_qualified eq_refl). Qed.
(** What is written reads back as the same rules. *)
Theorem C72_roundtrip : forall fuel force l g s g' s' t, process_rules None fuel force l g s = Ok (g', s') -> Forall qualified l ->
  ru_classes_xml g = [] -> ru_rules_xml g = [] -> ru_actions_xml g = [] -> alike s t ->
  exists t', process_rules None fuel force (serialize_rules g') g t = Ok (g', t') /\ alike s' t'.
Proof. exact roundtrip_plain. Qed.
Print Assumptions C72_roundtrip.
(** With a database, with the same patterns too if no class is redefined. *)
Theorem C72_roundtrip_patterns : forall u fuel force l g s g' s' t, process_rules (Some u) fuel force l g s = Ok (g', s') ->
  Forall qualified l -> ru_classes_xml g = [] -> ru_rules_xml g = [] -> ru_actions_xml g = [] ->
  new_names (ru_classes g) l -> alike s t ->
  exists t', process_rules (Some u) fuel force (serialize_rules g') g t = Ok (g', t') /\ alike s' t'.
Proof. exact roundtrip_patterns. Qed.
Print Assumptions C72_roundtrip_patterns.
Example C72_roundtrip_patterns_sample : new_names (ru_classes blank) section /\
  matched u0 30 (fst (section_of (Some u0))) (snd (section_of (Some u0))) "ends" [97; 101]%N = Some (Ok true).
Proof. split; [exact section_new|vm_compute; reflexivity]. Qed.
Theorem C72_redefined_refuted : exists u fuel l g s g' s' t' n w, Forall qualified l /\
  process_rules (Some u) fuel false l g s = Ok (g', s') /\ process_rules (Some u) fuel false (serialize_rules g') g s = Ok (g', t') /\
  matched u fuel g' s' n w = Some (Ok true) /\ matched u fuel g' t' n w = Some (Ok false).
Proof. exact stale_after_writing. Qed.
Print Assumptions C72_redefined_refuted.
Theorem C72_unqualified_refuted : exists l g s g' s' g'' t', process_rules None 30 false l g s = Ok (g', s') /\
  process_rules None 30 false (serialize_rules g') g s = Ok (g'', t') /\
  dget String.eqb "R" (ru_rules g') = Some (Rule 0 (Some "R") None [MStart]) /\
  dget String.eqb "R" (ru_rules g'') = Some (Rule 0 (Some "R") None [MStart; MEnd]).
Proof. exact unqualified_changes. Qed.
Print Assumptions C72_unqualified_refuted.
