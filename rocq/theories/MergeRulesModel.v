(** Model of what lgr/tools/merge_set.py does to the contents of rules and
    classes (215-314), and of the tables the merged document has when it is
    parsed again (485-492).  No proofs here.

    The code edits the XML text of a rule or class with regular expressions;
    here the same edits are made on the rule or class that text stands for: the
    attributes name, by-ref and from-tag, wherever they stand.  Names are taken
    to contain no quote and no character special in regular expressions.  The
    ref attribute (264-266, 309-311) is not part of rules and classes here.  A
    rule parsed again is another object with the same contents: the identities
    of rules are left as they were. *)
From Coq Require Import Ascii.
From Verif Require Import Base ClassModel RuleModel MergeModel.
Open Scope string_scope.
Open Scope list_scope.

(** What a member of the set brings: its script (36-40), the code points of
    its tags, its classes and rules in the order of the document, and the rules
    merge_chars wants in addition, each with the scripts it is shared by (400,
    411). *)
Record smember : Type := mkSm {
  sm_script : string;
  sm_tags : dict string (list N);
  sm_classes : list cls;
  sm_rules : list rule;
  sm_asked : list (string * string)
}.

(** ** Edits of attributes *)
(** The regular expressions ask for one character at least: an empty attribute
    is left. *)
Definition edit (f : string -> string) (o : option string) : option string :=
  match o with
  | Some s => if truthy o then Some (f s) else o
  | None => None
  end.
(** merge_set.py:234-236 by-ref in a rule; MSR_NEGATIVE_LOOK_AHEAD (33) does
    not ask for the end of the name. *)
Definition ref_in_rule (script b : string) : string :=
  if existsb (fun m => String.prefix m b) msr_rules then
    if memb String.eqb b msr_rules then with_script "Common" b else b
  else with_script script b.
(** merge_set.py:284 by-ref in a class *)
Definition ref_in_class (script b : string) : string := with_script script b.
(** merge_set.py:238, 286 from-tag and 283 name: only without colon *)
Definition no_colon_edit (script t : string) : string := if has_colon t then t else with_script script t.
(** merge_set.py:226-230: attributes name that hold the name of the rule *)
Definition name_in_rule (rule_name new n : string) : string := if String.eqb n rule_name then new else n.

Section Edit.
  Variables name by_ref from_tag : string -> string.
  Fixpoint edit_class (c : cls) : cls :=
    match c with
    | ClPlain n b t p l => ClPlain (edit name n) (edit by_ref b) (edit from_tag t) p l
    | ClComb n op ch => ClComb (edit name n) op (map edit_class ch)
    end.
  Fixpoint edit_matcher (m : matcher) : matcher :=
    match m with
    | MClass c k => MClass (edit_class c) k
    | MChoice k l => MChoice k (map edit_matcher l)
    | MAhead l => MAhead (map edit_matcher l)
    | MBehind l => MBehind (map edit_matcher l)
    | MRule r k => MRule (edit_rule r) k
    | m => m
    end
  with edit_rule (r : rule) : rule :=
    match r with
    | Rule i n b ch => Rule i (edit name n) (edit by_ref b) (map edit_matcher ch)
    end.
End Edit.

(** merge_set.py:215-240 rename_rule; [rename_rule] of MergeModel.v is the new
    name. *)
Definition rename_rule_xml (script n : string) (r : rule) : string * rule :=
  (rename_rule script n, edit_rule (name_in_rule n (rename_rule script n)) (ref_in_rule script) (no_colon_edit script) r).
(** merge_set.py:272-288 rename_class *)
Definition rename_class_xml (script n : string) (c : cls) : string * cls :=
  (with_script script n, edit_class (no_colon_edit script) (ref_in_class script) (no_colon_edit script) c).

(** ** The tables of a document: core.py:969-988, 1002-1019, with force *)
Definition class_table (tags : dict string (list N)) (l : list cls) : table :=
  fold_left (fun t c => fst (ClassModel.add_class t c true)) l (fold_left (fun t p => set_tag_class t (fst p) (snd p)) tags []).
Definition rule_table (look : table) (l : list rule) : rtable :=
  fold_left (fun t r => fst (RuleModel.add_rule look t r true)) l [].

(** ** Merging *)
(** lgr.rules_xml[lgr.rules.index(name)]: the first of that name *)
Definition first_rule (n : string) (l : list rule) : option rule := find (fun r => ostring_eqb (r_name r) (Some n)) l.
Definition first_class (n : string) (l : list cls) : option cls := find (fun c => ostring_eqb (cls_name c) (Some n)) l.
(** merge_set.py:243-269 merge_rules *)
Definition merge_rules_xml (specific : option string) (script : string) (m : smember) (acc : list (string * rule))
  : list (string * rule) :=
  fold_left (fun acc n =>
    if truthy specific && negb (ostring_eqb specific (Some n)) then acc
    else match first_rule n (sm_rules m) with
         | None => acc
         | Some r =>
             let p := rename_rule_xml script n r in
             if memb String.eqb (fst p) (map fst acc) then acc else acc ++ [p]
         end) (dkeys (rule_table [] (sm_rules m))) acc.
(** merge_set.py:291-314 merge_classes; the keys of the tags are not names of
    classes *)
Definition merge_classes_xml (m : smember) (acc : list (string * cls)) : list (string * cls) :=
  fold_left (fun acc n =>
    match first_class n (sm_classes m) with
    | None => acc
    | Some c => acc ++ [rename_class_xml (sm_script m) n c]
    end) (dkeys (class_table (sm_tags m) (sm_classes m))) acc.
(** merge_set.py:474-483: merge_chars asks for rules, then the rules and
    classes are merged. *)
Definition merge_member (m : smember) (acc : list (string * rule) * list (string * cls))
  : list (string * rule) * list (string * cls) :=
  (merge_rules_xml None (sm_script m) m
     (fold_left (fun a p => merge_rules_xml (Some (snd p)) (fst p) m a) (sm_asked m) (fst acc)),
   merge_classes_xml m (snd acc)).
Definition merge_members (l : list smember) : list (string * rule) * list (string * cls) :=
  fold_left (fun acc m => merge_member m acc) l ([], []).
(** merge_set.py:485-492: the merged LGR is written and parsed; [tags] are the
    code points of the tags of its repertoire. *)
Definition merged_classes (tags : dict string (list N)) (l : list smember) : table :=
  class_table tags (map snd (snd (merge_members l))).
Definition merged_rules (tags : dict string (list N)) (l : list smember) : rtable :=
  rule_table (merged_classes tags l) (map snd (fst (merge_members l))).
(** The tables of a member itself. *)
Definition own_classes (m : smember) : table := class_table (sm_tags m) (sm_classes m).
Definition own_rules (m : smember) : rtable := rule_table (own_classes m) (sm_rules m).
