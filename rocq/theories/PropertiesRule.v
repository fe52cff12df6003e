(** Rules: evaluation and its cache (C31), meaning of patterns (C32). *)
From Verif Require Import Base ClassModel ClassSpec ClassFinal RuleModel RuleSpec RuleCache RuleFinal RuleTable.
Open Scope string_scope.
Open Scope list_scope.
Open Scope nat_scope.

(** While rules and classes stay as they are, earlier evaluations, whatever
    they were, make no difference to an evaluation. *)
Theorem C31_cache_transparent_partial : forall u look rules obj, owned_rules obj rules ->
  forall k r, used u look rules obj k -> owned obj r -> forall label anchor index x,
  (forall f, snd (rule_matches u look rules f r label anchor index []) = x -> x <> Raise OutOfFuel ->
     exists f0, forall f', f0 <= f' -> snd (rule_matches u look rules f' r label anchor index k) = x) /\
  (forall f, snd (rule_matches u look rules f r label anchor index k) = x -> x <> Raise OutOfFuel ->
     exists f0, forall f', f0 <= f' -> snd (rule_matches u look rules f' r label anchor index []) = x).
Proof. exact cache_transparent. Qed.
Print Assumptions C31_cache_transparent_partial.

(** After an edit it does: giving a tag to a code point (the class of the tag
    changes), adding an element to a rule, or redefining a rule referred to
    leaves evaluated rules as they were. *)
Theorem C31_tag_edit_ignored_refuted : exists look look' rules r label f, let k := fst (rule_matches sample_db look rules f r label None 0 []) in
  look' = set_tag_class look "t" [7]%N /\
  snd (rule_matches sample_db look' rules f r label None 0 []) = Ok true /\ snd (rule_matches sample_db look' rules f r label None 0 k) = Ok false.
Proof. exact stale_tag. Qed.
Print Assumptions C31_tag_edit_ignored_refuted.
Theorem C31_rule_edit_ignored_refuted : exists r r' label f, let k := fst (rule_matches sample_db [] [] f r label None 0 []) in
  rule_add_child r MEnd = Ok r' /\ r_id r' = r_id r /\
  snd (rule_matches sample_db [] [] f r' label None 0 []) = Ok false /\ snd (rule_matches sample_db [] [] f r' label None 0 k) = Ok true.
Proof. exact stale_child. Qed.
Print Assumptions C31_rule_edit_ignored_refuted.
Theorem C31_redefinition_ignored_refuted : exists look rules rules' r r2 label f, let k := fst (rule_matches sample_db look rules f r label None 0 []) in
  add_rule look rules r2 false = (rules', Ok tt) /\
  snd (rule_matches sample_db look rules' f r label None 0 []) = Ok true /\ snd (rule_matches sample_db look rules' f r label None 0 k) = Ok false.
Proof. exact stale_reference. Qed.
Print Assumptions C31_redefinition_ignored_refuted.

(** A rule that resolves gets the verdict of RFC 7940, on every label of
    protocol length, whatever was evaluated before.  (Partial: the rule must be
    within what RFC 7940 gives a meaning to, see [good_rule].) *)
Theorem C32_meaning_partial : forall u look rules obj, owned_rules obj rules -> forall r k label anchor index,
  shaped_table look -> good_rules u look rules -> good_rule u look r -> owned obj r -> used u look rules obj k ->
  resolves_rule u look rules r -> length label <= max_label -> (anchor = None -> ~ In 37%N label) -> index <= length label ->
  exists n, forall f, n <= f -> exists b, snd (rule_matches u look rules f r label anchor index k) = Ok b /\
    (b = true <-> rule_verdict u look rules r label anchor index).
Proof. exact rule_meaning. Qed.
Print Assumptions C32_meaning_partial.
(** An answer, at whatever depth, is that verdict. *)
Theorem C32_answers_are_right_partial : forall u look rules obj, owned_rules obj rules -> forall r k label anchor index f b,
  shaped_table look -> good_rules u look rules -> good_rule u look r -> owned obj r -> used u look rules obj k ->
  length label <= max_label -> (anchor = None -> ~ In 37%N label) -> index <= length label ->
  snd (rule_matches u look rules f r label anchor index k) = Ok b -> (b = true <-> rule_verdict u look rules r label anchor index).
Proof. exact rule_answer. Qed.
Print Assumptions C32_answers_are_right_partial.
(** A context rule asks for its look-behind to end where the anchor starts and
    its look-ahead to start where the anchor ends. *)
Theorem C32_context_rules : forall u look rules id nm lb la label a index, index <= length label ->
  (rule_verdict u look rules (Rule id nm None [MBehind lb; MAnchor; MAhead la]) label (Some a) index <->
   (exists i, i <= length label /\ seqm u look rules label (Some a) lb i index) /\ occurs label a index /\
   exists j, seqm u look rules label (Some a) la (index + length a) j).
Proof. exact context_rule. Qed.
Print Assumptions C32_context_rules.
(** Rules added with validation and never redefined resolve. *)
Theorem C32_validated_rules_resolve : forall u look l n r, tidy_rules u look l -> dget String.eqb n (rules_run look l) = Some r ->
  resolves_rule u look (rules_run look l) r.
Proof. exact tidy_rules_resolve. Qed.
Print Assumptions C32_validated_rules_resolve.
Theorem C32_add_rule : forall look rules r force rules' o, add_rule look rules r force = (rules', o) ->
  (o = Ok tt <-> force = true \/ valid_rule look rules true r) /\
  (o <> Ok tt -> rules' = rules /\ exists x, o = Raise (LGRFormatException x)) /\
  (o = Ok tt -> forall n, r_name r = Some n -> forall m, dget String.eqb m rules' = if String.eqb m n then Some r else dget String.eqb m rules).
Proof. exact add_rule_spec. Qed.
Print Assumptions C32_add_rule.

(** Outside: an empty class is passed over instead of never matching ... *)
Theorem C32_empty_class_refuted : exists look c rules r label f, denotes sample_db look c (fun _ => False) /\
  r = Rule 1 (Some "r") None [MChar [5]%N None; MClass c None] /\
  snd (rule_matches sample_db look rules f r label None 0 []) = Ok true /\ ~ exists i j, rsem sample_db look rules label None r i j.
Proof. exact empty_class_matches. Qed.
Print Assumptions C32_empty_class_refuted.
(** ... a choice without members matches ... *)
Theorem C32_empty_choice_refuted : exists r label f, r = Rule 1 (Some "r") None [MChoice None []] /\ valid_rule [] [] true r /\
  snd (rule_matches sample_db [] [] f r label None 0 []) = Ok true /\ ~ exists i j, rsem sample_db [] [] label None r i j.
Proof. exact empty_choice_matches. Qed.
Print Assumptions C32_empty_choice_refuted.
(** ... without an anchor, <anchor/> matches the text of its place holder ... *)
Theorem C32_place_holder_refuted : exists r label f, r = Rule 1 (Some "r") None [MAnchor] /\ label = [37; 97; 110; 99; 104; 111; 114; 115]%N /\
  snd (rule_matches sample_db [] [] f r label None 0 []) = Ok true /\ ~ exists i j, rsem sample_db [] [] label None r i j.
Proof. exact place_holder_matches. Qed.
Print Assumptions C32_place_holder_refuted.
(** ... a minimal count beyond 63 is an error in a look-behind, and only there ... *)
Theorem C32_long_look_behind_refuted : exists r r' label f,
  r = Rule 1 (Some "r") None [MBehind [MAny (Some (CAtLeast 64))]; MAnchor] /\ r' = Rule 1 (Some "r") None [MAnchor; MAhead [MAny (Some (CAtLeast 64))]] /\
  snd (rule_matches sample_db [] [] f r label (Some [5]%N) 0 []) = Raise (RuleError "r") /\
  snd (rule_matches sample_db [] [] f r' label (Some [5]%N) 0 []) = Ok false.
Proof. exact long_look_behind. Qed.
Print Assumptions C32_long_look_behind_refuted.
(** ... and a rule redefined in terms of itself passes validation and never evaluates. *)
Theorem C32_redefinition_loops_refuted : exists look l r,
  (forall pre x post, l = pre ++ x :: post -> snd (add_rule look (rules_run look pre) x false) = Ok tt) /\
  dget String.eqb "a" (rules_run look l) = Some r /\
  forall u f label anchor index, snd (rule_matches u look (rules_run look l) f r label anchor index []) = Raise OutOfFuel.
Proof. exact redefined_rule_loops. Qed.
Print Assumptions C32_redefinition_loops_refuted.

Example C32_nontrivial : owned_rules sample_obj sample_rules /\ good_rules sample_db sample_look sample_rules /\ tidy_rules sample_db sample_look [tail_rule; mid_rule] /\
  used sample_db sample_look sample_rules sample_obj (fst (rule_matches sample_db sample_look sample_rules 20 mid_rule [1; 9; 2]%N (Some [9]%N) 1 [])) /\
  let eval w i := snd (rule_matches sample_db sample_look sample_rules 20 mid_rule w (Some [9]%N) i []) in
  eval [1; 1; 9; 3; 4]%N 2 = Ok true /\ eval [1; 9; 2]%N 1 = Ok true /\ eval [1; 9; 2; 3]%N 1 = Ok false /\ eval [9; 3]%N 0 = Ok false /\ eval [9; 1; 9; 2]%N 2 = Ok false.
Proof.
  split; [exact sample_owned|]. split; [exact sample_good|]. split; [exact sample_tidy_rules|]. split; [|exact sample_matches].
  apply used_more; [apply used_none|]. apply (sample_owned "mid"). reflexivity.
Qed.
