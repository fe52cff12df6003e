(** C96: the rules and classes of the members of a merged set keep their
    meaning. *)
From Verif Require Import Base ClassModel ClassSpec ClassFinal RuleModel RuleSpec CharModel RepSpec LgrModel LgrSpec CompareModel HarmonizeModel MergeModel MergeSpec MergeWitness
  MergeRulesModel MergeRulesSpec MergeRulesLike MergeRulesTable MergeRulesFinal MergeRulesTags MergeRulesWitness.
Open Scope string_scope.
Open Scope list_scope.
Open Scope nat_scope.

(** A class of a member is in the merged LGR under its name with the script,
    and stands there for the same code points.  (Partial: names must be clear,
    see [clear_set] and the refutations.) *)
Theorem C96_classes_partial : forall l tags m, clear_set l tags m -> forall c n, In c (sm_classes m) -> cls_name c = Some n ->
  dget String.eqb n (own_classes m) = Some c /\
  exists c', dget String.eqb (in_set (sm_script m) n) (merged_classes tags l) = Some c' /\
  forall u P, denotes u (merged_classes tags l) c' P <-> denotes u (own_classes m) c P.
Proof. exact class_kept. Qed.
Print Assumptions C96_classes_partial.
(** So is a rule: its references lead to definitions as they did, and it gives
    the verdicts it gave, on every label, whatever the database. *)
Theorem C96_rules_partial : forall l tags m, clear_set l tags m -> forall rules r n, reread (merged_rules tags l) rules ->
  In r (sm_rules m) -> r_name r = Some n -> n <> msr ->
  dget String.eqb n (own_rules m) = Some r /\
  exists r', dget String.eqb (in_set (sm_script m) n) rules = Some r' /\
  (forall u, resolves_rule u (merged_classes tags l) rules r' <-> resolves_rule u (own_classes m) (own_rules m) r) /\
  (forall u label anchor index, rule_verdict u (merged_classes tags l) rules r' label anchor index <-> rule_verdict u (own_classes m) (own_rules m) r label anchor index).
Proof. exact rule_kept. Qed.
Print Assumptions C96_rules_partial.
(** The code then gives the same answers, whatever was evaluated before in
    either LGR. *)
Theorem C96_answers_partial : forall l tags m, clear_set l tags m -> forall u obj obj' rules r n, reread (merged_rules tags l) rules ->
  In r (sm_rules m) -> r_name r = Some n -> n <> msr ->
  shaped_table (own_classes m) -> good_rules u (own_classes m) (own_rules m) -> owned_rules obj (own_rules m) ->
  shaped_table (merged_classes tags l) -> good_rules u (merged_classes tags l) rules -> owned_rules obj' rules ->
  resolves_rule u (own_classes m) (own_rules m) r ->
  exists r', dget String.eqb (in_set (sm_script m) n) rules = Some r' /\
  forall k k' label anchor index, used u (own_classes m) (own_rules m) obj k -> used u (merged_classes tags l) rules obj' k' ->
    length label <= max_label -> (anchor = None -> ~ In 37%N label) -> index <= length label ->
    exists d, forall f, d <= f -> exists b,
      snd (rule_matches u (own_classes m) (own_rules m) f r label anchor index k) = Ok b /\
      snd (rule_matches u (merged_classes tags l) rules f r' label anchor index k') = Ok b.
Proof. exact answer_kept. Qed.
Print Assumptions C96_answers_partial.
Example C96_sample : clear_set pair_set both_tags latn /\ reread (merged_rules both_tags pair_set) fresh_rules /\
  shaped_table (own_classes latn) /\ good_rules sample_db (own_classes latn) (own_rules latn) /\ owned_rules sample_obj (own_rules latn) /\
  shaped_table (merged_classes both_tags pair_set) /\ good_rules sample_db (merged_classes both_tags pair_set) fresh_rules /\ owned_rules merged_obj fresh_rules /\
  (exists r, dget String.eqb "ends" (own_rules latn) = Some r /\ resolves_rule sample_db (own_classes latn) (own_rules latn) r).
Proof.
  exact (conj latn_clear (conj (numbered_reread _ _) (conj own_shaped (conj own_good (conj own_owned (conj merged_shaped (conj merged_good (conj merged_owned ends_resolves)))))))).
Qed.
Example C96_sample_answers :
  own_answers latn "ends" [7; 5]%N None 0 = Some (Ok true) /\ answers both_tags pair_set "und-Latn-ends" [7; 5]%N None 0 = Some (Ok true) /\
  own_answers latn "ends" [7; 9]%N None 0 = Some (Ok false) /\ answers both_tags pair_set "und-Latn-ends" [7; 9]%N None 0 = Some (Ok false) /\
  answers both_tags pair_set "und-Latn-after-vowel" [1; 7]%N (Some [7%N]) 1 = Some (Ok true) /\ answers both_tags pair_set "und-Grek-after-vowel" [1; 7]%N (Some [7%N]) 1 = Some (Ok false) /\
  answers both_tags pair_set "und-Grek-after-vowel" [9; 7]%N (Some [7%N]) 1 = Some (Ok true).
Proof. exact sample_answers. Qed.

(** A tag without colon is carried, under its new name, by the code points
    that carried it in the member. *)
Theorem C96_tags : forall on ov, any_order on -> any_order ov -> forall l st, (forall m, In m l -> tidy (mb_lgr m)) -> merge_lgr_set on ov l = Ok st ->
  forall m t, In m l -> no_colon (get_script m) -> no_colon t ->
  (forall x, In x l -> x = m \/ scripts_apart (get_script x) (get_script m)) ->
  (forall x f y e, In x l -> mb_extensions x = Some f -> In e (f y) -> ~ no_colon e) ->
  forall c,
    (exists ch, lookup (lg_rep (mg_lgr st)) c = Some ch /\ In (in_set (get_script m) t) (ch_tags ch)) <->
    (exists ch, lookup (lg_rep (mb_lgr m)) c = Some ch /\ In t (ch_tags ch)).
Proof. exact tags_kept. Qed.
Print Assumptions C96_tags.
Example C96_tags_sample : exists st ch, merge_given [latin; greek] = Ok st /\ lookup (lg_rep (mg_lgr st)) [1%N] = Some ch /\
  In "und-Latn-vowel" (ch_tags ch) /\ In "und-Grek-letter" (ch_tags ch) /\ scripts_apart (get_script latin) (get_script greek).
Proof. exact tags_sample. Qed.
(** The names the rules get are those the merge of names gives (C38). *)
Theorem C96_names : forall sp s m acc, map fst (merge_rules_xml sp s m acc) = merge_rules sp s (dkeys (own_rules m)) (map fst acc).
Proof. exact rule_names_agree. Qed.
Print Assumptions C96_names.

(** Of a context rule two scripts share, a copy is made whose references are
    to names nothing has: matching it fails. *)
Theorem C96_shared_rule_dangles_refuted : own_answers grek "after-vowel" [9; 7]%N (Some [7%N]) 1 = Some (Ok true) /\
  answers both_tags pair_set "und-Grek-und-Latn-after-vowel" [9; 7]%N (Some [7%N]) 1 = Some (Raise (RuleError "und-Grek-und-Latn-vowels")).
Proof. exact shared_rule. Qed.
Print Assumptions C96_shared_rule_dangles_refuted.
(** If it refers to a tag the context is silently dropped. *)
Theorem C96_shared_rule_forgets_tag_refuted :
  own_answers grek_tag "after-vowel" [3; 7]%N (Some [7%N]) 1 = Some (Ok false) /\ own_answers latn_tag "after-vowel" [3; 7]%N (Some [7%N]) 1 = Some (Ok false) /\
  answers both_tags [latn_tag; grek_tag] "und-Grek-und-Latn-after-vowel" [3; 7]%N (Some [7%N]) 1 = Some (Ok true).
Proof. exact shared_tag_rule. Qed.
Print Assumptions C96_shared_rule_forgets_tag_refuted.
(** A class with a colon in its name keeps the name, the references to it do not. *)
Theorem C96_colon_class_refuted : own_answers colon_member "starts" [1; 7]%N None 0 = Some (Ok true) /\
  answers [] [colon_member] "und-Latn-starts" [1; 7]%N None 0 = Some (Raise (RuleError "und-Latn-x:letters")) /\
  dget String.eqb "x:letters" (merged_classes [] [colon_member]) <> None.
Proof. exact colon_class. Qed.
Print Assumptions C96_colon_class_refuted.
(** A reference that begins like the common rule is left without script. *)
Theorem C96_name_like_common_refuted : own_answers msr_member "uses" [1; 7]%N None 0 = Some (Ok true) /\
  answers [] [msr_member] "und-Latn-uses" [1; 7]%N None 0 = Some (Raise (RuleError "leading-combining-mark-2")).
Proof. exact msr_like. Qed.
Print Assumptions C96_name_like_common_refuted.
(** The common rule is that of the first member, with the first member's tags. *)
Theorem C96_common_rule_refuted : own_answers mark_grek "leading-combining-mark" [2; 7]%N None 0 = Some (Ok true) /\
  answers mark_tags [mark_latn; mark_grek] "Common-leading-combining-mark" [2; 7]%N None 0 = Some (Ok false) /\
  answers mark_tags [mark_latn; mark_grek] "und-Grek-leading-combining-mark" [2; 7]%N None 0 = None.
Proof. exact common_rule. Qed.
Print Assumptions C96_common_rule_refuted.
(** A tag with a colon gathers the code points of all members. *)
Theorem C96_colon_tag_refuted : own_answers sc_latn "starts" [2; 7]%N None 0 = Some (Ok false) /\
  answers [("sc:Zyyy", [1; 2]%N)] [sc_latn; sc_grek] "und-Latn-starts" [2; 7]%N None 0 = Some (Ok true).
Proof. exact colon_tag. Qed.
Print Assumptions C96_colon_tag_refuted.
(** Of a rule defined twice the LGR uses the last definition, the merged LGR
    gets the first. *)
Theorem C96_redefined_rule_refuted : own_answers twice "starts" [2; 7]%N None 0 = Some (Ok true) /\ answers [] [twice] "und-Latn-starts" [2; 7]%N None 0 = Some (Ok false).
Proof. exact redefined. Qed.
Print Assumptions C96_redefined_rule_refuted.
