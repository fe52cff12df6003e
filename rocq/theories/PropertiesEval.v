(** Property theorems about evaluating labels with the rules of the LGR (C73) and
    summaries (C74).  Statements only. *)
From Verif Require Import Base CharModel RepSpec RangeProofs ActionModel ActionSpec LgrModel LabelModel LabelSpec LabelFinal ClassModel ClassSpec ClassFinal RuleModel RuleSpec RuleTable EvalModel EvalSpec EvalFinal EvalWitness.
Open Scope string_scope.
Open Scope list_scope.
Open Scope nat_scope.

(** When the rules mentioned are defined and resolve, evaluations of labels are
    those of C16 to C23, with rules that give the verdicts of RFC 7940; whatever
    was evaluated before makes no difference.  (Partial as C32: rules must be
    within what RFC 7940 gives a meaning to.) *)
Theorem C73_evaluation_partial : forall u look rules obj, shaped_table look -> good_rules u look rules -> owned_rules obj rules -> all_resolve u look rules ->
  exists rm, truthful u look rules rm /\ exists F, forall f, F <= f ->
  forall r acts script, all_defined r acts rules -> forall k, used u look rules obj k ->
  (forall label v, snd (eligible_e u look rules f r acts label v k) = test_label_eligible rm r acts label v) /\
  (forall label inv hide gc wl, snd (compute_e u look rules f r acts script label inv hide gc wl k) = compute_label_disposition rm r acts script true label inv hide gc wl) /\
  (forall n t label, snd (index_e u look rules f r n t label k) = index_label rm r n t label) /\
  (forall label hide, snd (estimate_e u look rules f r script label hide k) = match estimate_variant_number rm r script label hide with Some n => Ok n | None => Raise OutOfFuel end).
Proof. exact evaluation. Qed.
Print Assumptions C73_evaluation_partial.

(** In particular a label has a disposition; if no code point is refused it is a
    succession of entries whose context conditions are met, and the disposition
    is that of the first action whose conditions are met. *)
Theorem C73_disposition_partial : forall u look rules obj, shaped_table look -> good_rules u look rules -> owned_rules obj rules -> all_resolve u look rules ->
  exists F, forall f, F <= f -> forall r acts, reachable r -> all_defined r acts rules -> forall k, used u look rules obj k ->
  forall label v, label <> [] -> length label <= max_label -> ~ In 37%N label ->
  exists e, snd (eligible_e u look rules f r acts label v k) = Ok e /\
    (el_invalid e <> [] -> el_ok e = false /\ el_disp e = Some "invalid") /\
    (el_invalid e = [] -> makes_up u look rules r label 0 (el_chars e) /\
       exists ds only a i, (forall t, In t ds <-> v = false /\ reflexive_type u look rules r label t) /\
         (only = true <-> ds <> [] /\ all_reflexive u look rules r label) /\
         first_met u look rules acts label ds only a i /\ el_disp e = Some (a_disp a) /\ el_idx e = Z.of_nat i /\ (el_ok e = true <-> a_disp a <> "invalid")).
Proof. exact eligible_rfc. Qed.
Print Assumptions C73_disposition_partial.

(** Nothing is raised but what comes from the label or from the rules. *)
Theorem C73_errors : forall u look rules obj, owned_rules obj rules -> forall f r acts script k, reachable r -> used u look rules obj k ->
  (forall label v e, snd (eligible_e u look rules f r acts label v k) = Raise e -> rule_trouble u look rules obj r acts e \/ (label = [] /\ e = LGRApiInvalidParameter "label")) /\
  (forall label inv hide gc wl e, snd (snd (compute_e u look rules f r acts script label inv hide gc wl k)) = Raise e ->
     rule_trouble u look rules obj r acts e \/ ((label = [] \/ 63 < length label) /\ e = LGRApiInvalidParameter "label")) /\
  (forall n t label e, snd (index_e u look rules f r n t label k) = Raise e ->
     rule_trouble u look rules obj r acts e \/ (exists c, In c label /\ e = NotInLGR [c]) \/ e = ValueError) /\
  (forall label hide e, snd (estimate_e u look rules f r script label hide k) = Raise e -> rule_trouble u look rules obj r acts e).
Proof. exact errors. Qed.
Print Assumptions C73_errors.
(** After an evaluation, even one that failed, later ones are as before. *)
Theorem C73_caches : forall u look rules obj, owned_rules obj rules -> forall f r acts script k, reachable r -> used u look rules obj k ->
  (forall label v, used u look rules obj (fst (eligible_e u look rules f r acts label v k))) /\
  (forall label inv hide gc wl, used u look rules obj (fst (compute_e u look rules f r acts script label inv hide gc wl k))) /\
  (forall n t label, used u look rules obj (fst (index_e u look rules f r n t label k))) /\
  (forall label hide, used u look rules obj (fst (estimate_e u look rules f r script label hide k))).
Proof. exact caches_stay. Qed.
Print Assumptions C73_caches.
(** With an action that names a missing rule first, no label of the repertoire
    can be evaluated. *)
Theorem C73_missing_action : forall u look rules f r acts a n k label v chars, reachable r -> (forall m, ~ mentioned r [] m) ->
  consulted (a_match a) (a_not_match a) = Some n -> dget String.eqb n rules = None ->
  label <> [] -> longest_match (fun _ _ _ => true) r label 0 chars [] ->
  eligible_e u look rules f r (a :: acts) label v k = (k, Raise (KeyErrorStr n)).
Proof. exact missing_action. Qed.
Print Assumptions C73_missing_action.
(** A missing context rule is a KeyError, on the labels that need it. *)
Theorem C73_missing_context_refuted : exists r label ok, reachable r /\
  (forall u f acts v k, eligible_e u [] [] f r acts label v k = (k, Raise (KeyErrorStr "nope"))) /\
  forall u f v k, exists e, eligible_e u [] [] f r [] ok v k = (k, Ok e) /\ el_ok e = true.
Proof. exact missing_context. Qed.
Print Assumptions C73_missing_context_refuted.
(** A rule with the empty name is accepted; a label it refuses is a TypeError,
    not a report. *)
Theorem C73_empty_name_refuted : exists label,
  (let eval n := snd (eligible_e sample_db [] (only_rule n) 20 (empty_rep_named n) [] label false []) in
   eval "" = Raise TypeError /\ exists e, eval "x" = Ok e /\ el_invalid e = [(5%N, Some [Some "x"])]) /\
  snd (add_rule [] [] (Rule 1 (Some "") None [MBehind [MChar [6]%N None]; MAnchor]) false) = Ok tt.
Proof. exact empty_name. Qed.
Print Assumptions C73_empty_name_refuted.

Example C73_nontrivial : shaped_table sample_look /\ good_rules sample_db sample_look sample_rules /\ owned_rules sample_obj sample_rules /\ all_resolve sample_db sample_look sample_rules /\
  reachable s_rep /\ all_defined s_rep s_acts sample_rules /\
  (exists e, s_eval [1; 9; 3]%N = Ok e /\ el_ok e = true /\ el_disp e = Some "valid") /\
  (exists e, s_eval [1; 9; 1]%N = Ok e /\ el_invalid e = [(9%N, Some [Some "mid"])]) /\
  (exists e, s_eval [1; 1]%N = Ok e /\ el_invalid e = [] /\ el_disp e = Some "invalid" /\ el_idx e = 0%Z) /\
  map (fun x => (ls_cp x, ls_disp x)) (s_list [1; 9; 3]%N) = [([1; 2; 3]%N, Some "blocked"); ([1; 9; 3]%N, Some "valid")].
Proof.
  split; [exact s_shaped|]. split; [exact sample_good|]. split; [exact sample_owned|]. split; [exact s_resolve|]. split; [apply built_reachable|]. split; [exact s_defined|].
  repeat split; try (eexists; vm_compute; auto).
Qed.

Example C73_missing_nontrivial : let r := built [addc [97]%N; addc [98]%N; addc [97; 98]%N] in
  (forall m, ~ mentioned r [] m) /\ (exists chars, longest_match (fun _ _ _ => true) r [98; 97; 98]%N 0 chars []) /\
  snd (eligible_e sample_db [] [] 5 r [mkAction "valid" (Some "gone") None None None None] [98; 97; 98]%N false []) = Raise (KeyErrorStr "gone").
Proof. exact missing_sample. Qed.

(** C74: a summary counts, for each disposition, the labels listed with it. *)
Theorem C74_summary : forall u look rules f r acts script label inv hide k,
  match snd (compute_e u look rules f r acts script label inv hide false [] k) with
  | (ys, Ok _) => exists d, snd (summary_e u look rules f r acts script label inv hide k) = Ok (d, ys) /\ NoDup (map fst d) /\
      forall disp n, In (disp, n) d <-> 0 < n /\ n = length (filter (ostring_eqb disp) (map ls_disp ys))
  | (_, Raise e) => snd (summary_e u look rules f r acts script label inv hide k) = Raise e
  end.
Proof. exact summary. Qed.
Print Assumptions C74_summary.
Example C74_nontrivial : exists ys, snd (summary_e sample_db sample_look sample_rules 20 s_rep s_acts (fun _ => "") [1; 9; 3]%N false false []) = Ok ([(Some "blocked", 1); (Some "valid", 1)], ys).
Proof. eexists. vm_compute. reflexivity. Qed.
