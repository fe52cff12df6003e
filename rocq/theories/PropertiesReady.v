(** Property theorems about documents read with a Unicode database (C76).
    Statements only. *)
From Verif Require Import Base CharModel RepSpec LgrModel LgrSpec MetaSpec SerialModel SerialWitness ActionModel ActionSpec LabelModel LabelSpec ClassModel ClassSpec RuleModel RuleSpec RuleTable
  RulesXmlModel RulesXmlSpec RulesXmlWitness EvalModel EvalSpec DocModel ReadySpec ReadyFinal DocFinal DocWitness.
Open Scope string_scope.
Open Scope list_scope.
Open Scope nat_scope.

(** When a document that does not give a name twice has been read, all its rules
    resolve, and the patterns computed while reading are those of the classes
    and rules of the whole document: evaluations may start from them.  So even if
    the document was read with [force]. *)
Theorem C76_ready : forall lang dig u1 u fuel allow force d x, read_document lang dig (Some (u1, u)) fuel allow force d = Ok (Some x) -> orderly_names (rules_part d) ->
  reachable (lg_rep (ld_lgr x)) /\ shaped_table (ru_classes (ld_rules x)) /\ all_resolve u (ru_classes (ld_rules x)) (ru_rules (ld_rules x)) /\
  exists obj, owned_rules obj (ru_rules (ld_rules x)) /\ used u (ru_classes (ld_rules x)) (ru_rules (ld_rules x)) obj (ld_cache x).
Proof. exact document_ready. Qed.
Print Assumptions C76_ready.

(** So labels are evaluated with the verdicts RFC 7940 gives to the rules of the
    document, whatever was evaluated in between; also from empty caches, that is
    as if the patterns had not been computed ahead.  (Partial as C73: rules must
    be within what RFC 7940 gives a meaning to.) *)
Theorem C76_evaluation_partial : forall lang dig u1 u fuel allow force d x, read_document lang dig (Some (u1, u)) fuel allow force d = Ok (Some x) -> orderly_names (rules_part d) ->
  let r := lg_rep (ld_lgr x) in let look := ru_classes (ld_rules x) in let rules := ru_rules (ld_rules x) in let acts := ru_actions (ld_rules x) in
  good_rules u look rules -> all_defined r acts rules ->
  exists obj rm F, owned_rules obj rules /\ used u look rules obj (ld_cache x) /\ truthful u look rules rm /\ forall f k, F <= f -> used u look rules obj k ->
  (forall label v, snd (eligible_e u look rules f r acts label v k) = test_label_eligible rm r acts label v) /\
  (forall script label inv hide gc wl, snd (compute_e u look rules f r acts script label inv hide gc wl k) = compute_label_disposition rm r acts script true label inv hide gc wl) /\
  (forall n t label, snd (index_e u look rules f r n t label k) = index_label rm r n t label) /\
  (forall script label hide, snd (estimate_e u look rules f r script label hide k) = match estimate_variant_number rm r script label hide with Some n => Ok n | None => Raise OutOfFuel end).
Proof. exact document_evaluates. Qed.
Print Assumptions C76_evaluation_partial.
Theorem C76_disposition_partial : forall lang dig u1 u fuel allow force d x, read_document lang dig (Some (u1, u)) fuel allow force d = Ok (Some x) -> orderly_names (rules_part d) ->
  let r := lg_rep (ld_lgr x) in let look := ru_classes (ld_rules x) in let rules := ru_rules (ld_rules x) in let acts := ru_actions (ld_rules x) in
  good_rules u look rules -> all_defined r acts rules ->
  exists F, forall f, F <= f -> forall label v, label <> [] -> length label <= max_label -> ~ In 37%N label ->
  exists e, snd (eligible_e u look rules f r acts label v (ld_cache x)) = Ok e /\
    (el_invalid e <> [] -> el_ok e = false /\ el_disp e = Some "invalid") /\
    (el_invalid e = [] -> makes_up u look rules r label 0 (el_chars e) /\
       exists ds only a i, (forall t, In t ds <-> v = false /\ reflexive_type u look rules r label t) /\
         (only = true <-> ds <> [] /\ all_reflexive u look rules r label) /\
         first_met u look rules acts label ds only a i /\ el_disp e = Some (a_disp a) /\ el_idx e = Z.of_nat i /\ (el_ok e = true <-> a_disp a <> "invalid")).
Proof. exact document_disposition. Qed.
Print Assumptions C76_disposition_partial.

(** If a class is defined twice, rules read in between keep the first meaning when
    there is a database at reading time, and have the second when there is not. *)
Theorem C76_redefined_refuted : exists u fuel l g s g' s' t' n w, process_rules (Some u) fuel false l g s = Ok (g', s') /\ process_rules None fuel false l g s = Ok (g', t') /\
  ~ orderly_names l /\ matched u fuel g' s' n w = Some (Ok true) /\ matched u fuel g' t' n w = Some (Ok false).
Proof. exact redefined_differs. Qed.
Print Assumptions C76_redefined_refuted.

(** The schema lets <meta> be left out; no such document with a code point can be
    read, even with [force]. *)
Theorem C76_without_meta_refuted : forall lang dig db fuel allow force d, dc_meta d = None -> (exists e, In e (dc_data d) /\ e <> DOther) ->
  exists e, read_document lang dig db fuel allow force d = Raise e.
Proof. exact headless. Qed.
Print Assumptions C76_without_meta_refuted.
Example C76_without_meta_sample : forall db fuel allow force, read_document every_lang ascii_digit db fuel allow force (mkDocument None d_data None) = Raise TypeError.
Proof. exact no_meta. Qed.

Example C76_nontrivial : read_document every_lang ascii_digit (Some d_db) 30 false false d_doc = Ok (Some d_loaded) /\ orderly_names (rules_part d_doc) /\
  good_rules u0 (ru_classes (ld_rules d_loaded)) (ru_rules (ld_rules d_loaded)) /\
  all_defined (lg_rep (ld_lgr d_loaded)) (ru_actions (ld_rules d_loaded)) (ru_rules (ld_rules d_loaded)) /\ ld_cache d_loaded <> [] /\
  (exists e, d_eval [97; 98; 99]%N = Ok e /\ el_ok e = true /\ el_disp e = Some "valid") /\
  (exists e, d_eval [98; 97]%N = Ok e /\ el_invalid e = [(98%N, Some [Some "after"])]) /\
  (exists e, d_eval [97; 97]%N = Ok e /\ el_invalid e = [] /\ el_disp e = Some "invalid").
Proof. exact (conj d_ok (conj d_orderly (conj d_good (conj d_defined (conj d_cached d_evaluates))))). Qed.
