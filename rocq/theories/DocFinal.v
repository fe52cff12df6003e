(** Whole documents. *)
From Verif Require Import Base BaseFacts CharModel RepSpec LgrModel LgrSpec LgrReach LgrInv MetaModel RefModel Rfc7940Model SerialModel SerialSpec SerialProofs SerialFinal
  ValidateModel ActionModel ActionSpec ClassModel ClassSpec ClassProofs RuleModel RuleSpec RuleProofs RuleCache RuleFinal RuleTable RulesXmlModel RulesXmlSpec RulesXmlClass RulesXmlDoc RulesXmlTrip RulesXmlWitness
  LabelModel LabelSpec EvalModel EvalSpec EvalFinal DocModel ReadySpec ReadyProofs ReadyFinal.
Open Scope string_scope.
Open Scope list_scope.
Open Scope nat_scope.

(** ** The repertoire *)
Lemma attempt_out : forall force r p, fst (fst (attempt force r p)) = fst p.
Proof. intros force r [g [[]|e]]; cbn [attempt fst]; [reflexivity|]. destruct (is_lgr_exception e); [destruct force; reflexivity|reflexivity]. Qed.
Lemma vars_reachable : forall force vs g r c, lgr_reachable g -> lgr_reachable (fst (fst (process_vars force g r c vs))).
Proof.
  intros force. induction vs as [|v vs IH]; intros g r c H; [exact H|]. cbn [process_vars]. destruct (parse_cps (ve_cp v)) as [vc|]; [|exact H].
  set (p := lgr_add_variant g c vc _ _ _ _ _ _ _ _) in *.
  assert (K : lgr_reachable (fst p)) by (unfold p; pose proof (lgr_reachable_step g (LAddVariant c vc (ve_type v) (ve_when v) (ve_not_when v) (ve_comment v) (attr_words (ve_ref v)) None false force) H) as K; cbn [lgr_step] in K; match type of K with context [let '(_, _) := ?q in _] => destruct q end; exact K).
  pose proof (attempt_out force r p) as A. destruct (attempt force r p) as [[g1 r1] [[]|e]]; cbn [fst] in A; rewrite A; [|exact K]. apply IH. exact K.
Qed.
Lemma data_reachable : forall force l g r prev, lgr_reachable g -> lgr_reachable (fst (fst (process_data_loop force g r prev l))).
Proof.
  intros force. induction l as [|[cp a vs|first last a x|] l IH]; intros g r prev H; cbn [process_data_loop]; [exact H| | |apply IH; exact H].
  - destruct (parse_cps cp) as [c|]; [|exact H]. set (p := lgr_add_cp g c _ _ _ _ _ _ _ _) in *.
    assert (K : lgr_reachable (fst p)) by (unfold p; pose proof (lgr_reachable_step g (LAddCp c (at_comment a) (attr_words (at_ref a)) (attr_words (at_tag a)) (at_when a) (at_not_when a) None false force) H) as K; cbn [lgr_step] in K; match type of K with context [let '(_, _) := ?q in _] => destruct q end; exact K).
    pose proof (attempt_out force (check_order prev c r) p) as A. destruct (attempt force (check_order prev c r) p) as [[g1 r1] [[]|e]]; cbn [fst] in A; rewrite A; [|exact K].
    pose proof (vars_reachable force vs (fst p) r1 c K) as V. destruct (process_vars force (fst p) r1 c vs) as [[g2 r2] [[]|e]]; cbn [fst] in V; [|exact V]. apply IH. exact V.
  - destruct (parse_cp first) as [f|]; [|exact H]. destruct (parse_cp last) as [la|]; [|exact H]. set (p := lgr_add_range g f la _ _ _ _ _ _ _ _) in *.
    assert (K : lgr_reachable (fst p)) by (unfold p; pose proof (lgr_reachable_step g (LAddRange f la (at_comment a) (attr_words (at_ref a)) (attr_words (at_tag a)) (at_when a) (at_not_when a) None false force) H) as K; cbn [lgr_step] in K; match type of K with context [let '(_, _) := ?q in _] => destruct q end; exact K).
    pose proof (attempt_out force r p) as A. destruct (attempt force r p) as [[g1 r1] [[]|e]]; cbn [fst] in A; rewrite A; [|exact K]. apply IH. exact K.
Qed.
Definition started (db : option LgrModel.unidb) (allow : bool) (rm : refman) : Prop :=
  lgr_reachable (set_refs (new_lgr db allow) rm) /\ proper (set_refs (new_lgr db allow) rm) /\ tag_tidy (set_refs (new_lgr db allow) rm).
Lemma started_new : forall db allow, started db allow empty_refman.
Proof.
  intros db allow. change (set_refs (new_lgr db allow) empty_refman) with (new_lgr db allow). split; [exists db, allow, []; reflexivity|]. split; [apply pr_new|apply tt_new].
Qed.
Lemma meta_started : forall lang dig force db allow l m rm m' rm' x, process_meta_loop lang dig force m rm l = (m', rm', x) -> started db allow rm -> started db allow rm'.
Proof.
  intros lang dig force db allow. induction l as [|e l IH]; intros m rm m' rm' x H S; cbn [process_meta_loop] in H; [injection H as <- <- <-; exact S|].
  assert (K : forall m1 rm1 y, process_meta_elem lang dig force m rm e = (m1, rm1, y) -> started db allow rm1).
  { intros m1 rm1 y E. destruct e; cbn [process_meta_elem] in E; try (injection E as <- <- <-; exact S).
    - destruct text; injection E as <- <- <-; exact S.
    - destruct (process_references rm l0) as [rm2 z] eqn:R. injection E as <- <- <-. exact (references_run _ _ _ _ _ _ S R). }
  destruct (process_meta_elem lang dig force m rm e) as [[m1 rm1] [[]|y]]; [|injection H as <- <- <-; exact (K _ _ _ eq_refl)].
  eapply IH; [exact H|]. exact (K _ _ _ eq_refl).
Qed.

(** ** Names *)
Lemma tags_only : forall tags n, dget String.eqb n (ru_classes (before_rules tags)) <> None -> tag_like n.
Proof.
  intros tags n. unfold before_rules. cbn [ru_classes].
  assert (G : forall t : table, (dget String.eqb n t <> None -> tag_like n) -> dget String.eqb n (fold_left (fun t p => set_tag_class t (fst p) (snd p)) tags t) <> None -> tag_like n).
  { induction tags as [|p l IH]; intros t Ht; [exact Ht|]. cbn [fold_left]. apply IH. unfold set_tag_class. rewrite (dget_dset _ string_eqb_iff).
    destruct (String.eqb n (tag_classname (fst p))) eqn:E; [|exact Ht]. intros _. apply String.eqb_eq in E. exists (fst p). exact E. }
  apply G. intro K. exfalso. apply K. reflexivity.
Qed.
Lemma orderly_new : forall tags l, orderly_names l -> new_names (ru_classes (before_rules tags)) l /\ new_rules [] l.
Proof.
  intros tags l [H1 [H2 H3]]. split.
  - intros pre e post n El En. assert (T : ~ tag_like n) by (apply (H3 e n); [rewrite El; apply in_elt|exact En]). split; [|split; [exact T|exact (H1 _ _ _ _ El En)]].
    destruct (dget String.eqb n (ru_classes (before_rules tags))) eqn:E; [|reflexivity]. exfalso. apply T. apply (tags_only tags). congruence.
  - intros pre e post n El En. split; [reflexivity|exact (H2 _ _ _ _ El En)].
Qed.

(** ** Reading a document *)
Lemma document_inv : forall lang dig db fuel allow force d x, read_document lang dig db fuel allow force d = Ok (Some x) ->
  exists ml m rm r s, dc_meta d = Some ml /\ process_meta lang dig force ml = (m, rm, Ok tt) /\
    process_data force (set_refs (new_lgr (option_map fst db) allow) rm) (md_checks m) (dc_data d) = (ld_lgr x, r, Ok tt) /\
    process_rules (option_map snd db) fuel force (rules_part d) (before_rules (lg_tags (ld_lgr x))) (fresh_read r) = Ok (ld_rules x, s) /\
    ld_cache x = rd_cache s /\ ld_meta x = set_md_checks m (report_tested (rd_results s) "parse_xml").
Proof.
  intros lang dig db fuel allow force d x H. unfold read_document in H. fold (rules_part d) in H. destruct (dc_meta d) as [ml|].
  - destruct (process_meta lang dig force ml) as [[m rm] [[]|e]] eqn:E1; [|discriminate]. destruct (process_data force _ _ _) as [[g r] [[]|e]] eqn:E2; [|discriminate].
    destruct (process_rules _ fuel force (rules_part d) _ _) as [[g1 s]|e] eqn:E3; cbn [bind fst snd] in H; [|discriminate]. injection H as <-. cbn [ld_lgr ld_rules ld_cache ld_meta].
    exists ml, m, rm, r, s. auto 10.
  - destruct (headless_data (dc_data d)) as [[]|]; cbn [bind] in H; [|discriminate]. destruct (headless_rules _) as [[]|]; cbn [bind] in H; discriminate.
Qed.
Theorem document_reachable : forall lang dig db fuel allow force d x, read_document lang dig db fuel allow force d = Ok (Some x) -> lgr_reachable (ld_lgr x).
Proof.
  intros lang dig db fuel allow force d x H. destruct (document_inv _ _ _ _ _ _ _ _ H) as [ml [m [rm [r [s [H1 [H2 [H3 _]]]]]]]].
  unfold process_meta in H2. destruct (process_meta_loop lang dig force new_metadata empty_refman ml) as [[m1 rm1] [[]|e]] eqn:E; [|discriminate]. injection H2 as <- <-.
  pose proof (proj1 (meta_started _ _ _ (option_map fst db) allow _ _ _ _ _ _ E (started_new _ _))) as K. unfold process_data in H3.
  pose proof (data_reachable force (dc_data d) _ (md_checks (set_md_checks m1 (add_test_result (md_checks m1) "explicit_unicode_version" (existsb is_unicode_elem ml)))) [] K) as R.
  destruct (process_data_loop force _ _ [] (dc_data d)) as [[g' r'] [[]|e]]; [|discriminate]. injection H3 as <- <-. exact R.
Qed.
Theorem document_ready : forall lang dig u1 u fuel allow force d x, read_document lang dig (Some (u1, u)) fuel allow force d = Ok (Some x) -> orderly_names (rules_part d) ->
  reachable (lg_rep (ld_lgr x)) /\ shaped_table (ru_classes (ld_rules x)) /\ all_resolve u (ru_classes (ld_rules x)) (ru_rules (ld_rules x)) /\
  exists obj, owned_rules obj (ru_rules (ld_rules x)) /\ used u (ru_classes (ld_rules x)) (ru_rules (ld_rules x)) obj (ld_cache x).
Proof.
  intros lang dig u1 u fuel allow force d x H N. split; [apply lgr_reachable_rep; exact (document_reachable _ _ _ _ _ _ _ _ H)|].
  destruct (document_inv _ _ _ _ _ _ _ _ H) as [ml [m [rm [r [s [_ [_ [_ [H4 [H5 _]]]]]]]]]]. cbn [option_map snd] in H4. rewrite H5.
  destruct (orderly_new (lg_tags (ld_lgr x)) _ N) as [N1 N2]. exact (read_ready _ _ _ _ _ _ _ _ H4 N1 N2).
Qed.
Theorem document_evaluates : forall lang dig u1 u fuel allow force d x, read_document lang dig (Some (u1, u)) fuel allow force d = Ok (Some x) -> orderly_names (rules_part d) ->
  let r := lg_rep (ld_lgr x) in let look := ru_classes (ld_rules x) in let rules := ru_rules (ld_rules x) in let acts := ru_actions (ld_rules x) in
  good_rules u look rules -> all_defined r acts rules ->
  exists obj rm F, owned_rules obj rules /\ used u look rules obj (ld_cache x) /\ truthful u look rules rm /\ forall f k, F <= f -> used u look rules obj k ->
  (forall label v, snd (eligible_e u look rules f r acts label v k) = test_label_eligible rm r acts label v) /\
  (forall script label inv hide gc wl, snd (compute_e u look rules f r acts script label inv hide gc wl k) = compute_label_disposition rm r acts script true label inv hide gc wl) /\
  (forall n t label, snd (index_e u look rules f r n t label k) = index_label rm r n t label) /\
  (forall script label hide, snd (estimate_e u look rules f r script label hide k) = match estimate_variant_number rm r script label hide with Some n => Ok n | None => Raise OutOfFuel end).
Proof.
  intros lang dig u1 u fuel allow force d x H N r look rules acts HG HD. destruct (document_ready _ _ _ _ _ _ _ _ _ H N) as [_ [HT [HR [obj [O U]]]]].
  destruct (evaluation u look rules obj HT HG O HR) as [rm [Hrm [F HF]]]. exists obj, rm, F. split; [exact O|]. split; [exact U|]. split; [exact Hrm|]. intros f k Hf Uk.
  split; [|split; [|split]].
  - intros label v. apply (HF f Hf r acts (fun _ => "") HD k Uk).
  - intros script label inv hide gc wl. apply (HF f Hf r acts script HD k Uk).
  - intros n t label. apply (HF f Hf r acts (fun _ => "") HD k Uk).
  - intros script label hide. apply (HF f Hf r acts script HD k Uk).
Qed.
Theorem document_disposition : forall lang dig u1 u fuel allow force d x, read_document lang dig (Some (u1, u)) fuel allow force d = Ok (Some x) -> orderly_names (rules_part d) ->
  let r := lg_rep (ld_lgr x) in let look := ru_classes (ld_rules x) in let rules := ru_rules (ld_rules x) in let acts := ru_actions (ld_rules x) in
  good_rules u look rules -> all_defined r acts rules ->
  exists F, forall f, F <= f -> forall label v, label <> [] -> length label <= max_label -> ~ In 37%N label ->
  exists e, snd (eligible_e u look rules f r acts label v (ld_cache x)) = Ok e /\
    (el_invalid e <> [] -> el_ok e = false /\ el_disp e = Some "invalid") /\
    (el_invalid e = [] -> makes_up u look rules r label 0 (el_chars e) /\
       exists ds only a i, (forall t, In t ds <-> v = false /\ reflexive_type u look rules r label t) /\
         (only = true <-> ds <> [] /\ all_reflexive u look rules r label) /\
         first_met u look rules acts label ds only a i /\ el_disp e = Some (a_disp a) /\ el_idx e = Z.of_nat i /\ (el_ok e = true <-> a_disp a <> "invalid")).
Proof.
  intros lang dig u1 u fuel allow force d x H N r look rules acts HG HD. destruct (document_ready _ _ _ _ _ _ _ _ _ H N) as [Hre [HT [HR [obj [O U]]]]].
  destruct (eligible_rfc u look rules obj HT HG O HR) as [F HF]. exists F. intros f Hf label v. exact (HF f Hf r acts Hre HD (ld_cache x) U label v).
Qed.

(** ** Documents without <meta> *)
Theorem headless : forall lang dig db fuel allow force d, dc_meta d = None -> (exists e, In e (dc_data d) /\ e <> DOther) ->
  exists e, read_document lang dig db fuel allow force d = Raise e.
Proof.
  intros lang dig db fuel allow force d H [e [He Ne]]. unfold read_document. rewrite H.
  assert (G : exists x, headless_data (dc_data d) = Raise x).
  { revert He. generalize (dc_data d). induction l as [|y l IH]; [intros []|]. intros [->|K].
    - destruct e as [cp a vs|f la a vs|]; [| |congruence]; cbn [headless_data].
      + destruct (parse_cps cp); cbn [bind]; eexists; reflexivity.
      + destruct (parse_cp f); cbn [bind]; [destruct (parse_cp la); cbn [bind]|]; eexists; reflexivity.
    - destruct y as [cp a vs|f la a vs|]; cbn [headless_data]; [| |exact (IH K)].
      + destruct (parse_cps cp); cbn [bind]; eexists; reflexivity.
      + destruct (parse_cp f); cbn [bind]; [destruct (parse_cp la); cbn [bind]|]; eexists; reflexivity. }
  destruct G as [x ->]. exists x. reflexivity.
Qed.
