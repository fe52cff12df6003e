(** What is printed for a completed document can be read. *)
From Verif Require Import Base BaseFacts CharModel RepSpec RepProofs VariantProofs MetaModel MetaSpec MetaProofs RefModel LgrModel LgrSpec LgrProofs LgrInv LgrTags LgrMirror LgrReach
  CompareSpec PopulateModel PopulateSpec PopulateFinal PopulateAgain Rfc7940Model ValidateModel ValidateSpec ActionModel LabelModel ClassModel RuleModel SerialModel SerialSpec SameSpec SerialProofs SerialFinal
  RulesXmlModel RulesXmlSpec RulesXmlDoc RulesXmlTrip EvalModel EvalSpec DocModel ReadySpec DocFinal AgainSpec AgainRead AgainClasses AgainStable AgainFinal ForceProofs PopToolModel PopToolSpec.
Open Scope string_scope.
Open Scope list_scope.

(** ** Populating keeps what plain edits keep *)
Definition kept_by_edits (P : lgr -> Prop) : Prop :=
  (forall g c, P g -> P (fst (lgr_add_cp g c None [] [] None None None false false))) /\
  (forall g c v ty w nw cm rf, P g -> P (fst (lgr_add_variant g c v ty w nw cm rf None false false))) /\
  (forall g c v, P g -> P (fst (lgr_del_variant g c v None None))).
Section Kept.
  Variable P : lgr -> Prop.
  Hypothesis H : kept_by_edits P.
  Lemma put_kept : forall g c v ty w nw cm rf, P g -> P (fst (put_variant g c v ty w nw cm rf)).
  Proof. intros. apply (proj1 (proj2 H)). assumption. Qed.
  Lemma andthen_kept : forall x f, P (fst x) -> (forall g, P g -> P (fst (f g))) -> P (fst (andthen x f)).
  Proof. intros [g [u|e]] f H1 H2; cbn [andthen fst] in *; auto. Qed.
  Lemma each_variant_kept : forall f, (forall g a b, P g -> P (fst (f g a b))) -> forall l g a, P g -> P (fst (each_variant f g a l)).
  Proof.
    intros f Hf l. induction l as [|b l IH]; intros g a Hg; [exact Hg|]. cbn [each_variant]. pose proof (Hf g a b Hg) as K. destruct (f g a b) as [g' [u|e]]; cbn [fst] in *; auto.
  Qed.
  Lemma each_char_kept : forall f, (forall g a b, P g -> P (fst (f g a b))) -> forall l g, P g -> P (fst (each_char f g l)).
  Proof.
    intros f Hf l. induction l as [|a l IH]; intros g Hg; [exact Hg|]. cbn [each_char]. destruct (rep_get_char (lg_rep g) (ch_cp a)) as [cur|e]; [|exact Hg].
    pose proof (each_variant_kept f Hf (get_variants cur) g (ch_cp a) Hg) as K. destruct (each_variant f g (ch_cp a) (get_variants cur)) as [g' [u|e]]; cbn [fst] in *; auto.
  Qed.
  Lemma each_key_kept : forall f, (forall g a b, P g -> P (fst (f g a b))) -> forall ks g last, P g -> P (fst (each_key f g last ks)).
  Proof.
    intros f Hf ks. induction ks as [|k ks IH]; intros g last Hg; [exact Hg|]. cbn [each_key]. destruct (iter_bucket _ _) as [last' out].
    pose proof (each_char_kept f Hf out g Hg) as K. destruct (each_char f g out) as [g' [u|e]]; cbn [fst] in *; auto.
  Qed.
  Lemma mapping_kept : forall f, (forall g a b, P g -> P (fst (f g a b))) -> forall g, P g -> P (fst (each_mapping f g)).
  Proof. intros. apply each_key_kept; assumption. Qed.
  Lemma missing_kept : forall g a b, P g -> P (fst (add_missing g a b)).
  Proof.
    intros g a b Hg. unfold add_missing. destruct (lgr_get_variants g (v_cp b)) as [vs|e]; [exact Hg|]. destruct e; try exact Hg.
    apply andthen_kept; [apply (proj1 H); exact Hg|]. intros g1 H1. apply put_kept. exact H1.
  Qed.
  Lemma replace_kept : forall g c r w nw, P g -> P (fst (replace_variant g c r w nw)).
  Proof.
    intros g c r w nw Hg. unfold replace_variant. pose proof (proj2 (proj2 H) g c (v_cp r) Hg) as K. destruct (lgr_del_variant g c (v_cp r) None None) as [g1 [u|e]]; cbn [fst] in *; [|exact K].
    apply put_kept. exact K.
  Qed.
  Lemma symmetry_kept : forall g a b, P g -> P (fst (symmetry_step g a b)).
  Proof.
    intros g a b Hg. unfold symmetry_step. destruct (lgr_get_variants g (v_cp b)) as [vs|e]; [|exact Hg].
    destruct (filter (fun v => cps_eqb a (v_cp v)) vs) as [|r rs]; [apply put_kept; exact Hg|]. apply andthen_kept.
    - unfold symmetry_when. destruct (_ && _)%bool; [|exact Hg]. destruct (truthy _); [apply put_kept; exact Hg|]. apply replace_kept. exact Hg.
    - intros g1 H1. unfold symmetry_not_when. destruct (_ && _)%bool; [|exact H1]. destruct (truthy _); [apply put_kept; exact H1|]. apply replace_kept. exact H1.
  Qed.
  Lemma targets_kept : forall cs g a, P g -> P (fst (transitivity_targets g a cs)).
  Proof.
    induction cs as [|c cs IH]; intros g a Hg; [exact Hg|]. cbn [transitivity_targets]. destruct (rep_get_char (lg_rep g) a) as [cur|e]; [|exact Hg].
    destruct (memb _ _ _); [apply IH; exact Hg|]. apply andthen_kept; [apply put_kept; exact Hg|]. intros g1 H1. apply IH. exact H1.
  Qed.
  Lemma transitivity_kept : forall g a b, P g -> P (fst (transitivity_step g a b)).
  Proof. intros g a b Hg. unfold transitivity_step. destruct (lgr_get_variants g (v_cp b)) as [vs|e]; [|exact Hg]. apply targets_kept. exact Hg. Qed.
  Lemma balance_kept : forall n g, P g -> P (fst (balance n g)).
  Proof.
    induction n as [|n IH]; intros g Hg; cbn [balance]; destruct (balanced g) as [[]|e]; try exact Hg.
    apply andthen_kept; [apply mapping_kept; [exact symmetry_kept|exact Hg]|]. intros g1 H1. apply andthen_kept; [apply mapping_kept; [exact transitivity_kept|exact H1]|exact IH].
  Qed.
  Lemma populate_kept : forall g, P g -> P (fst (populate g)).
  Proof.
    intros g Hg. unfold populate. apply andthen_kept; [apply mapping_kept; [exact missing_kept|exact Hg]|]. intros g1 H1. apply andthen_kept; [apply balance_kept; exact H1|].
    intros g2 H2. destruct (passed (check_symmetry g2 false)) as [[]|e]; try exact H2. apply mapping_kept; [exact symmetry_kept|exact H2].
  Qed.
End Kept.
Lemma proper_edits : kept_by_edits proper.
Proof.
  split; [|split].
  - intros g c Hg. pose proof (pr_step g (LAddCp c None [] [] None None None false false) Hg I eq_refl) as K. cbn [lgr_step] in K. destruct (lgr_add_cp _ _ _ _ _ _ _ _ _ _). exact K.
  - intros g c v ty w nw cm rf Hg. pose proof (pr_step g (LAddVariant c v ty w nw cm rf None false false) Hg I eq_refl) as K. cbn [lgr_step] in K. destruct (lgr_add_variant _ _ _ _ _ _ _ _ _ _ _). exact K.
  - intros g c v Hg. pose proof (pr_step g (LDelVariant c v None None) Hg I I) as K. cbn [lgr_step] in K. destruct (lgr_del_variant _ _ _ _ _). exact K.
Qed.
Lemma tidy_edits : kept_by_edits tag_tidy.
Proof.
  split; [|split].
  - intros g c Hg. assert (T : tag_tidy_op g (LAddCp c None [] [] None None None false false)) by (split; [exact I|intro; discriminate]).
    pose proof (tt_step g _ Hg T) as K. cbn [lgr_step] in K. destruct (lgr_add_cp _ _ _ _ _ _ _ _ _ _). exact K.
  - intros g c v ty w nw cm rf Hg. assert (T : tag_tidy_op g (LAddVariant c v ty w nw cm rf None false false)) by (split; exact I).
    pose proof (tt_step g _ Hg T) as K. cbn [lgr_step] in K. destruct (lgr_add_variant _ _ _ _ _ _ _ _ _ _ _). exact K.
  - intros g c v Hg. assert (T : tag_tidy_op g (LDelVariant c v None None)) by (split; exact I).
    pose proof (tt_step g _ Hg T) as K. cbn [lgr_step] in K. destruct (lgr_del_variant _ _ _ _ _). exact K.
Qed.

(** ** The same repertoire *)
Section Same.
  Variables g g' : lgr.
  Hypothesis S : same_repertoire g g'.
  Lemma sr_lookup : forall c, lookup (lg_rep g') c <> None <-> lookup (lg_rep g) c <> None.
  Proof. intro c. specialize (S c). destruct (lookup (lg_rep g) c), (lookup (lg_rep g') c); try contradiction; split; congruence. Qed.
  Lemma sr_mapping : forall a b v, mapping (lg_rep g') a b v <-> mapping (lg_rep g) a b v.
  Proof.
    intros a b v. unfold mapping. pose proof (S a) as K. split; intros [ch [H1 [H2 H3]]].
    - rewrite H1 in K. destruct (lookup (lg_rep g) a) as [c|]; [|contradiction]. destruct K as [_ K]. exists c. rewrite <- K. auto.
    - rewrite H1 in K. destruct (lookup (lg_rep g') a) as [c|]; [|contradiction]. destruct K as [_ K]. exists c. rewrite K. auto.
  Qed.
  Lemma sr_target : forall a b, has_target (lg_rep g') a b <-> has_target (lg_rep g) a b.
  Proof. intros a b. split; intros [v H]; exists v; apply sr_mapping; exact H. Qed.
  Lemma sr_symmetric : symmetric (lg_rep g) -> symmetric (lg_rep g').
  Proof. intros H a b K. apply sr_target in K. destruct (H a b K) as [H1 H2]. split; [apply sr_lookup; exact H1|apply sr_target; exact H2]. Qed.
  Lemma sr_transitive : transitive (lg_rep g) -> transitive (lg_rep g').
  Proof.
    intros H a b K. apply sr_target in K. destruct (H a b K) as [H1 H2]. split; [apply sr_lookup; exact H1|]. intros c Hc Hn. apply sr_target in Hc. apply sr_target. apply H2; assumption.
  Qed.
  Lemma sr_both_ways : rules_both_ways (lg_rep g) -> rules_both_ways (lg_rep g').
  Proof.
    intros H a b v K. apply sr_mapping in K. destruct (H a b v K) as [H1 H2]. split; intro T; [destruct (H1 T) as [w [W1 W2]]|destruct (H2 T) as [w [W1 W2]]]; exists w; split; try exact W2; apply sr_mapping; exact W1.
  Qed.
End Same.

(** ** Writing another repertoire with the same tags *)
Section Again.
  Variable lang : cps -> option bool.
  Variable dig : N -> bool.
  Hypothesis Hdig : dig 46%N = false.
  Hypothesis Hascii : forall c, ascii_digit c = true -> dig c = true.

  Theorem again_meta : forall db fuel allow d x g m0, read_document lang dig db fuel allow false d = Ok (Some x) -> plain_document d -> Forall qualified (rules_part d) ->
    (db <> None -> orderly_names (rules_part d)) ->
    meta_writable lang dig m0 -> proper g -> tag_tidy g -> tags_writable g -> lg_refs g = lg_refs (ld_lgr x) -> lg_tags g = lg_tags (ld_lgr x) -> admits (option_map fst db) allow g ->
    forall w, w = write_document (mkLoaded m0 g (ld_rules x) (ld_cache x)) ->
    exists x', read_document lang dig db fuel allow false w = Ok (Some x') /\
      same_metadata m0 (ld_meta x') /\ same_repertoire g (ld_lgr x') /\ rm_refs (lg_refs (ld_lgr x')) = rm_refs (lg_refs (ld_lgr x)) /\ same_ruleset (ld_rules x) (ld_rules x') /\
      write_document x' = w.
  Proof.
    intros db fuel allow d x g m0 H P Q O W1 W3 W4 W5 GR GT W7 w Ew. destruct (read_writable lang dig Hdig Hascii db fuel allow d x H P) as [_ [W2 [_ [_ [_ [W6 [_ W8]]]]]]].
    rewrite <- GR in W2. rewrite <- GT in W8. unfold defined_ref in W6. rewrite <- GR in W6. fold (defined_ref g "") in W6.
    destruct (document_inv _ _ _ _ _ _ _ _ H) as [ml [m [rm [r [s [H1 [H2 [H3 [H4 [H5 H6]]]]]]]]]].
    destruct (meta_roundtrip lang dig Hdig m0 g (option_map fst db) allow W1 (proper_ref_tidy _ W3) W2) as [m' [rm' [E1 [E2 [E3 E4]]]]].
    destruct (data_roundtrip g (option_map fst db) allow rm' (md_checks m') W3 W5 W6 W7 E3 E4) as [g' [D1 [D2 [D3 [D4 [D5 D6]]]]]].
    set (r' := report_tested _ _) in D1.
    assert (IN : inhabited (lg_tags g')).
    { unfold process_data in D1. destruct (process_data_loop false _ _ [] (serialize_data g)) as [[g2 r2] [[]|e]] eqn:L; [|discriminate]. injection D1 as -> _.
      apply (data_neat _ _ _ _ _ _ _ _ _ (neat_start _ _ _ E4) L). }
    assert (A : exists s', process_rules (option_map snd db) fuel false (serialize_rules (ld_rules x)) (before_rules (lg_tags (ld_lgr x))) (fresh_read r) = Ok (ld_rules x, s') /\ RulesXmlSpec.alike s s').
    { destruct db as [[u1 u]|]; cbn [option_map snd] in *.
      - destruct (orderly_new (lg_tags (ld_lgr x)) _ (O ltac:(discriminate))) as [N1 _]. eapply roundtrip_patterns; [exact H4|exact Q|reflexivity|reflexivity|reflexivity|exact N1|split; reflexivity].
      - eapply roundtrip_plain; [exact H4|exact Q|reflexivity|reflexivity|reflexivity|split; reflexivity]. }
    destruct A as [s' [A1 [_ A2]]]. rewrite <- GT in A1.
    assert (SL : same_ruleset (before_rules (lg_tags g)) (before_rules (lg_tags g'))).
    { split; [|repeat split; reflexivity]. apply same_tag_classes; [apply (tag_tidy_inv _ W4)|apply (tag_tidy_inv g'); apply D2|exact W8|exact IN|exact D6]. }
    pose proof (rules_read_again (option_map snd db) fuel false (serialize_rules (ld_rules x)) _ _ (fresh_read r) (fresh_read r') SL (conj eq_refl (cache_refl _))) as B. rewrite A1 in B.
    destruct (process_rules (option_map snd db) fuel false (serialize_rules (ld_rules x)) (before_rules (lg_tags g')) (fresh_read r')) as [[ru' s2]|] eqn:EB; cbn [same_res] in B; [|contradiction].
    destruct B as [B1 [_ B2]]. cbn [fst snd] in B1, B2. subst w.
    eexists. split.
    - unfold read_document, write_document, serialize_lgr. cbn [ld_meta ld_lgr ld_rules dc_meta dc_data dc_rules x_meta x_data]. rewrite E1, D1, EB. cbn [bind fst snd]. reflexivity.
    - assert (ER : rm_refs (lg_refs g') = rm_refs (lg_refs g)) by (rewrite <- E3; f_equal; exact D5).
      split; [|split; [|split; [|split]]]; cbn [ld_meta ld_lgr ld_rules ld_cache].
      + exact E2.
      + exact D6.
      + rewrite ER, GR. reflexivity.
      + exact B1.
      + unfold write_document, serialize_lgr. cbn [ld_meta ld_lgr ld_rules x_meta x_data]. rewrite (data_stable _ _ _ _ _ _ _ W3 (proj1 (proj2 D2)) D1 D6).
        unfold serialize_meta, serialize_rules. cbn [md_version md_date md_start md_end md_unicode md_languages md_scopes md_description set_md_checks].
        destruct E2 as [M1 [M2 [M3 [M4 [M5 [M6 [M7 M8]]]]]]]. rewrite M1, M2, M3, M4, M5, M6, M7, M8, ER.
        destruct B1 as [_ [_ [_ [_ [_ [X1 [X2 X3]]]]]]]. rewrite X1, X2, X3. reflexivity.
  Qed.

  Theorem again_with : forall db fuel allow d x g, read_document lang dig db fuel allow false d = Ok (Some x) -> plain_document d -> Forall qualified (rules_part d) ->
    (db <> None -> orderly_names (rules_part d)) ->
    proper g -> tag_tidy g -> tags_writable g -> lg_refs g = lg_refs (ld_lgr x) -> lg_tags g = lg_tags (ld_lgr x) -> admits (option_map fst db) allow g ->
    forall w, w = write_document (mkLoaded (ld_meta x) g (ld_rules x) (ld_cache x)) ->
    exists x', read_document lang dig db fuel allow false w = Ok (Some x') /\
      same_metadata (ld_meta x) (ld_meta x') /\ same_repertoire g (ld_lgr x') /\ rm_refs (lg_refs (ld_lgr x')) = rm_refs (lg_refs (ld_lgr x)) /\ same_ruleset (ld_rules x) (ld_rules x') /\
      write_document x' = w.
  Proof.
    intros db fuel allow d x g H P Q O W3 W4 W5 GR GT W7 w Ew. exact (again_meta db fuel allow d x g (ld_meta x) H P Q O (proj1 (read_writable lang dig Hdig Hascii db fuel allow d x H P)) W3 W4 W5 GR GT W7 w Ew).
  Qed.

  (** ** The tool *)
  Lemma target_occurs : forall g a b x, has_target (lg_rep g) a b -> In x b -> SerialSpec.occurs g x.
  Proof. intros g a b x [v [ch [H1 [H2 H3]]]] Hx. exists a, ch. split; [exact H1|]. right. exists v. rewrite H3. auto. Qed.
  Lemma mentioned_occurs : forall g a x, PopulateSpec.mentioned (lg_rep g) a -> In x a -> SerialSpec.occurs g x.
  Proof.
    intros g a x [H|[b H]] Hx; [|eapply target_occurs; eassumption]. destruct (lookup (lg_rep g) a) as [ch|] eqn:E; [|congruence]. exists a, ch. split; [exact E|]. left. exact Hx.
  Qed.
  Lemma populated_writable : forall g g' db allow, proper g -> tag_tidy g -> tags_writable g -> admits db allow g -> populate g = (g', Ok tt) ->
    proper g' /\ tag_tidy g' /\ tags_writable g' /\ lg_refs g' = lg_refs g /\ lg_tags g' = lg_tags g /\ admits db allow g'.
  Proof.
    intros g g' db allow P T W A E. pose proof (tidy_reachable _ (proper_tidy g P)) as RE. destruct (populate_respects g g' _ RE E) as [_ [_ [_ [_ [R3 [R4 [_ [R5 [R6 _]]]]]]]]].
    destruct (populate_completes g g' RE E) as [C1 [_ [C2 _]]].
    pose proof (populate_kept proper proper_edits g P) as K1. pose proof (populate_kept tag_tidy tidy_edits g T) as K2. rewrite E in K1, K2. cbn [fst] in K1, K2.
    split; [exact K1|]. split; [exact K2|]. split; [|split; [exact R3|split; [exact R4|]]].
    - intros c ch' Hc. destruct (lookup (lg_rep g) c) as [ch|] eqn:L.
      + destruct (R5 c ch L) as [ch2 [L2 [_ [_ [_ [_ [Et _]]]]]]]. assert (ch2 = ch') by congruence. subst ch2. rewrite Et. exact (W c ch L).
      + destruct (R6 c ch' Hc L) as [[_ [_ [_ [_ [Et _]]]]] _]. rewrite Et. cbn [ch_tags bare]. split; [discriminate|intros w []].
    - destruct A as [A|A]; [left; exact A|right]. intros x d [c [ch [Hc Hx]]] Hd. apply (A x d); [|exact Hd]. destruct Hx as [Hx|[v [Hv Hx]]].
      + apply (mentioned_occurs g c x); [apply C2; congruence|exact Hx].
      + apply (mentioned_occurs g (v_cp v) x); [|exact Hx]. apply C2. apply (C1 c (v_cp v)). exists v, ch. auto.
  Qed.

  Theorem tool_completes : forall db fuel rng d x d', read_document lang dig db fuel false false d = Ok (Some x) -> plain_document d -> Forall qualified (rules_part d) ->
    (db <> None -> orderly_names (rules_part d)) -> populate_tool lang dig fuel rng db d = Ok (Some d') ->
    exists x', read_document lang dig db fuel false false d' = Ok (Some x') /\ completed x x' /\ write_document x' = d' /\
      (PopulateSpec.neat (ld_lgr x) -> forall a b v, mapping (lg_rep (ld_lgr x)) a b v -> exists w, mapping (lg_rep (ld_lgr x')) a b w /\ PopulateSpec.alike v w /\ (w = v \/ unconditional v)) /\
      populate_tool lang dig fuel rng db d' = Ok (Some d').
  Proof.
    intros db fuel rng d x d' H P Q O T. unfold populate_tool in T.
    assert (R : parse_lgr lang dig fuel rng db d = Ok (Some x) /\ rng <> Some false).
    { unfold parse_lgr in *. destruct rng as [[]|]; [|discriminate|]; (split; [exact (strict_is_tolerant _ _ _ _ _ _ _ H)|discriminate]). }
    destruct R as [R NR]. rewrite R in T. cbn [bind] in T. destruct (populate (ld_lgr x)) as [g [[]|e]] eqn:E; [|discriminate]. injection T as T.
    destruct (read_writable lang dig Hdig Hascii db fuel false d x H P) as [_ [_ [W3 [W4 [W5 [_ [W7 _]]]]]]].
    destruct (populated_writable _ _ _ _ W3 W4 W5 W7 E) as [P1 [P2 [P3 [P4 [P5 P6]]]]].
    destruct (again_with db fuel false d x g H P Q O P1 P2 P3 P4 P5 P6 d' (eq_sym T)) as [x' [X1 [X2 [X3 [X4 [X5 X6]]]]]].
    pose proof (document_reachable _ _ _ _ _ _ _ _ H) as RE. pose proof (document_reachable _ _ _ _ _ _ _ _ X1) as RE'.
    destruct (populate_respects _ _ _ RE E) as [_ [_ [_ [_ [_ [_ [_ [R5 [R6 [_ R8]]]]]]]]]]. destruct (populate_completes _ _ RE E) as [C1 [C2 [C3 C4]]].
    exists x'. split; [exact X1|]. split; [|split; [exact X6|split]].
    - constructor; try assumption.
      + exact (sr_symmetric _ _ X3 C1).
      + exact (sr_transitive _ _ X3 C2).
      + intro a. rewrite (sr_lookup _ _ X3). apply C3.
      + intros a b. rewrite (sr_target _ _ X3). apply C4.
      + intros a ch L. destruct (R5 a ch L) as [c [L1 S1]]. pose proof (X3 a) as S2. rewrite L1 in S2. destruct (lookup (lg_rep (ld_lgr x')) a) as [c'|]; [|contradiction]. exists c'. split; [reflexivity|].
        destruct S2 as [S2 _]. clear - S1 S2. destruct S1 as [? [? [? [? [? [? ?]]]]]], S2 as [? [? [? [? [? [? ?]]]]]]. repeat split; congruence.
      + intros a ch' L N. pose proof (X3 a) as S2. rewrite L in S2. destruct (lookup (lg_rep g) a) as [c|] eqn:L1; [|contradiction]. destruct (R6 a c L1 N) as [S1 _]. destruct S2 as [S2 _].
        clear - S1 S2. destruct S1 as [? [? [? [? [? [? ?]]]]]], S2 as [? [? [? [? [? [? ?]]]]]]. repeat split; congruence.
      + intros a b w M. apply R8. apply (sr_mapping _ _ X3). exact M.
    - intros N a b v M. destruct (populate_keeps_variants _ _ RE N E a b v M) as [w [M1 M2]]. exists w. split; [apply (sr_mapping _ _ X3); exact M1|exact M2].
    - unfold populate_tool.
      assert (R' : parse_lgr lang dig fuel rng db d' = Ok (Some x')) by (unfold parse_lgr; destruct rng as [[]|]; [|congruence|]; exact (strict_is_tolerant _ _ _ _ _ _ _ X1)).
      rewrite R'. cbn [bind]. rewrite (populate_fixed _ RE' (sr_symmetric _ _ X3 C1) (sr_transitive _ _ X3 C2) (sr_both_ways _ _ X3 (populate_rules_both_ways _ _ RE E))). transitivity (Ok (Some (write_document x'))); [destruct x'; reflexivity|rewrite X6; reflexivity].
  Qed.
End Again.

(** ** When the tool prints *)
Section Prints.
  Variable lang : cps -> option bool.
  Variable dig : N -> bool.
  Theorem tool_prints : forall db fuel rng d x, read_document lang dig db fuel false true d = Ok (Some x) -> rng <> Some false -> populatable (ld_lgr x) ->
    exists d', populate_tool lang dig fuel rng db d = Ok (Some d').
  Proof.
    intros db fuel rng d x H N P. destruct (populate_succeeds _ (document_reachable _ _ _ _ _ _ _ _ H) P) as [g E]. unfold populate_tool.
    assert (R : parse_lgr lang dig fuel rng db d = Ok (Some x)) by (unfold parse_lgr; destruct rng as [[]|]; congruence). rewrite R. cbn [bind]. rewrite E. eauto.
  Qed.
  Theorem tool_silent : forall db fuel rng d, populate_tool lang dig fuel rng db d = Ok None <-> rng = Some false \/ read_document lang dig db fuel false true d = Ok None.
  Proof.
    intros db fuel rng d. unfold populate_tool, parse_lgr. destruct rng as [[]|].
    2:{ cbn [bind]. split; [left; reflexivity|reflexivity]. }
    all: destruct (read_document lang dig db fuel false true d) as [[x|]|e]; cbn [bind];
      [destruct (populate (ld_lgr x)) as [g [u|e]]; split; [discriminate|intros [K|K]; discriminate|discriminate|intros [K|K]; discriminate]
      |split; [right; reflexivity|reflexivity]|split; [discriminate|intros [K|K]; discriminate]].
  Qed.
  (** What stops it: what stops reading, or an error of the library. *)
  Theorem tool_errors : forall db fuel rng d e, populate_tool lang dig fuel rng db d = Raise e ->
    rng <> Some false /\ (read_document lang dig db fuel false true d = Raise e \/
      is_lgr_exception e = true /\ exists x, read_document lang dig db fuel false true d = Ok (Some x) /\ ~ populatable (ld_lgr x)).
  Proof.
    intros db fuel rng d e H. assert (N : rng <> Some false) by (intros ->; discriminate). split; [exact N|]. unfold populate_tool in H.
    assert (R : parse_lgr lang dig fuel rng db d = read_document lang dig db fuel false true d) by (unfold parse_lgr; destruct rng as [[]|]; congruence). rewrite R in H.
    destruct (read_document lang dig db fuel false true d) as [[x|]|e'] eqn:Er; cbn [bind] in H; [|discriminate|left; congruence]. right.
    destruct (populate (ld_lgr x)) as [g [u|e']] eqn:E; [discriminate|]. injection H as <-. pose proof (document_reachable _ _ _ _ _ _ _ _ Er) as RE.
    split; [exact (proj1 (proj2 (populate_respects _ _ _ RE E)) e' eq_refl)|]. exists x. split; [reflexivity|]. intro P. destruct (populate_succeeds _ RE P) as [g2 E2]. congruence.
  Qed.
  (** The other tool stops before it reads anything. *)
  Theorem dump_stops : forall fuel register rng d, dump_tool lang dig fuel register rng d = Raise TypeError.
  Proof. reflexivity. Qed.
End Prints.
