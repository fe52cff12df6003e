From Coq Require Import Permutation.
From Verif Require Import Base BaseFacts CharModel RepSpec RepProofs VariantProofs IterProofs VarSetSpec VarSetProofs UtilsModel UtilsSpec UtilsProofs.
From Verif Require Import RefModel RefSpec RefProofs ActionModel LgrModel LgrSpec LgrProofs LgrReach LgrInv LgrRefs LgrTags LgrFinal Rfc7940Model.
From Verif Require Import ValidateModel ValidateSpec ValidateProofs PopulateModel PopulateSpec PopulateProofs MetaModel MetaSpec.
From Verif Require Import CompareModel CompareSpec CompareProofs HarmonizeModel HarmonizeSpec HarmonizeProofs HarmonizeFinal.
From Verif Require Import SerialModel SerialSpec SerialProofs SerialFinal ForceProofs AgainRead.
From Verif Require Import MergeModel MergeProofs MergeSteps MergeLoop MergeSpec MergeRefs MergeFold MergeFinal MergeReadModel MergeReadSpec.
Open Scope string_scope.
Open Scope list_scope.

(** ** Forced reading *)
Lemma collect_force : forall g rf, collect_refs (lg_refs g) true rf = Ok (kept_refs g rf).
Proof.
  intros g rf. destruct (collect_refs_cases g true rf) as [[e [_ [H _]]]|[H _]]; [discriminate|exact H].
Qed.
Definition trim (g : lgr) (v : variant) : variant :=
  mkVariant (v_cp v) (v_type v) (v_when v) (v_not_when v) (v_comment v) (kept_refs g (v_refs v)).
Lemma convert_any : forall g c, shape g -> c <> [] -> check_convert g c = Ok c.
Proof. intros g c [_ [H _]] Hc. unfold check_convert, check_convert_with. rewrite H. destruct c; [congruence|reflexivity]. Qed.

Lemma forced_variant : forall g c ch v, shape g -> lk (lg_rep g) c = Some ch -> v_cp v <> [] -> ~ In (vkey v) (map vkey (get_variants ch)) ->
  exists g' ch', lgr_add_variant g c (v_cp v) (v_type v) (v_when v) (v_not_when v) (v_comment v) (v_refs v) None false true = (g', Ok tt) /\
    shape g' /\ lg_refs g' = lg_refs g /\ (forall x, lk (lg_rep g') x = if cps_eqb x c then Some ch' else lk (lg_rep g) x) /\
    same_entry ch ch' /\ (forall u, In u (get_variants ch') <-> u = trim g v \/ In u (get_variants ch)).
Proof.
  intros g c ch v S El Hv Hk. assert (Hc : c <> []) by (apply (lk_nonempty (lg_rep g)); congruence).
  unfold lgr_add_variant. rewrite (convert_any g c S Hc), (convert_any g _ S Hv). cbn [bind negb andb check_validating].
  rewrite collect_force, andb_false_r. destruct S as [Hwf [Hdb [Hrg Hnr]]].
  unfold rep_add_variant. rewrite get_char_lk by exact Hc. rewrite El. fold (trim g v).
  destruct (add_variant_cases ch (trim g v) (lk_wf _ _ _ Hwf El) (Hnr _ _ El) Hv) as [[X _]|[_ [ch' [Ea Hi]]]]; [contradiction|]. rewrite Ea.
  destruct (char_add_variant_wf _ _ _ (lk_wf _ _ _ Hwf El) Ea) as [Hw Hcp]. pose proof (lk_cp _ _ _ El) as Hcc.
  pose proof (add_variant_same _ _ _ Ea) as Hs.
  assert (Hl : forall x, lk (rep_put (lg_rep g) c ch') x = if cps_eqb x c then Some ch' else lk (lg_rep g) x) by (intro x; apply lk_put; congruence).
  eexists _, ch'. split; [reflexivity|]. cbn [add_type set_rep lg_rep lg_refs]. split; [|auto].
  split; [apply wf_put; auto; congruence|]. split; [exact Hdb|]. cbn [add_type set_rep lg_rep]. split; [rewrite put_ranges; exact Hrg|].
  intros x y Hx. cbn [add_type set_rep lg_rep] in Hx. rewrite Hl in Hx. destruct (cps_eqb x c); [|apply (Hnr _ _ Hx)].
  injection Hx as <-. rewrite (same_entry_range _ _ Hs). apply (Hnr _ _ El).
Qed.
Lemma kept_same : forall g g' rf, lg_refs g' = lg_refs g -> kept_refs g' rf = kept_refs g rf.
Proof. intros g g' rf H. unfold kept_refs. rewrite H. reflexivity. Qed.
Lemma trim_same : forall g g' v, lg_refs g' = lg_refs g -> trim g' v = trim g v.
Proof. intros g g' v H. unfold trim. rewrite (kept_same g g' _ H). reflexivity. Qed.

Lemma add_variant_reached : forall g c v, lgr_reachable g ->
  lgr_reachable (fst (lgr_add_variant g c (v_cp v) (v_type v) (v_when v) (v_not_when v) (v_comment v) (v_refs v) None false true)).
Proof.
  intros g c v H. pose proof (lgr_reachable_step g (LAddVariant c (v_cp v) (v_type v) (v_when v) (v_not_when v) (v_comment v) (v_refs v) None false true) H) as X.
  unfold lgr_step in X. destruct (lgr_add_variant _ _ _ _ _ _ _ _ _ _ _). exact X.
Qed.
Lemma add_cp_reached : forall g c cm rf tg w nw, lgr_reachable g -> lgr_reachable (fst (lgr_add_cp g c cm rf tg w nw None false true)).
Proof.
  intros g c cm rf tg w nw H. pose proof (lgr_reachable_step g (LAddCp c cm rf tg w nw None false true) H) as X.
  unfold lgr_step in X. destruct (lgr_add_cp _ _ _ _ _ _ _ _ _ _). exact X.
Qed.
Lemma forced_vars : forall r c vs g ch, shape g -> lk (lg_rep g) c = Some ch -> (forall v, In v vs -> v_cp v <> [] /\ writable_words (v_refs v)) ->
  NoDup (map vkey vs) -> (forall v, In v vs -> ~ In (vkey v) (map vkey (get_variants ch))) ->
  exists g' ch', process_vars true g r c (map var_elem_of vs) = (g', r, Ok tt) /\ shape g' /\ lg_refs g' = lg_refs g /\
    (forall x, lk (lg_rep g') x = if cps_eqb x c then Some ch' else lk (lg_rep g) x) /\
    same_entry ch ch' /\ (forall u, In u (get_variants ch') <-> In u (get_variants ch) \/ exists v, In v vs /\ u = trim g v) /\ (lgr_reachable g -> lgr_reachable g').
Proof.
  intros r c. induction vs as [|v vs IH]; intros g ch S El Hv Hn Hd.
  - exists g, ch. split; [reflexivity|]. split; [exact S|]. split; [reflexivity|]. split; [|split; [apply same_entry_refl|]].
    + intro x. destruct (cps_eqb x c) eqn:E; auto. apply cps_eqb_eq in E. subst. exact El.
    + split; [|auto]. intro u. split; [auto|]. intros [H|[v [[] _]]]. exact H.
  - cbn [map process_vars]. cbn [map] in Hn. inversion Hn as [|? ? N1 N2]; subst. destruct (Hv v (or_introl eq_refl)) as [Hne Hww].
    unfold var_elem_of at 1 2 3 4 5 6. cbn [ve_cp ve_type ve_when ve_not_when ve_comment ve_ref]. rewrite parse_cps_format, words_roundtrip by exact Hww.
    destruct (forced_variant g c ch v S El Hne (Hd v (or_introl eq_refl))) as [g1 [ch1 [A1 [A2 [A3 [A4 [A5 A6]]]]]]]. rewrite A1. cbn [attempt].
    pose proof (add_variant_reached g c v) as Hr. rewrite A1 in Hr. cbn [fst] in Hr.
    destruct (IH g1 ch1) as [g2 [ch2 [B1 [B2 [B3 [B4 [B5 [B6 B7]]]]]]]]; auto.
    + rewrite A4, cps_eqb_refl. reflexivity.
    + intros u Hu. apply Hv. right. exact Hu.
    + intros u Hu Hk. apply in_map_iff in Hk. destruct Hk as [z [Z1 Z2]]. apply A6 in Z2. destruct Z2 as [->|Z2].
      * apply N1. change (vkey (trim g v)) with (vkey v) in Z1. rewrite Z1. apply in_map. exact Hu.
      * apply (Hd u (or_intror Hu)). rewrite <- Z1. apply in_map. exact Z2.
    + exists g2, ch2. split; [exact B1|]. split; [exact B2|]. split; [congruence|]. split; [|split; [eapply same_entry_trans; eauto|split; [|auto]]].
      * intro x. rewrite B4, A4. destruct (cps_eqb x c); reflexivity.
      * intro u. rewrite B6, A6. split.
        -- intros [[->|H]|[w [W1 ->]]]; [right; exists v; split; [left; reflexivity|reflexivity]|left; exact H|].
           right. exists w. split; [right; exact W1|]. apply trim_same. exact A3.
        -- intros [H|[w [[<-|W1] ->]]]; [left; right; exact H|left; left; reflexivity|]. right. exists w. split; [exact W1|]. symmetry. apply trim_same. exact A3.
Qed.

Lemma forced_char : forall g c cm rf tg w nw, shape g -> c <> [] -> lk (lg_rep g) c = None ->
  exists g', lgr_add_cp g c cm rf tg w nw None false true = (g', Ok tt) /\ shape g' /\ lg_refs g' = lg_refs g /\
    forall x, lk (lg_rep g') x = if cps_eqb x c then Some (mkChar c (kind_of c) cm (kept_refs g rf) tg w nw []) else lk (lg_rep g) x.
Proof.
  intros g c cm rf tg w nw S Hc El. unfold lgr_add_cp. rewrite (convert_any g c S Hc). cbn [negb andb check_validating]. rewrite collect_force, !andb_false_r.
  rewrite rep_add_char_lk by exact Hc. rewrite El. destruct S as [Hwf [Hdb [Hrg Hnr]]].
  set (e := mkChar c (kind_of c) cm (kept_refs g rf) tg w nw []).
  assert (Hl : forall x, lk (ins (lg_rep g) e) x = if cps_eqb x c then Some e else lk (lg_rep g) x) by (intro x; apply lk_ins; [exact Hc|exact El]).
  eexists. split; [reflexivity|]. cbn [add_cp_to_tag_classes set_rep lg_rep lg_refs]. split; [|auto]. split; [|split; [exact Hdb|split]].
  - apply wf_ins; auto. split; [split; [constructor|intros k l []]|]. unfold e. cbn [ch_kind ch_cp]. destruct c as [|x [|y t]]; [congruence| |]; cbn [kind_of]; eauto.
  - cbn [add_cp_to_tag_classes set_rep lg_rep]. unfold ins. destruct (ch_cp e); exact Hrg.
  - intros x y Hx. cbn [add_cp_to_tag_classes set_rep lg_rep] in Hx. rewrite Hl in Hx. destruct (cps_eqb x c); [|apply (Hnr _ _ Hx)].
    injection Hx as <-. destruct c as [|a [|b t]]; reflexivity.
Qed.

Record written (ch : char) : Prop := {
  wr_wf : wf_char ch;
  wr_one : is_range ch = false;
  wr_refs : writable_words (ch_refs ch);
  wr_tags : writable_words (ch_tags ch);
  wr_vars : forall v, In v (get_variants ch) -> writable_words (v_refs v)
}.
Definition head_of (g : lgr) (ch : char) : char :=
  mkChar (ch_cp ch) (ch_kind ch) (ch_comment ch) (kept_refs g (ch_refs ch)) (ch_tags ch) (ch_when ch) (ch_not_when ch) [].
Definition taken (g : lgr) (ch ch' : char) : Prop :=
  same_entry (head_of g ch) ch' /\ forall u, In u (get_variants ch') <-> exists v, In v (get_variants ch) /\ u = trim g v.
Lemma taken_same : forall g g' ch ch', lg_refs g' = lg_refs g -> taken g' ch ch' -> taken g ch ch'.
Proof.
  intros g g' ch ch' H [A B]. split; [unfold head_of in *; rewrite (kept_same g g' _ H) in A; exact A|].
  intro u. rewrite B. split; intros [v [V1 V2]]; exists v; rewrite (trim_same g g' _ H) in *; auto.
Qed.
Lemma forced_loop : forall l g r prev, shape g -> (forall ch, In ch l -> written ch) -> NoDup (map ch_cp l) -> (forall ch, In ch l -> lk (lg_rep g) (ch_cp ch) = None) ->
  exists g' r', process_data_loop true g r prev (map data_elem_of l) = (g', r', Ok tt) /\ shape g' /\ lg_refs g' = lg_refs g /\
    (forall ch, In ch l -> exists ch', lk (lg_rep g') (ch_cp ch) = Some ch' /\ taken g ch ch') /\
    (forall x, ~ In x (map ch_cp l) -> lk (lg_rep g') x = lk (lg_rep g) x) /\ (lgr_reachable g -> lgr_reachable g').
Proof.
  induction l as [|ch l IH]; intros g r prev S Hw Hn Hf.
  - exists g, r. split; [reflexivity|]. split; [exact S|]. split; [reflexivity|]. split; [intros ? []|auto].
  - cbn [map] in Hn. inversion Hn as [|? ? N1 N2]; subst. destruct (Hw ch (or_introl eq_refl)) as [W1 W2 W3 W4 W5].
    destruct (plain_kind ch W1 W2) as [Hk Hne].
    destruct (forced_char g (ch_cp ch) (ch_comment ch) (ch_refs ch) (ch_tags ch) (ch_when ch) (ch_not_when ch) S Hne (Hf ch (or_introl eq_refl))) as [g1 [A1 [A2 [A3 A4]]]].
    rewrite <- Hk in A4. fold (head_of g ch) in A4.
    destruct (forced_vars (check_order prev (ch_cp ch) r) (ch_cp ch) (get_variants ch) g1 (head_of g ch) A2) as [g2 [ch2 [B1 [B2 [B3 [B4 [B5 [B6 B7]]]]]]]].
    + rewrite A4, cps_eqb_refl. reflexivity.
    + intros v Hv. split; [eapply variant_cp_nonempty; eauto|apply W5; exact Hv].
    + apply get_variants_NoDup. exact W1.
    + intros v Hv [].
    + assert (T : taken g ch ch2).
      { split; [exact B5|]. intro u. rewrite B6. split; [intros [[]|[v [V1 V2]]]|intros [v [V1 V2]]; right]; exists v; (split; [exact V1|]); rewrite V2; [|symmetry]; apply trim_same; exact A3. }
      destruct (IH g2 (check_order prev (ch_cp ch) r) (ch_cp ch) B2) as [g' [r' [C1 [C2 [C3 [C4 [C5 C6]]]]]]].
      * intros x Hx. apply Hw. right. exact Hx.
      * exact N2.
      * intros x Hx. rewrite B4, A4. destruct (cps_eqb (ch_cp x) (ch_cp ch)) eqn:E; [|apply Hf; right; exact Hx].
        apply cps_eqb_eq in E. exfalso. apply N1. rewrite <- E. apply in_map. exact Hx.
      * exists g', r'. split; [|split; [exact C2|split; [congruence|split; [|split]]]].
        -- assert (E : data_elem_of ch = DChar (format_cp_attr (ch_cp ch)) (attrs_of ch) (map var_elem_of (get_variants ch))).
           { unfold data_elem_of. unfold is_range in W2. destruct (ch_kind ch); [reflexivity|reflexivity|discriminate]. }
           cbn [map]. rewrite E. cbn [process_data_loop]. rewrite parse_cps_format. unfold attrs_of. cbn [at_comment at_when at_not_when at_ref at_tag].
           rewrite !words_roundtrip by assumption. rewrite A1. cbn [attempt]. rewrite B1. exact C1.
        -- intros x [<-|Hx].
           ++ exists ch2. split; [|exact T]. rewrite C5 by exact N1. rewrite B4, cps_eqb_refl. reflexivity.
           ++ destruct (C4 x Hx) as [x' [X1 X2]]. exists x'. split; [exact X1|]. eapply taken_same; [|exact X2]. congruence.
        -- intros x Hx. cbn [map In] in Hx. rewrite C5 by tauto. rewrite B4, A4. destruct (cps_eqb x (ch_cp ch)) eqn:E; [|reflexivity].
           apply cps_eqb_eq in E. exfalso. apply Hx. auto.
        -- intro Hr. apply C6, B7. pose proof (add_cp_reached g (ch_cp ch) (ch_comment ch) (ch_refs ch) (ch_tags ch) (ch_when ch) (ch_not_when ch) Hr) as X. rewrite A1 in X. exact X.
Qed.

Lemma kept_defined : forall g R rf, rm_refs R = rm_refs (lg_refs g) -> forall g0, lg_refs g0 = R -> defined_of g rf (kept_refs g0 rf).
Proof.
  intros g R rf H g0 H0. unfold defined_of, kept_refs. apply filter_ext. intro a. unfold text_in, dmem. rewrite H0, H. destruct (dget String.eqb a _); reflexivity.
Qed.
Section Doc.
  Variable lang_check : cps -> option bool.
  Variable dig : N -> bool.
  Hypothesis dot_nodig : dig 46 = false.

  Lemma shape_start : forall R, shape (set_refs (new_lgr None false) R).
  Proof. intro R. split; [apply wf_empty|]. split; [reflexivity|]. split; [reflexivity|]. intros c ch H. destruct c; discriminate. Qed.

  Theorem read_back : forall m g, meta_writable lang_check dig m -> shape g -> (forall c ch, lk (lg_rep g) c = Some ch -> written ch) ->
    ref_tidy (set_refs (new_lgr None false) (lg_refs g)) -> comments_writable (lg_refs g) ->
    exists m' g', read_again lang_check dig m g = Ok (m', g') /\ same_metadata m m' /\ read_as g g' /\ shape g' /\ lgr_reachable g'.
  Proof.
    intros m g Hm S Hw Ht Hc.
    destruct (meta_roundtrip lang_check dig dot_nodig m (set_refs (new_lgr None false) (lg_refs g)) None false Hm Ht Hc) as [m1 [rm [E1 [E2 [E3 [E4 _]]]]]].
    cbn [set_refs lg_refs] in E1, E3.
    destruct (shape_iter g S) as [I1 [I2 I3]].
    destruct (forced_loop (rep_iter (lg_rep g)) (set_refs (new_lgr None false) rm) (md_checks m1) [] (shape_start rm)) as [g' [r' [A1 [A2 [A3 [A4 [A5 A6]]]]]]].
    - intros ch Hch. apply (Hw (ch_cp ch)). apply I3. exact Hch.
    - exact I1.
    - intros ch _. destruct (ch_cp ch); reflexivity.
    - unfold read_again, parse_document, serialize_lgr. cbn [x_meta x_data].
      assert (E1' : process_meta lang_check dig true (serialize_meta m (lg_refs g)) = (m1, rm, Ok tt)) by (apply meta_forced; exact E1).
      rewrite E1'. unfold process_data, serialize_data. rewrite A1. eexists _, g'. split; [reflexivity|]. split; [exact E2|]. split; [|split; [exact A2|apply A6; exact E4]].
      split; [rewrite A3; exact E3|]. intro c. rewrite !lookup_lk. destruct (lk (lg_rep g) c) as [ch|] eqn:El.
      + pose proof (lk_cp _ _ _ El) as Hcp. destruct (A4 ch) as [ch' [B1 [B2 B3]]]; [apply I3; congruence|]. rewrite Hcp in B1. rewrite B1.
        destruct B2 as [C1 [C2 [C3 [C4 [C5 [C6 C7]]]]]]. cbn [head_of ch_cp ch_kind ch_comment ch_refs ch_tags ch_when ch_not_when] in *.
        assert (Hv : forall v, read_variant g v (trim (set_refs (new_lgr None false) rm) v)).
        { intro v. repeat split. cbn [trim v_refs]. eapply kept_defined; [exact E3|reflexivity]. }
        constructor; auto.
        * rewrite C4. eapply kept_defined; [exact E3|reflexivity].
        * intros u Hu. apply B3 in Hu. destruct Hu as [v [V1 ->]]. exists v. auto.
        * intros v V. exists (trim (set_refs (new_lgr None false) rm) v). split; [apply B3; eauto|auto].
      + rewrite A5; [destruct c; exact I|]. intro X. apply (I2 c); [exact X|exact El].
  Qed.
End Doc.
