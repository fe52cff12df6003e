(** The whole review: classes, completion, summary and what a match means. *)
From Coq Require Import Lia.
From Verif Require Import Base BaseFacts CharModel RepSpec RepProofs VarSetProofs StatsNamed ActionModel LgrModel LgrSpec LgrProofs LgrReach CompareModel.
From Verif Require Import ValidateModel ValidateSpec ValidateProofs LabelSpec ClassModel ReviewModel ReviewSpec ReviewSummary ReviewRepertoire ReviewSets ReviewPairing ReviewSelf ReviewRules ReviewWitness.
From Verif Require Import CompareProofs LangModel LangSpec LangProofs GeneralModel GeneralProofs WholeModel WholeSpec WholeVariants WholeChecks.
Open Scope string_scope.
Open Scope list_scope.

(** ** Classes *)
Lemma single_points_In : forall r c, wf_rep r -> (In c (single_points r) <-> point r c).
Proof.
  intros r c Hr. unfold single_points, point. rewrite in_flat_map. unfold all_repertoire. split.
  - intros (ch & Hin & Hc). apply filter_In in Hin. destruct Hin as [Hin Hk]. change (flat_map snd (rep_chars r)) with (all_chars r) in Hin.
    apply in_all_chars_lk in Hin; [|exact Hr]. pose proof (lk_wf _ _ _ Hr Hin) as Hw.
    destruct (ch_cp ch) as [|x t] eqn:Ec; [destruct Hc|]. destruct Hc as [-> | []].
    destruct t as [|y t]; [rewrite lookup_lk; congruence|].
    exfalso. unfold is_seq in Hk. destruct Hw as [_ Hw]. destruct (ch_kind ch) as [| |f l].
    + destruct Hw as (z & Hw). congruence.
    + discriminate Hk.
    + destruct Hw as (_ & (z & Hw & _) & _). congruence.
  - intros L. rewrite lookup_lk in L. destruct (lk r [c]) as [ch|] eqn:E; [|contradiction]. pose proof (lk_cp _ _ _ E) as Ec.
    exists ch. split; [|rewrite Ec; left; reflexivity]. apply filter_In. split; [apply (in_all_chars_lk r ch Hr); rewrite Ec; exact E|].
    pose proof (lk_wf _ _ _ Hr E) as [_ Hw]. unfold is_seq. destruct (ch_kind ch) as [| |f l]; [|destruct Hw as (? & ? & ? & Hw); congruence|];
    cbn [andb negb]; rewrite Bool.andb_false_r; reflexivity.
Qed.
Section Classes.
  Variable runtime : exn -> bool.
  Variable fuel : nat.
  Definition content (u : ClassModel.unidb) (t : idn_table) (n : string) : list N :=
    match dget String.eqb n (it_classes t) with
    | Some (false, k) => match class_set u (look_of (it_classes t)) fuel k with Ok s => filter s (single_points (it_rep t)) | Raise _ => [] end
    | _ => []
    end.
  Lemma content_member : forall u t n c, it_db t = Some u -> wf_rep (it_rep t) -> (In c (content u t n) <-> member fuel t n c).
  Proof.
    intros u t n c Hu Hr. unfold content, member, defines. destruct (dget String.eqb n (it_classes t)) as [[[|] k]|].
    - split; [intros [] | intros (u' & k' & s & _ & E & _); discriminate E].
    - split.
      + intros H. destruct (class_set u (look_of (it_classes t)) fuel k) as [s|e] eqn:E; [|destruct H]. apply filter_In in H. destruct H as [H Hs].
        exists u, k, s. split; [exact Hu|]. split; [reflexivity|]. split; [exact E|]. split; [exact Hs|]. apply single_points_In; assumption.
      + intros (u' & k' & s & Hu' & E & E' & Hs & Hp). rewrite Hu in Hu'. injection Hu' as <-. injection E as <-. rewrite E'. apply filter_In.
        split; [apply single_points_In; assumption | exact Hs].
    - split; [intros [] | intros (u' & k' & s & _ & E & _); discriminate E].
  Qed.
  Lemma class_members_ok : forall u t names, (forall n, In n names -> In n (dkeys (it_classes t))) ->
    (forall n k e, defines t n k -> class_set u (look_of (it_classes t)) fuel k = Raise e -> runtime e = true) ->
    exists d, class_members runtime fuel u (it_classes t) (single_points (it_rep t)) names = Ok d.
  Proof.
    intros u t. induction names as [|n names IH]; intros Hn Hc; [eexists; reflexivity|]. cbn [class_members].
    destruct (IH (fun x Hx => Hn x (or_intror Hx)) Hc) as (d & Ed).
    destruct (dget String.eqb n (it_classes t)) as [[[|] k]|] eqn:E.
    - exists d. exact Ed.
    - assert (M : exists l, members_of runtime fuel u (it_classes t) (single_points (it_rep t)) k = Ok l).
      { unfold members_of. destruct (class_set u (look_of (it_classes t)) fuel k) as [s|e] eqn:Es; [eexists; reflexivity|]. rewrite (Hc n k e E Es). eexists. reflexivity. }
      destruct M as (l & ->). cbn [bind]. rewrite Ed. cbn [bind]. eexists. reflexivity.
    - exfalso. apply (dget_None _ string_eqb_iff _ _) in E. apply E, Hn. left. reflexivity.
  Qed.
  Lemma class_members_are : forall u t names d, class_members runtime fuel u (it_classes t) (single_points (it_rep t)) names = Ok d ->
    (forall n, In n (dkeys d) <-> In n names /\ exists k, defines t n k) /\ (forall n, In n (dkeys d) -> members_at d n = content u t n).
  Proof.
    intros u t. induction names as [|n names IH]; intros d E; cbn [class_members] in E.
    - injection E as <-. split; [intros n; split; [intros [] | intros [[] _]] | intros n []].
    - unfold defines in *. destruct (dget String.eqb n (it_classes t)) as [[[|] k]|] eqn:En; [| |discriminate E].
      + destruct (IH d E) as (A & B). split; [|exact B]. intros m. rewrite A. split; [intros [H1 H2]; split; [right; exact H1 | exact H2]|].
        intros [[<- | H] (k' & H2)]; [congruence | split; [exact H | exists k'; exact H2]].
      + destruct (members_of runtime fuel u (it_classes t) (single_points (it_rep t)) k) as [l|e] eqn:El; [|discriminate E]. cbn [bind] in E.
        destruct (class_members runtime fuel u (it_classes t) (single_points (it_rep t)) names) as [d0|e] eqn:Ed; [|discriminate E]. injection E as <-.
        destruct (IH d0 eq_refl) as (A & B).
        assert (C : l = content u t n).
        { unfold content. rewrite En. unfold members_of in El. destruct (class_set u (look_of (it_classes t)) fuel k) as [s|e]; [congruence|]. destruct (runtime e); [congruence | discriminate El]. }
        split.
        * intros m. cbn [dkeys map fst In]. fold (dkeys d0). rewrite A. split.
          -- intros [<- | [H1 H2]]; [split; [left; reflexivity | exists k; exact En] | split; [right; exact H1 | exact H2]].
          -- intros [[<- | H] H2]; [left; reflexivity | right; auto].
        * intros m Hm. unfold members_at. cbn [dget]. destruct (String.eqb m n) eqn:Em; [apply String.eqb_eq in Em; subst m; exact C|].
          cbn [dkeys map fst In] in Hm. destruct Hm as [Hm | Hm]; [subst m; rewrite String.eqb_refl in Em; discriminate Em | exact (B m Hm)].
  Qed.
  Lemma members_content : forall u t d n, class_members runtime fuel u (it_classes t) (single_points (it_rep t)) (isort class_leb (dkeys (it_classes t))) = Ok d ->
    members_at d n = content u t n.
  Proof.
    intros u t d n E. destruct (class_members_are _ _ _ _ E) as (A & B). destruct (in_dec string_dec n (dkeys d)) as [H | H]; [exact (B n H)|].
    unfold members_at. rewrite (proj2 (dget_None _ string_eqb_iff n d) H). unfold content. destruct (dget String.eqb n (it_classes t)) as [[[|] k]|] eqn:En; [reflexivity| |reflexivity].
    exfalso. apply H, A. split; [|exists k; exact En]. apply isort_In. apply (dget_In _ string_eqb_iff) in En. apply in_map_iff. exists (n, (false, k)). auto.
  Qed.
  Lemma content_points : forall u t n, incl (content u t n) (single_points (it_rep t)).
  Proof.
    intros u t n c H. unfold content in H. destruct (dget String.eqb n (it_classes t)) as [[[|] k]|]; [destruct H| |destruct H].
    destruct (class_set u (look_of (it_classes t)) fuel k); [apply filter_In in H; apply H | destruct H].
  Qed.
  Lemma class_lines_ok : forall names i r ir rr, (forall n, incl (members_at i n) ir) -> (forall n, incl (members_at r n) rr) ->
    exists l, class_lines names i r ir rr = Ok l /\
      forall x, In x l <-> exists n p, In n names /\ class_report (members_at i n) (members_at r n) ir rr = Ok (Some p) /\ x = mkClassLine n (members_at i n) (members_at r n) p.
  Proof.
    intros names i r ir rr Hi Hr. induction names as [|n names (l & E & IH)]; [exists []; split; [reflexivity|]; intros x; split; [intros [] | intros (n & p & [] & _)]|].
    cbn [class_lines]. assert (Q : exists o, class_report (members_at i n) (members_at r n) ir rr = Ok o).
    { destruct (class_cases _ _ ir rr (Hi n) (Hr n)) as [(_ & _ & ->) | (q & m & -> & _)]; eexists; reflexivity. }
    destruct Q as (o & Eo). rewrite Eo, E. cbn [bind]. eexists. split; [reflexivity|]. intros x. destruct o as [p|].
    - cbn [In]. rewrite IH. split.
      + intros [<- | (m & q & Hm & H)]; [exists n, p; split; [left; reflexivity|]; split; [exact Eo | reflexivity] | exists m, q; split; [right; exact Hm | exact H]].
      + intros (m & q & [<- | Hm] & H1 & H2); [left; rewrite Eo in H1; injection H1 as <-; congruence | right; exists m, q; auto].
    - rewrite IH. split.
      + intros (m & q & Hm & H). exists m, q. split; [right; exact Hm | exact H].
      + intros (m & q & [<- | Hm] & H1 & H2); [congruence | exists m, q; auto].
  Qed.
  (** The report on classes, when evaluating them does not stop it. *)
  Lemma classes_are : forall idn ref, wf_rep (it_rep idn) -> wf_rep (it_rep ref) -> classes_fine runtime fuel idn -> classes_fine runtime fuel ref ->
    exists l, classes_report runtime fuel idn ref = Ok l /\
    (forall x, In x l -> (exists k, defines idn (kl_name x) k \/ defines ref (kl_name x) k) /\
       (forall c, In c (kl_idn x) <-> member fuel idn (kl_name x) c) /\ (forall c, In c (kl_ref x) <-> member fuel ref (kl_name x) c) /\
       (fst (kl_result x) = RMatch <-> forall c, member fuel idn (kl_name x) c <-> member fuel ref (kl_name x) c)) /\
    (forall n, (exists c, member fuel idn n c) \/ (exists c, member fuel ref n c /\ point (it_rep idn) c) <-> In n (map kl_name l)).
  Proof.
    intros idn ref Wi Wr (ui & Di & Fi) (ur & Dr & Fr). unfold classes_report, table_members. rewrite Di, Dr.
    destruct (class_members_ok ui idn (isort class_leb (dkeys (it_classes idn))) (fun n H => proj1 (isort_In _ _ _) H) Fi) as (di & Ei).
    destruct (class_members_ok ur ref (isort class_leb (dkeys (it_classes ref))) (fun n H => proj1 (isort_In _ _ _) H) Fr) as (dr & Er).
    rewrite Ei, Er. cbn [bind fst snd].
    assert (Mi : forall n, members_at di n = content ui idn n) by (intros n; exact (members_content _ _ _ n Ei)).
    assert (Mr : forall n, members_at dr n = content ur ref n) by (intros n; exact (members_content _ _ _ n Er)).
    destruct (class_lines_ok (isort class_leb (set_union String.eqb (dkeys di) (dkeys dr))) di dr (single_points (it_rep idn)) (single_points (it_rep ref))) as (l & -> & Hl).
    { intros n. rewrite Mi. apply content_points. } { intros n. rewrite Mr. apply content_points. }
    exists l. split; [reflexivity|]. destruct (class_members_are _ _ _ _ Ei) as (Ki & _). destruct (class_members_are _ _ _ _ Er) as (Kr & _).
    assert (Nm : forall n, In n (isort class_leb (set_union String.eqb (dkeys di) (dkeys dr))) <-> exists k, defines idn n k \/ defines ref n k).
    { intros n. rewrite isort_In, (set_union_In _ string_eqb_iff), Ki, Kr. split.
      - intros [(_ & k & H) | (_ & k & H)]; exists k; auto.
      - intros (k & [H | H]); [left | right]; (split; [|exists k; exact H]); apply isort_In; apply (dget_In _ string_eqb_iff) in H; apply in_map_iff; exists (n, (false, k)); auto. }
    assert (Cases : forall n, (content ui idn n = [] /\ (forall x, In x (content ur ref n) -> ~ In x (single_points (it_rep idn))) /\ class_report (members_at di n) (members_at dr n) (single_points (it_rep idn)) (single_points (it_rep ref)) = Ok None) \/
      exists p, class_report (members_at di n) (members_at dr n) (single_points (it_rep idn)) (single_points (it_rep ref)) = Ok (Some p) /\
        (content ui idn n <> [] \/ exists x, In x (content ur ref n) /\ In x (single_points (it_rep idn))) /\ (fst p = RMatch <-> same_set (content ui idn n) (content ur ref n))).
    { intros n. rewrite Mi, Mr. destruct (class_cases _ _ _ _ (content_points ui idn n) (content_points ur ref n)) as [H | (q & m & E & Hne & H)]; [left; exact H|].
      right. exists (q, m). split; [exact E|]. split; [exact Hne|]. cbn [fst]. split.
      - intros ->. destruct H as [[_ H] | [[H _] | [[H _] | [H _]]]]; [exact H | discriminate H ..].
      - intros Hs. destruct H as [[H _] | [[_ [_ [_ H]]] | [[_ [_ [_ [_ [_ H]]]]] | [_ [[_ H] | [_ H]]]]]].
        + exact H.
        + exfalso. destruct H as [(x & A & B & _) | (x & A & B & _)]; apply B, Hs, A.
        + contradiction.
        + contradiction.
        + exfalso. apply H. intros x Hx. apply Hs, Hx. }
    split.
    - intros x Hx. apply Hl in Hx. destruct Hx as (n & p & Hn & Ep & ->). cbn [kl_name kl_idn kl_ref kl_result]. rewrite Mi, Mr.
      split; [apply Nm; exact Hn|]. split; [intros c; apply content_member; assumption|]. split; [intros c; apply content_member; assumption|].
      destruct (Cases n) as [(_ & _ & E) | (p' & E & _ & H)]; rewrite Ep in E; [discriminate E|]. injection E as <-. rewrite H.
      unfold same_set. split; intros K c; [rewrite <- (content_member ui), <- (content_member ur) by assumption | rewrite (content_member ui), (content_member ur) by assumption]; apply K.
    - intros n. rewrite in_map_iff. split.
      + intros H. assert (Def : exists k, defines idn n k \/ defines ref n k).
        { destruct H as [(c & u & k & s & _ & H & _) | (c & (u & k & s & _ & H & _) & _)]; exists k; auto. }
        destruct (Cases n) as [(E1 & E2 & _) | (p & E & _)].
        * exfalso. destruct H as [(c & H) | (c & H & Hp)].
          -- apply (content_member ui) in H; [|assumption|assumption]. rewrite E1 in H. destruct H.
          -- apply (content_member ur) in H; [|assumption|assumption]. apply (E2 c H). apply single_points_In; assumption.
        * eexists. split; [|apply Hl; exists n, p; split; [apply Nm; exact Def|]; split; [exact E | reflexivity]]. reflexivity.
      + intros (x & <- & Hx). apply Hl in Hx. destruct Hx as (n & p & Hn & Ep & ->). cbn [kl_name].
        destruct (Cases n) as [(_ & _ & E) | (p' & E & H & _)]; [congruence|].
        destruct H as [H | (c & H1 & H2)].
        * left. destruct (content ui idn n) as [|c t] eqn:Ec; [contradiction|]. exists c. apply (content_member ui); [assumption | assumption|]. rewrite Ec. left. reflexivity.
        * right. exists c. split; [apply (content_member ur); assumption | apply single_points_In; assumption].
  Qed.
End Classes.

(** ** The parts of the review *)
Lemma bind_ok : forall {A B} (x : res A) (f : A -> res B) y, bind x f = Ok y -> exists a, x = Ok a /\ f a = Ok y.
Proof. intros A B [a|e] f y H; [exists a; auto | discriminate H]. Qed.
Record parts (o : world) (idn ref : idn_table) (w : whole) (s : summary) : Prop := mkParts {
  pt_rows : exists rows, variant_sets_report (wo_variants o) (wo_cps o) (it_rep idn) (it_rep ref) = Ok rows /\
    all_checks (it_rep idn) rows = Ok (wh_checks w) /\ wh_variants w = map (noticed (wo_shown o) (it_rep idn)) rows;
  pt_tags : wh_tags w = language_tag_report (wo_tags o) (wo_alpha2 o) (it_languages idn) (it_languages ref);
  pt_repertoire : wh_repertoire w = repertoire_report (wo_strings o) (it_rep idn) (it_rep ref);
  pt_classes : classes_report (wo_runtime o) (wo_fuel o) idn ref = Ok (wh_classes w);
  pt_general : table_general (wo_digit o) (wo_mark o) (wo_rtl o) (wo_script_rtl o) (wo_test o) (wo_tags o) (it_rep idn) (it_languages idn) (Some (it_languages ref)) = Ok (wh_general w);
  pt_rules : wh_rules w = wle_report (it_rep idn) (it_rep ref) (it_rules idn) (it_rules ref);
  pt_actions : wh_actions w = fst (actions_report (it_actions idn) (it_actions ref));
  pt_sequence : wh_sequence w = snd (actions_report (it_actions idn) (it_actions ref));
  pt_summary : generate_summary w = Ok s }.
Lemma review_parts : forall o idn ref w s, review_lgr o idn ref = Ok (w, s) -> parts o idn ref w s.
Proof.
  intros o idn ref w s E. unfold review_lgr in E. cbv zeta in E.
  apply bind_ok in E. destruct E as (x1 & _ & E). apply bind_ok in E. destruct E as (rows & Er & E). apply bind_ok in E. destruct E as (ch & Ec & E).
  apply bind_ok in E. destruct E as (x2 & _ & E). apply bind_ok in E. destruct E as (cl & Ek & E). apply bind_ok in E. destruct E as (ge & Eg & E).
  apply bind_ok in E. destruct E as (s' & Es & E). injection E as <- <-.
  constructor; cbn [wh_tags wh_repertoire wh_variants wh_checks wh_classes wh_rules wh_general wh_actions wh_sequence]; try reflexivity; try assumption.
  exists rows. auto.
Qed.
Lemma handled : forall l p, handle_report (as_named l) = Ok p -> sums_up p l.
Proof.
  intros l [q rows] E. change (as_named l) with (named l) in E. destruct (summary_overall l) as (r & rows' & E' & W). rewrite E in E'. injection E' as -> ->.
  destruct (summary_exact _ _ _ E) as (A & B & C). split; [exists r; split; [reflexivity | exact W]|]. split; [exact A|]. split; [exact B | exact C].
Qed.
Lemma summary_parts : forall w s, generate_summary w = Ok s ->
  sums_up (su_tags s) (tag_lines w) /\ sums_up (su_repertoire s) (cp_lines w) /\ sums_up (su_variants s) (variant_lines w) /\
  sums_up (su_classes s) (class_results w) /\ sums_up (su_rules s) (rule_lines w) /\ sums_up (su_actions s) (action_lines w).
Proof.
  intros w s E. unfold generate_summary in E. do 6 (apply bind_ok in E; destruct E as (? & ? & E)). injection E as <-.
  cbn [su_tags su_repertoire su_variants su_classes su_rules su_actions]. repeat (split; [apply handled; assumption|]). apply handled. assumption.
Qed.
Lemma summary_total : forall w, exists s, generate_summary w = Ok s.
Proof.
  intros w. unfold generate_summary.
  repeat match goal with |- context [handle_report (as_named ?l)] => let H := fresh in destruct (summary_overall l) as (? & ? & H & _); change (named l) with (as_named l) in H; rewrite H; clear H; cbn [bind] end.
  eexists. reflexivity.
Qed.
Lemma overall_match : forall p l, sums_up p l -> (overall p RMatch <-> forall x, In x l -> fst x = RMatch).
Proof.
  intros p l ((r & Ho & W) & _). unfold overall in *. rewrite Ho. split.
  - intros E x Hx. apply name_inj in E. subst r. destruct W as [W _]. specialize (W x Hx). destruct (fst x); [reflexivity | cbn in W; lia ..].
  - intros H. f_equal. destruct W as [_ [W | (x & Hx & <-)]]; [exact W | exact (H x Hx)].
Qed.

(** ** What a match means *)
Section Meaning.
  Variable o : world.
  Variables idn ref : idn_table.
  Hypothesis Os : any_order (wo_strings o).
  Hypothesis Ov : any_order (wo_variants o).
  Hypothesis Oc : any_order (wo_cps o).
  Hypothesis Ri : lgr_reachable (it_lgr idn).
  Hypothesis Rr : lgr_reachable (it_lgr ref).
  Variable w : whole.
  Variable s : summary.
  Hypothesis E : review_lgr o idn ref = Ok (w, s).
  Let P := review_parts o idn ref w s E.
  Let S := summary_parts w s (pt_summary _ _ _ _ _ P).
  Let Wi : wf_rep (it_rep idn) := lgr_reachable_wf _ Ri.
  Let Wr : wf_rep (it_rep ref) := lgr_reachable_wf _ Rr.
  Lemma tags_match : overall (su_tags s) RMatch <->
    (it_languages idn = [] -> it_languages ref = []) /\
    forall t r, In t (it_languages idn) -> In r (it_languages ref) -> exists m, compared_to (wo_tags o) (wo_alpha2 o) t r (RMatch, m).
  Proof.
    destruct S as (A & _). rewrite (overall_match _ _ A). unfold tag_lines. rewrite (pt_tags _ _ _ _ _ P). unfold language_tag_report.
    destruct (it_languages idn) as [|t0 ts] eqn:Et.
    - split.
      + intros H. split; [|intros ? ? []]. intros _. destruct (it_languages ref) as [|r rs]; [reflexivity|]. exfalso.
        assert (X : In (RManual, in_comment) (flat_map (fun r0 : cps * list (cps * (review * string)) => map snd (snd r0)) [tag_report (wo_tags o) (wo_alpha2 o) None (r :: rs)])).
        { apply in_flat_map. eexists. split; [left; reflexivity|]. apply in_map_iff. exists (r, (RManual, in_comment)). split; [reflexivity|].
          cbn [tag_report snd]. apply isort_In. left. reflexivity. }
        specialize (H _ X). discriminate H.
      + intros (H & _). rewrite (H eq_refl). intros x [].
    - split.
      + intros H. split; [intros X; discriminate X|]. intros t r Ht Hr.
        assert (X : In (compare_with_tag (wo_tags o) (wo_alpha2 o) (Some t) r) (flat_map (fun r0 : cps * list (cps * (review * string)) => map snd (snd r0)) (map (fun t1 => tag_report (wo_tags o) (wo_alpha2 o) (Some t1) (it_languages ref)) (isort cps_leb (t0 :: ts))))).
        { apply in_flat_map. exists (tag_report (wo_tags o) (wo_alpha2 o) (Some t) (it_languages ref)). split; [apply in_map_iff; exists t; split; [reflexivity | apply isort_In; exact Ht]|].
          apply in_map_iff. exists (r, compare_with_tag (wo_tags o) (wo_alpha2 o) (Some t) r). split; [reflexivity|]. cbn [tag_report snd]. apply isort_In.
          apply in_map_iff. exists r. auto. }
        specialize (H _ X). destruct (compare_with_tag (wo_tags o) (wo_alpha2 o) (Some t) r) as [q m] eqn:Ec. cbn in H. subst q. exists m. apply compare_iff. exact Ec.
      + intros (_ & H) x Hx. apply in_flat_map in Hx. destruct Hx as (y & Hy & Hx). apply in_map_iff in Hy. destruct Hy as (t & <- & Ht). apply isort_In in Ht.
        apply in_map_iff in Hx. destruct Hx as ((r & v) & <- & Hx). cbn [tag_report snd] in Hx |- *. apply isort_In in Hx. apply in_map_iff in Hx. destruct Hx as (r' & Er & Hr).
        assert (E1 : fst (r', compare_with_tag (wo_tags o) (wo_alpha2 o) (Some t) r') = r) by (rewrite Er; reflexivity).
        assert (E2 : snd (r', compare_with_tag (wo_tags o) (wo_alpha2 o) (Some t) r') = v) by (rewrite Er; reflexivity).
        cbv [fst snd] in E1, E2. subst r v. destruct (H t r' Ht Hr) as (m & Hm). apply compare_iff in Hm. change (fst (compare_with_tag (wo_tags o) (wo_alpha2 o) (Some t) r') = RMatch). rewrite Hm. reflexivity.
  Qed.
  Lemma repertoire_match : overall (su_repertoire s) RMatch <->
    forall c, match lookup (it_rep idn) c, lookup (it_rep ref) c with
              | None, None => True
              | Some a, Some b => same_code_point a b
              | _, _ => False
              end.
  Proof.
    destruct S as (_ & A & _). rewrite (overall_match _ _ A). unfold cp_lines. rewrite (pt_repertoire _ _ _ _ _ P).
    destruct (repertoire_lines (wo_strings o) _ _ Wi Wr) as (_ & _ & K).
    assert (Line : forall l, In l (repertoire_report (wo_strings o) (it_rep idn) (it_rep ref)) -> (cl_result l = RMatch <->
      match lookup (it_rep idn) (cl_cp l), lookup (it_rep ref) (cl_cp l) with None, None => True | Some a, Some b => same_code_point a b | _, _ => False end)).
    { intros l Hl. pose proof (proj1 (K (cl_cp l)) (in_map cl_cp _ _ Hl)) as Hk. destruct (repertoire_line _ _ _ _ Wi Wr Hl) as (_ & _ & El).
      pose proof (repertoire_results _ _ _ _ Os Wi Wr Hl) as R. destruct (lookup (it_rep idn) (cl_cp l)) as [a|], (lookup (it_rep ref) (cl_cp l)) as [b|].
      - unfold same_code_point. rewrite <- (match_iff (wo_strings o) a b Os). change (compare_char (wo_strings o) (Some a) (Some b)) with (compare_both (wo_strings o) a b) in El.
        rewrite <- El. reflexivity.
      - rewrite R. split; [intros X; discriminate X | intros []].
      - rewrite R. split; [intros X; discriminate X | intros []].
      - destruct Hk as [Hk | Hk]; contradiction. }
    split.
    - intros H c. destruct (lookup (it_rep idn) c) as [a|] eqn:Ea; [|destruct (lookup (it_rep ref) c) as [b|] eqn:Eb; [|exact I]].
      + assert (X : In c (map cl_cp (repertoire_report (wo_strings o) (it_rep idn) (it_rep ref)))) by (apply K; left; congruence).
        apply in_map_iff in X. destruct X as (l & <- & Hl). pose proof (H _ (in_map (fun l => (cl_result l, cl_remark l)) _ _ Hl)) as M. cbn [fst] in M.
        apply (Line l Hl) in M. rewrite Ea in M. exact M.
      + assert (X : In c (map cl_cp (repertoire_report (wo_strings o) (it_rep idn) (it_rep ref)))) by (apply K; right; congruence).
        apply in_map_iff in X. destruct X as (l & <- & Hl). pose proof (H _ (in_map (fun l => (cl_result l, cl_remark l)) _ _ Hl)) as M. cbn [fst] in M.
        apply (Line l Hl) in M. rewrite Ea, Eb in M. exact M.
    - intros H x Hx. apply in_map_iff in Hx. destruct Hx as (l & <- & Hl). cbn [fst]. apply (Line l Hl), H.
  Qed.
  Lemma fine_both : classes_fine (wo_runtime o) (wo_fuel o) idn /\ classes_fine (wo_runtime o) (wo_fuel o) ref.
  Proof.
    pose proof (pt_classes _ _ _ _ _ P) as C. unfold classes_report in C. apply bind_ok in C. destruct C as (xi & Ei & C). apply bind_ok in C. destruct C as (xr & Er & _).
    assert (G : forall t x, table_members (wo_runtime o) (wo_fuel o) t = Ok x -> classes_fine (wo_runtime o) (wo_fuel o) t).
    { intros t x Et. unfold table_members in Et. destruct (it_db t) as [u|] eqn:Eu; [|discriminate Et]. apply bind_ok in Et. destruct Et as (d & Ed & _).
      exists u. split; [exact Eu|]. intros n k e Hn He.
      assert (Hin : In n (isort class_leb (dkeys (it_classes t)))) by (apply isort_In; apply (dget_In _ string_eqb_iff) in Hn; apply in_map_iff; exists (n, (false, k)); auto).
      revert d Ed Hin. generalize (isort class_leb (dkeys (it_classes t))). induction l as [|m l IH]; intros d Ed Hin; [destruct Hin|]. cbn [class_members] in Ed. destruct Hin as [-> | Hin].
      - unfold defines in Hn. rewrite Hn in Ed. apply bind_ok in Ed. destruct Ed as (y & Ey & _). unfold members_of in Ey. rewrite He in Ey. destruct (wo_runtime o e); [reflexivity | discriminate Ey].
      - destruct (dget String.eqb m (it_classes t)) as [[[|] q]|]; [exact (IH _ Ed Hin)| |discriminate Ed]. apply bind_ok in Ed. destruct Ed as (y & _ & Ed). apply bind_ok in Ed. destruct Ed as (d' & Ed & _). exact (IH _ Ed Hin). }
    split; [exact (G _ _ Ei) | exact (G _ _ Er)].
  Qed.
  Lemma classes_match : overall (su_classes s) RMatch <->
    forall n, (exists c, member (wo_fuel o) idn n c) \/ (exists c, member (wo_fuel o) ref n c /\ point (it_rep idn) c) ->
    forall c, member (wo_fuel o) idn n c <-> member (wo_fuel o) ref n c.
  Proof.
    destruct S as (_ & _ & _ & A & _). rewrite (overall_match _ _ A). unfold class_results.
    destruct fine_both as [Fi Fr]. destruct (classes_are _ _ idn ref Wi Wr Fi Fr) as (l & El & L1 & L2). rewrite (pt_classes _ _ _ _ _ P) in El. injection El as El. rewrite El.
    split.
    - intros H n Hn. apply L2 in Hn. apply in_map_iff in Hn. destruct Hn as (x & <- & Hx). apply (L1 x Hx). apply H. apply in_map. exact Hx.
    - intros H x Hx. apply in_map_iff in Hx. destruct Hx as (y & <- & Hy). apply (L1 y Hy). apply H, L2. apply in_map. exact Hy.
  Qed.
  Lemma rules_match : no_ranges (it_rep ref) -> (overall (su_rules s) RMatch <->
    forall n, dget String.eqb n (it_rules idn) <> None \/ dget String.eqb n (it_rules ref) <> None ->
      dget String.eqb n (it_rules idn) = dget String.eqb n (it_rules ref) /\
      forall c, (exists ch, lookup (it_rep idn) c = Some ch /\ idn_rule ch n) <-> (exists ch, lookup (it_rep ref) c = Some ch /\ ref_rule ch n)).
  Proof.
    intros Nr. destruct S as (_ & _ & _ & _ & A & _). rewrite (overall_match _ _ A). unfold rule_lines. rewrite (pt_rules _ _ _ _ _ P).
    assert (Key : forall n (d : dict string string), In n (dkeys d) <-> dget String.eqb n d <> None).
    { intros n d. pose proof (dget_None _ string_eqb_iff n d) as Q. destruct (dget String.eqb n d); split; intros H; [discriminate | | |]; try contradiction.
      - destruct (in_dec string_dec n (dkeys d)) as [K | K]; [exact K|]. apply Q in K. discriminate K.
      - exfalso. exact (proj1 Q eq_refl H). }
    assert (Ci : forall n c, In c (context_of (idn_contexts (it_rep idn)) n) <-> exists ch, lookup (it_rep idn) c = Some ch /\ idn_rule ch n).
    { intros n c. rewrite idn_contexts_In. split.
      - intros (ch & Hin & <- & H). apply in_all_chars_lk in Hin; [|exact Wi]. exists ch. rewrite lookup_lk. auto.
      - intros (ch & L & H). rewrite lookup_lk in L. pose proof (lk_cp _ _ _ L) as Ec. exists ch. split; [apply (in_all_chars_lk _ _ Wi); rewrite Ec; exact L | auto]. }
    assert (Cr : forall n c, In c (context_of (ref_contexts (it_rep ref)) n) <-> exists ch, lookup (it_rep ref) c = Some ch /\ ref_rule ch n).
    { intros n c. rewrite ref_contexts_In. split.
      - intros (ch & Hin & <- & H). apply (no_ranges_iter _ _ Wr Nr) in Hin. apply in_all_chars_lk in Hin; [|exact Wr]. exists ch. rewrite lookup_lk. auto.
      - intros (ch & L & H). rewrite lookup_lk in L. pose proof (lk_cp _ _ _ L) as Ec. exists ch. split; [apply (no_ranges_iter _ _ Wr Nr), (in_all_chars_lk _ _ Wr); rewrite Ec; exact L | auto]. }
    assert (Line : forall l, In l (wle_report (it_rep idn) (it_rep ref) (it_rules idn) (it_rules ref)) -> (fst (wl_result l) = RMatch <->
      dget String.eqb (wl_name l) (it_rules idn) = dget String.eqb (wl_name l) (it_rules ref) /\
      forall c, (exists ch, lookup (it_rep idn) c = Some ch /\ idn_rule ch (wl_name l)) <-> (exists ch, lookup (it_rep ref) c = Some ch /\ ref_rule ch (wl_name l)))).
    { intros l Hl. rewrite (wle_line_is _ _ _ _ _ Hl). pose proof (proj1 (wle_names _ _ _ _ _) (in_map wl_name _ _ Hl)) as Hk. rewrite !Key in Hk.
      unfold compare_wle. destruct (dget String.eqb (wl_name l) (it_rules idn)) as [a|], (dget String.eqb (wl_name l) (it_rules ref)) as [b|].
      - destruct (String.eqb a b) eqn:Eab.
        + apply String.eqb_eq in Eab. subst b. destruct (nonempty (cps_xor (context_of (idn_contexts (it_rep idn)) (wl_name l)) (context_of (ref_contexts (it_rep ref)) (wl_name l)))) eqn:Ex.
          * split; [intros X; discriminate X|]. intros (_ & H). exfalso. assert (Y : same_set (context_of (idn_contexts (it_rep idn)) (wl_name l)) (context_of (ref_contexts (it_rep ref)) (wl_name l))) by (intros c; rewrite Ci, Cr; apply H).
            apply cps_xor_empty in Y. congruence.
          * apply cps_xor_empty in Ex. split; [intros _; split; [reflexivity|]; intros c; rewrite <- Ci, <- Cr; apply Ex | intros _; reflexivity].
        + split; [intros X; discriminate X|]. intros (X & _). injection X as ->. rewrite String.eqb_refl in Eab. discriminate Eab.
      - split; [intros X; discriminate X | intros (X & _); discriminate X].
      - split; [|intros (X & _); discriminate X]. destruct (nonempty (context_of (ref_contexts (it_rep ref)) (wl_name l))); [destruct (nonempty (set_inter _ _ _))|]; intros X; discriminate X.
      - destruct Hk; contradiction. }
    split.
    - intros H n Hn. rewrite <- !Key in Hn. apply (wle_names (it_rep idn) (it_rep ref)) in Hn. apply in_map_iff in Hn. destruct Hn as (l & <- & Hl). apply (Line l Hl), H. apply in_map. exact Hl.
    - intros H x Hx. apply in_map_iff in Hx. destruct Hx as (l & <- & Hl). apply (Line l Hl), H. rewrite <- !Key. apply (wle_names (it_rep idn) (it_rep ref)). apply in_map. exact Hl.
  Qed.
  Lemma actions_match : overall (su_actions s) RMatch <->
    (forall a, In a (it_actions idn) -> found a (it_actions ref)) /\ (forall a, In a (it_actions ref) -> found a (it_actions idn)).
  Proof.
    destruct S as (_ & _ & _ & _ & _ & A). rewrite (overall_match _ _ A). unfold action_lines. rewrite (pt_actions _ _ _ _ _ P). split.
    - intros H. assert (G : forall l, In l (fst (actions_report (it_actions idn) (it_actions ref))) -> al_result l = RMatch) by (intros l Hl; exact (H _ (in_map _ _ _ Hl))).
      split; intros a Ha; destruct (In_nth_error _ _ Ha) as (k & Hk).
      + destruct (memb action_eqb a (it_actions ref)) eqn:M; [apply found_iff; exact M|]. exfalso.
        assert (N : ~ found a (it_actions ref)) by (intros K; apply found_iff in K; congruence).
        specialize (G (mkActLine (Datatypes.S k) true false RManual) (proj2 (actions_lines _ _ _) (or_intror (or_introl (ex_intro _ k (ex_intro _ a (conj Hk (conj N eq_refl)))))))). discriminate G.
      + destruct (memb action_eqb a (it_actions idn)) eqn:M; [apply found_iff; exact M|]. exfalso.
        assert (N : ~ found a (it_actions idn)) by (intros K; apply found_iff in K; congruence).
        specialize (G (mkActLine (Datatypes.S k) false true RManual) (proj2 (actions_lines _ _ _) (or_intror (or_intror (ex_intro _ k (ex_intro _ a (conj Hk (conj N eq_refl)))))))). discriminate G.
    - intros (H1 & H2) x Hx. apply in_map_iff in Hx. destruct Hx as (l & <- & Hl). cbn [fst]. apply actions_lines in Hl.
      destruct Hl as [(k & a & _ & _ & ->) | [(k & a & Hk & N & _) | (k & a & Hk & N & _)]]; [reflexivity | exfalso; apply N, H1; exact (nth_error_In _ _ Hk) | exfalso; apply N, H2; exact (nth_error_In _ _ Hk)].
  Qed.
  Lemma actions_agree : overall (su_actions s) RMatch -> wh_sequence w = RMatch ->
    forall rm label ds only, fst (apply_actions rm (it_actions idn) label ds only) = fst (apply_actions rm (it_actions ref) label ds only).
  Proof.
    intros H Q rm label ds only. destruct S as (_ & _ & _ & _ & _ & A). pose proof (proj1 (overall_match _ _ A) H) as H'. clear H. rename H' into H. unfold action_lines in H. rewrite (pt_actions _ _ _ _ _ P) in H.
    apply matching_verdicts; [intros l Hl; exact (H _ (in_map (fun l => (al_result l, action_remark l)) _ _ Hl)) | rewrite <- (pt_sequence _ _ _ _ _ P); exact Q].
  Qed.
  Lemma variants_rows : exists rows, variant_sets_report (wo_variants o) (wo_cps o) (it_rep idn) (it_rep ref) = Ok rows /\
    (overall (su_variants s) RMatch <-> forall i r l x, In (i, r, l) rows -> In x l -> row_match x).
  Proof.
    destruct (pt_rows _ _ _ _ _ P) as (rows & Er & _ & Ew). exists rows. split; [exact Er|]. destruct S as (_ & _ & A & _). rewrite (overall_match _ _ A). unfold variant_lines. rewrite Ew.
    assert (F : forall q p, fst (with_notice (wo_shown o) q p) = fst p) by (intros [c|] p; reflexivity). split.
    - intros H i r l x Hin Hx.
      assert (G : forall y, In y [vr_fwd x; vr_rev x] -> fst y = RMatch).
      { intros y Hy. set (q := match i with [] => option_map fst (missing_sequence r (it_rep idn)) | _ :: _ => None end).
        rewrite <- (F q y). apply H. apply in_flat_map. exists (noticed (wo_shown o) (it_rep idn) (i, r, l)). split; [apply in_map; exact Hin|]. cbn [noticed snd]. apply in_flat_map.
        exists (mkVrow (vr_src x) (vr_dst x) (with_notice (wo_shown o) q (vr_fwd x)) (with_notice (wo_shown o) q (vr_rev x))). split; [apply in_map_iff; exists x; auto|].
        cbn [vr_fwd vr_rev]. destruct Hy as [<- | [<- | []]]; [left; reflexivity | right; left; reflexivity]. }
      split; apply G; [left | right; left]; reflexivity.
    - intros H y Hy. apply in_flat_map in Hy. destruct Hy as (z & Hz & Hy). apply in_map_iff in Hz. destruct Hz as (((i & r) & l) & <- & Hin). cbn [noticed snd] in Hy.
      apply in_flat_map in Hy. destruct Hy as (x & Hx & Hy). apply in_map_iff in Hx. destruct Hx as (x' & <- & Hx). cbn [vr_fwd vr_rev] in Hy.
      destruct (H i r l x' Hin Hx) as (M1 & M2). destruct Hy as [<- | [<- | []]]; rewrite F; assumption.
  Qed.
  Hypothesis Si : symmetric (it_rep idn).
  Hypothesis Sr : symmetric (it_rep ref).
  Hypothesis Hm : overall (su_repertoire s) RMatch.
  Hypothesis Hv : overall (su_variants s) RMatch.
  Lemma same_points : forall c, lookup (it_rep idn) c <> None <-> lookup (it_rep ref) c <> None.
  Proof.
    intros c. pose proof (proj1 repertoire_match Hm c) as H. destruct (lookup (it_rep idn) c), (lookup (it_rep ref) c); try contradiction; [split; intros _; discriminate | tauto].
  Qed.
  Lemma variants_match : forall a b, a <> b -> (has_target (it_rep idn) a b <-> has_target (it_rep ref) a b).
  Proof.
    intros a b Hn. destruct variants_rows as (rows & Er & H). exact (same_targets _ _ Oc _ _ Wi Wr Si Sr rows Er (proj1 H Hv) same_points a b Hn).
  Qed.
  Lemma variants_agree : one_variant (it_rep idn) -> one_variant (it_rep ref) -> no_empty_type (it_rep idn) -> no_empty_type (it_rep ref) ->
    forall a b v x, a <> b -> mapping (it_rep idn) a b v -> mapping (it_rep ref) a b x -> v_type v = v_type x /\ variant_context v = variant_context x.
  Proof.
    intros O1 O2 T1 T2 a b v x Hn M1 M2. destruct variants_rows as (rows & Er & H). exact (same_variants _ _ Ov Oc _ _ Wi Wr Si Sr rows Er (proj1 H Hv) same_points O1 O2 T1 T2 a b v x Hn M1 M2).
  Qed.
End Meaning.
