(** Writing and reading back a whole document. *)
From Verif Require Import Base BaseFacts CharModel RepSpec RepProofs VariantProofs MetaModel MetaSpec MetaProofs RefModel LgrModel LgrSpec LgrProofs LgrInv LgrTags LgrMirror LgrReach PopulateSpec
  ActionModel LabelModel LabelSpec ClassModel ClassSpec RuleModel RuleSpec RuleProofs Rfc7940Model SerialModel SerialSpec SerialProofs SerialFinal SameSpec SameProofs SameFinal
  RulesXmlModel RulesXmlSpec RulesXmlDoc RulesXmlTrip EvalModel EvalSpec EvalProofs EvalFinal DocModel ReadySpec ReadyFinal DocFinal AgainSpec AgainRead AgainClasses AgainStable.
From Coq Require Import Lia.
Open Scope string_scope.
Open Scope list_scope.
Open Scope nat_scope.

(** ** The classes of tags *)
Lemma tag_classname_inj : forall a b, tag_classname a = tag_classname b -> a = b.
Proof. intros a b H. unfold tag_classname in H. cbn [String.append] in H. repeat (injection H as H). exact H. Qed.
Lemma before_tag : forall tags, NoDup (dkeys tags) -> forall t, dget String.eqb (tag_classname t) (ru_classes (before_rules tags)) = option_map (fun l => ClPlain (Some t) None None None l) (dget String.eqb t tags).
Proof.
  intros tags HN t. unfold before_rules. cbn [ru_classes].
  assert (G : forall t0 : table, dget String.eqb (tag_classname t) (fold_left (fun t p => set_tag_class t (fst p) (snd p)) tags t0) =
    match dget String.eqb t tags with Some l => Some (ClPlain (Some t) None None None l) | None => dget String.eqb (tag_classname t) t0 end).
  { induction tags as [|[a l] tags IH]; intro t0; [reflexivity|]. inversion HN as [|? ? N1 N2]; subst. cbn [fold_left fst snd]. rewrite IH by exact N2. cbn [dget].
    unfold set_tag_class. rewrite (dget_dset _ string_eqb_iff). destruct (String.eqb t a) eqn:E.
    - apply String.eqb_eq in E. subst a. rewrite String.eqb_refl. rewrite (proj2 (dget_None _ string_eqb_iff t tags)); [reflexivity|exact N1].
    - destruct (dget String.eqb t tags); [reflexivity|]. destruct (String.eqb (tag_classname t) (tag_classname a)) eqn:E2; [|reflexivity]. apply String.eqb_eq, tag_classname_inj in E2. subst a. rewrite String.eqb_refl in E. discriminate. }
  rewrite G. destruct (dget String.eqb t tags); reflexivity.
Qed.
Lemma same_tag_classes : forall g g', mirror g -> mirror g' -> inhabited (lg_tags g) -> inhabited (lg_tags g') -> same_repertoire g g' ->
  same_look (ru_classes (before_rules (lg_tags g))) (ru_classes (before_rules (lg_tags g'))).
Proof.
  intros g g' [N M] [N' M'] I I' S n.
  assert (T : forall tag x, tin (lg_tags g) tag x <-> tin (lg_tags g') tag x).
  { intros tag x. rewrite M, M'. unfold rcar. specialize (S [x]). rewrite !lookup_lk in S. destruct (lk (lg_rep g) [x]) as [ch|], (lk (lg_rep g') [x]) as [ch'|]; try contradiction.
    - destruct S as [[_ [_ [_ [_ [E _]]]]] _]. split; intros [c [H1 H2]]; injection H1 as <-; [exists ch'|exists ch]; (split; [reflexivity|]); congruence.
    - split; intros [c [H1 _]]; discriminate. }
  destruct (dget String.eqb n (ru_classes (before_rules (lg_tags g)))) as [c|] eqn:E.
  - destruct (tags_only (lg_tags g) n ltac:(congruence)) as [t ->]. rewrite before_tag in E |- * by assumption. destruct (dget String.eqb t (lg_tags g)) as [l|] eqn:El; [|discriminate]. injection E as <-.
    assert (Hx : exists x, In x l) by (destruct l as [|x l]; [exfalso; exact (I t [] El eq_refl)|exists x; left; reflexivity]). destruct Hx as [x Hx].
    destruct (proj1 (T t x) (ex_intro _ l (conj El Hx))) as [l' [El' Hx']]. rewrite El'. cbn [option_map opt_rel]. apply same_plain. intro y. split; intro Hy.
    + destruct (proj1 (T t y) (ex_intro _ l (conj El Hy))) as [l2 [K1 K2]]. congruence.
    + destruct (proj2 (T t y) (ex_intro _ l' (conj El' Hy))) as [l2 [K1 K2]]. congruence.
  - destruct (dget String.eqb n (ru_classes (before_rules (lg_tags g')))) as [c|] eqn:E'; [|exact Logic.I].
    destruct (tags_only (lg_tags g') n ltac:(congruence)) as [t ->]. rewrite before_tag in E, E' by assumption. destruct (dget String.eqb t (lg_tags g')) as [l'|] eqn:El'; [|discriminate].
    assert (Hx : exists x, In x l') by (destruct l' as [|x l']; [exfalso; exact (I' t [] El' eq_refl)|exists x; left; reflexivity]). destruct Hx as [x Hx].
    destruct (proj2 (T t x) (ex_intro _ l' (conj El' Hx))) as [l [El _]]. rewrite El in E. discriminate.
Qed.

(** ** The document *)
Section Again.
  Variable lang : cps -> option bool.
  Variable dig : N -> bool.
  Hypothesis Hdig : dig 46%N = false.
  Hypothesis Hascii : forall c, ascii_digit c = true -> dig c = true.

  Theorem again : forall db fuel allow d x, read_document lang dig db fuel allow false d = Ok (Some x) -> plain_document d -> Forall qualified (rules_part d) ->
    (db <> None -> orderly_names (rules_part d)) ->
    exists x', read_document lang dig db fuel allow false (write_document x) = Ok (Some x') /\ same_document x x' /\ same_cache (ld_cache x) (ld_cache x') /\ proper (ld_lgr x) /\ proper (ld_lgr x') /\
      write_document x' = write_document x.
  Proof.
    intros db fuel allow d x H P Q O. destruct (read_writable lang dig Hdig Hascii db fuel allow d x H P) as [W1 [W2 [W3 [W4 [W5 [W6 [W7 W8]]]]]]].
    destruct (document_inv _ _ _ _ _ _ _ _ H) as [ml [m [rm [r [s [H1 [H2 [H3 [H4 [H5 H6]]]]]]]]]].
    destruct (meta_roundtrip lang dig Hdig (ld_meta x) (ld_lgr x) (option_map fst db) allow W1 (proper_ref_tidy _ W3) W2) as [m' [rm' [E1 [E2 [E3 E4]]]]].
    destruct (data_roundtrip (ld_lgr x) (option_map fst db) allow rm' (md_checks m') W3 W5 W6 W7 E3 E4) as [g' [D1 [D2 [D3 [D4 [D5 D6]]]]]].
    set (r' := report_tested _ _) in D1.
    assert (IN : inhabited (lg_tags g')).
    { unfold process_data in D1. destruct (process_data_loop false _ _ [] (serialize_data (ld_lgr x))) as [[g2 r2] [[]|e]] eqn:L; [|discriminate]. injection D1 as -> _.
      apply (data_neat _ _ _ _ _ _ _ _ _ (neat_start _ _ _ E4) L). }
    assert (A : exists s', process_rules (option_map snd db) fuel false (serialize_rules (ld_rules x)) (before_rules (lg_tags (ld_lgr x))) (fresh_read r) = Ok (ld_rules x, s') /\ alike s s').
    { destruct db as [[u1 u]|]; cbn [option_map snd] in *.
      - destruct (orderly_new (lg_tags (ld_lgr x)) _ (O ltac:(discriminate))) as [N1 _]. eapply roundtrip_patterns; [exact H4|exact Q|reflexivity|reflexivity|reflexivity|exact N1|split; reflexivity].
      - eapply roundtrip_plain; [exact H4|exact Q|reflexivity|reflexivity|reflexivity|split; reflexivity]. }
    destruct A as [s' [A1 [_ A2]]].
    assert (SL : same_ruleset (before_rules (lg_tags (ld_lgr x))) (before_rules (lg_tags g'))).
    { split; [|repeat split; reflexivity]. apply same_tag_classes; [apply (tag_tidy_inv _ W4)|apply (tag_tidy_inv g'); apply D2|exact W8|exact IN|exact D6]. }
    pose proof (rules_read_again (option_map snd db) fuel false (serialize_rules (ld_rules x)) _ _ (fresh_read r) (fresh_read r') SL (conj eq_refl (cache_refl _))) as B. rewrite A1 in B.
    destruct (process_rules (option_map snd db) fuel false (serialize_rules (ld_rules x)) (before_rules (lg_tags g')) (fresh_read r')) as [[ru' s2]|] eqn:EB; cbn [same_res] in B; [|contradiction].
    destruct B as [B1 [_ B2]]. cbn [fst snd] in B1, B2.
    eexists. split.
    - unfold read_document, write_document, serialize_lgr. cbn [dc_meta dc_data dc_rules x_meta x_data]. rewrite E1, D1, EB. cbn [bind fst snd]. reflexivity.
    - split; [|split; [|split; [|split]]]; cbn [ld_meta ld_lgr ld_rules ld_cache].
      + split; [exact E2|]. split; [exact D6|]. split; [rewrite <- E3; f_equal; exact D5|exact B1].
      + rewrite H5, A2. exact B2.
      + exact W3.
      + apply D2.
      + unfold write_document, serialize_lgr. cbn [ld_meta ld_lgr ld_rules x_meta x_data]. rewrite (data_stable _ _ _ _ _ _ _ W3 (proj1 (proj2 D2)) D1 D6).
        assert (ER : rm_refs (lg_refs g') = rm_refs (lg_refs (ld_lgr x))) by (rewrite <- E3; f_equal; exact D5).
        unfold serialize_meta, serialize_rules. cbn [md_version md_date md_start md_end md_unicode md_languages md_scopes md_description set_md_checks].
        destruct E2 as [M1 [M2 [M3 [M4 [M5 [M6 [M7 M8]]]]]]]. rewrite M1, M2, M3, M4, M5, M6, M7, M8, ER.
        destruct B1 as [_ [_ [_ [_ [_ [X1 [X2 X3]]]]]]]. rewrite X1, X2, X3. reflexivity.
  Qed.
End Again.

(** ** Evaluation *)
Lemma filter_idem : forall A (f : A -> bool) l, filter f (filter f l) = filter f l.
Proof. intros A f l. induction l as [|x l IH]; [reflexivity|]. cbn [filter]. destruct (f x) eqn:E; [|exact IH]. cbn [filter]. rewrite E, IH. reflexivity. Qed.
Lemma filter_none : forall A (f g : A -> bool) l, (forall x, g x = true -> f x = false) -> filter f (filter g l) = [].
Proof. intros A f g l H. induction l as [|x l IH]; [reflexivity|]. cbn [filter]. destruct (g x) eqn:E; [|exact IH]. cbn [filter]. rewrite (H x E). exact IH. Qed.
Lemma named_apart : forall a b e, (forall n, In n a -> ~ In n b) -> named_in a e = true -> named_in b e = false.
Proof.
  intros a b e H K. destruct (named_in b e) eqn:E; [|reflexivity]. exfalso. unfold named_in in *. apply andb_prop in K. apply andb_prop in E. destruct K as [_ K], E as [_ E].
  apply existsb_exists in K. apply existsb_exists in E. destruct K as [n [K1 K2]], E as [m [E1 E2]]. apply String.eqb_eq in K2, E2. subst n m. exact (H _ K1 E1).
Qed.
Lemma orderly_written : forall l, orderly_names l -> orderly_names (class_elems l ++ rule_elems l ++ action_elems l).
Proof.
  intros l H.
  assert (E1 : class_elems (class_elems l ++ rule_elems l ++ action_elems l) = class_elems l).
  { unfold class_elems, rule_elems, action_elems. rewrite !filter_app, filter_idem.
    rewrite (filter_none _ _ (named_in ["rule"])), (filter_none _ _ (named_in ["action"])), ?app_nil_r; [reflexivity|..]; intro e; apply named_apart; intros n [<-|[]] K; cbn in K; intuition discriminate. }
  assert (E2 : rule_elems (class_elems l ++ rule_elems l ++ action_elems l) = rule_elems l).
  { unfold class_elems, rule_elems, action_elems. rewrite !filter_app, filter_idem.
    rewrite (filter_none _ _ (named_in class_names)), (filter_none _ _ (named_in ["action"])), ?app_nil_r; [reflexivity|..]; intro e; apply named_apart; intros n K [<-|[]]; cbn in K; intuition discriminate. }
  unfold orderly_names. rewrite E1, E2. exact H.
Qed.

Lemma mentioned_same : forall r r' acts n, wf_rep r -> wf_rep r' -> (forall c, match lookup r c, lookup r' c with Some ch, Some ch' => same_char ch ch' | None, None => True | _, _ => False end) ->
  mentioned r' acts n -> mentioned r acts n.
Proof.
  intros r r' acts n W W' S H.
  assert (G : forall x l ch', dget N.eqb x (rep_chars r') = Some l -> In ch' l -> exists x0 l0 ch, dget N.eqb x0 (rep_chars r) = Some l0 /\ In ch l0 /\ same_char ch ch').
  { intros x l ch' Hx Hl. assert (K : lk r' (ch_cp ch') = Some ch') by (apply (in_all_chars_lk r' _ W'); unfold all_chars; apply in_flat_map; exists (x, l); split; [apply (dget_In _ N_eqb_iff); exact Hx|exact Hl]).
    pose proof (S (ch_cp ch')) as Sc. rewrite !lookup_lk, K in Sc. destruct (lk r (ch_cp ch')) as [ch|] eqn:E; [|contradiction]. apply (lk_in_all _ _ _ W) in E. unfold all_chars in E. apply in_flat_map in E. destruct E as [[x0 l0] [E1 E2]].
    exists x0, l0, ch. split; [apply (In_dget _ N_eqb_iff); [apply W|exact E1]|]. split; [exact E2|exact Sc]. }
  destruct H as [x l ch' n Hx Hl Hn|x l ch' c vs v n Hx Hl Hc Hv Hn|a n Ha Hn].
  - destruct (G x l ch' Hx Hl) as [x0 [l0 [ch [K1 [K2 [[_ [_ [_ [_ [_ [K3 K4]]]]]] _]]]]]]. eapply M_char; [exact K1|exact K2|]. rewrite <- K3, <- K4. exact Hn.
  - destruct (G x l ch' Hx Hl) as [x0 [l0 [ch [K1 [K2 [_ K3]]]]]].
    assert (Hv' : In v (get_variants ch)) by (rewrite <- K3; unfold get_variants; apply in_flat_map; exists c; split; [apply isort_In, (dget_Some_key _ cps_eqb_eq) with (v := vs); exact Hc|rewrite Hc; exact Hv]).
    destruct (owns_variant ch v Hv') as [c0 [vs0 [V1 V2]]]. eapply M_variant; [exact K1|exact K2|exact V1|exact V2|exact Hn].
  - eapply M_action; eassumption.
Qed.

Theorem evaluated_again : forall u x x', same_document x x' -> proper (ld_lgr x) -> proper (ld_lgr x') ->
  shaped_table (ru_classes (ld_rules x)) -> all_resolve u (ru_classes (ld_rules x)) (ru_rules (ld_rules x)) ->
  good_rules u (ru_classes (ld_rules x)) (ru_rules (ld_rules x)) -> all_defined (lg_rep (ld_lgr x)) (ru_actions (ld_rules x)) (ru_rules (ld_rules x)) ->
  exists F, forall f, F <= f -> forall obj obj' k k',
  owned_rules obj (ru_rules (ld_rules x)) -> used u (ru_classes (ld_rules x)) (ru_rules (ld_rules x)) obj k ->
  owned_rules obj' (ru_rules (ld_rules x')) -> used u (ru_classes (ld_rules x')) (ru_rules (ld_rules x')) obj' k' ->
  forall script label,
    (forall v, same_res same_elig (snd (eligible_e u (ru_classes (ld_rules x)) (ru_rules (ld_rules x)) f (lg_rep (ld_lgr x)) (ru_actions (ld_rules x)) label v k))
                                  (snd (eligible_e u (ru_classes (ld_rules x')) (ru_rules (ld_rules x')) f (lg_rep (ld_lgr x')) (ru_actions (ld_rules x')) label v k'))) /\
    (forall n t, snd (index_e u (ru_classes (ld_rules x')) (ru_rules (ld_rules x')) f (lg_rep (ld_lgr x')) n t label k') =
                 snd (index_e u (ru_classes (ld_rules x)) (ru_rules (ld_rules x)) f (lg_rep (ld_lgr x)) n t label k)) /\
    (forall inv hide gc wl, snd (compute_e u (ru_classes (ld_rules x')) (ru_rules (ld_rules x')) f (lg_rep (ld_lgr x')) (ru_actions (ld_rules x')) script label inv hide gc wl k') =
                            snd (compute_e u (ru_classes (ld_rules x)) (ru_rules (ld_rules x)) f (lg_rep (ld_lgr x)) (ru_actions (ld_rules x)) script label inv hide gc wl k)) /\
    (forall hide, snd (estimate_e u (ru_classes (ld_rules x')) (ru_rules (ld_rules x')) f (lg_rep (ld_lgr x')) script label hide k') =
                  snd (estimate_e u (ru_classes (ld_rules x)) (ru_rules (ld_rules x)) f (lg_rep (ld_lgr x)) script label hide k)).
Proof.
  intros u x x' [_ [SR [_ [SL [_ [ER [_ [EA _]]]]]]]] P P' HT HR HG HD. rewrite ER, EA.
  set (look := ru_classes (ld_rules x)) in *. set (look' := ru_classes (ld_rules x')) in *. set (rules := ru_rules (ld_rules x)) in *. set (acts := ru_actions (ld_rules x)) in *.
  set (r := lg_rep (ld_lgr x)) in *. set (r' := lg_rep (ld_lgr x')) in *.
  destruct (deep_enough u look rules HT HG HR) as [F HF]. exists F. intros f Hf obj obj' k k' O U O' U' script label.
  pose proof (proper_reach _ P) as RR. pose proof (proper_reach _ P') as RR'. fold r in RR. fold r' in RR'.
  assert (HD' : all_defined r' acts rules) by (intros n Hn; apply HD; eapply mentioned_same; [apply reachable_wf; exact RR|apply reachable_wf; exact RR'|exact SR|exact Hn]).
  assert (N1 : ~ mentioned r acts "") by (intro H; destruct (HD "" H) as [H1 _]; congruence).
  assert (N2 : ~ mentioned r' acts "") by (intro H; destruct (HD' "" H) as [H1 _]; congruence).
  set (rm := oracle u look rules F).
  assert (A1 : forall n label ctx, mentioned r acts n -> computes (used u look rules obj) (ask u look rules f n label ctx) (Ok (rm n label ctx))).
  { intros n l ctx Hn. destruct (HD n Hn) as [_ [y Hy]]. exact (ask_oracle u look rules obj HT HG O F HF f Hf n y l ctx Hy). }
  set (I' := fun k2 => exists k1, used u look rules obj' k1 /\ same_cache k1 k2).
  assert (A2 : forall n label ctx, mentioned r' acts n -> computes I' (ask u look' rules f n label ctx) (Ok (rm n label ctx))).
  { intros n l ctx Hn k2 [k1 [U1 C1]]. destruct (HD' n Hn) as [_ [y Hy]]. destruct (ask_oracle u look rules obj' HT HG O' F HF f Hf n y l ctx Hy k1 U1) as [k3 [E U3]].
    unfold ask in *. rewrite Hy in *. pose proof (matches_again u look look' rules SL f y l (option_map fst ctx) (match ctx with Some (_, i) => i | None => 0%nat end) k1 k2 C1) as [M1 M2]. rewrite E in M1, M2. cbn [fst snd] in M1, M2.
    destruct (rule_matches u look' rules f y l _ _ k2) as [k4 z]. cbn [fst snd] in M1, M2. exists k4. split; [|exists k3; split; assumption]. destruct z as [b|e]; cbn [same_res] in M2; [rewrite <- M2; reflexivity|contradiction]. }
  assert (U2 : I' k') by exact (used_again u look look' rules SL obj' k' U').
  pose proof (answers_depend_on_uses r r' RR RR' (same_repertoire_uses _ _ SR) rm acts script label) as [Q1 [Q2 [Q3 [Q4 _]]]].
  split; [|split; [|split]].
  - intro v. destruct (c_eligible u look rules f r acts script _ _ A1 N1 label v k U) as [k1 [E _]]. destruct (c_eligible u look' rules f r' acts script _ _ A2 N2 label v k' U2) as [k2 [E' _]].
    rewrite E, E'. apply Q1.
  - intros n t. destruct (c_index u look rules f r acts script _ _ A1 N1 n t label k U) as [k1 [E _]]. destruct (c_index u look' rules f r' acts script _ _ A2 N2 n t label k' U2) as [k2 [E' _]].
    rewrite E, E'. apply Q2.
  - intros inv hide gc wl. destruct (c_compute u look rules f r acts script _ _ A1 N1 label inv hide gc wl k U) as [k1 [E _]]. destruct (c_compute u look' rules f r' acts script _ _ A2 N2 label inv hide gc wl k' U2) as [k2 [E' _]].
    rewrite E, E'. apply Q4.
  - intro hide. destruct (c_estimate u look rules f r acts script _ _ A1 N1 label hide k U) as [k1 [E _]]. destruct (c_estimate u look' rules f r' acts script _ _ A2 N2 label hide k' U2) as [k2 [E' _]].
    rewrite E, E'. cbn [snd]. rewrite Q3. reflexivity.
Qed.

(** Labels evaluated with a document and with the document read back from what
    was written. *)
Theorem answers_again : forall lang dig, dig 46%N = false -> (forall c, ascii_digit c = true -> dig c = true) -> forall u1 u fuel allow d x x',
  read_document lang dig (Some (u1, u)) fuel allow false d = Ok (Some x) -> plain_document d -> Forall qualified (rules_part d) -> orderly_names (rules_part d) ->
  read_document lang dig (Some (u1, u)) fuel allow false (write_document x) = Ok (Some x') ->
  good_rules u (ru_classes (ld_rules x)) (ru_rules (ld_rules x)) -> all_defined (lg_rep (ld_lgr x)) (ru_actions (ld_rules x)) (ru_rules (ld_rules x)) ->
  exists F, forall f, F <= f -> forall script label, same_answers u f x x' script label.
Proof.
  intros lang dig Hdig Hascii u1 u fuel allow d x x' H P Q O H' HG HD.
  destruct (again lang dig Hdig Hascii _ _ _ _ _ H P Q (fun _ => O)) as [x2 [K1 [K2 [_ [K3 [K4 _]]]]]]. rewrite K1 in H'. injection H' as <-.
  destruct (document_ready _ _ _ _ _ _ _ _ _ H O) as [_ [HT [HR [obj [OW U]]]]].
  assert (O' : orderly_names (rules_part (write_document x))).
  { destruct (document_inv _ _ _ _ _ _ _ _ H) as [ml [m [rm [r [s [_ [_ [_ [H4 _]]]]]]]]].
    unfold write_document, rules_part. cbn [dc_rules]. rewrite (written _ _ _ _ _ _ _ _ H4 Q eq_refl eq_refl eq_refl). apply orderly_written. exact O. }
  destruct (document_ready _ _ _ _ _ _ _ _ _ K1 O') as [_ [_ [_ [obj' [OW' U']]]]].
  destruct (evaluated_again u x x2 K2 K3 K4 HT HR HG HD) as [F HF]. exists F. intros f Hf script label. exact (HF f Hf obj obj' _ _ OW U OW' U' script label).
Qed.
Theorem settled : forall lang dig, dig 46%N = false -> (forall c, ascii_digit c = true -> dig c = true) ->
  forall db fuel allow d x, read_document lang dig db fuel allow false d = Ok (Some x) -> plain_document d -> Forall qualified (rules_part d) ->
  (db <> None -> orderly_names (rules_part d)) ->
  exists x', read_document lang dig db fuel allow false (write_document x) = Ok (Some x') /\ same_document x x' /\
    write_document x' = write_document x /\ read_document lang dig db fuel allow false (write_document x') = Ok (Some x').
Proof.
  intros lang dig Hdig Hascii db fuel allow d x H P Q O. destruct (again lang dig Hdig Hascii _ _ _ _ _ H P Q O) as [x' [K1 [K2 [_ [_ [_ K3]]]]]].
  exists x'. split; [exact K1|]. split; [exact K2|]. split; [exact K3|]. rewrite K3. exact K1.
Qed.
