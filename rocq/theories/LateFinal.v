(** Documents read without a database, which is given to them later. *)
From Verif Require Import Base BaseFacts CharModel RepSpec RepProofs LgrModel LgrSpec LgrProofs LgrReach LgrInv RefModel MetaModel SerialModel SerialSpec SerialProofs LabelModel LabelSpec
  ClassModel ClassSpec RuleModel RuleSpec RuleCache RuleFinal RulesXmlModel RulesXmlSpec RulesXmlTrip EvalModel EvalSpec EvalFinal DocModel ReadySpec ReadyProofs ReadyFinal DocFinal
  AgainRead LateData LateRules LateSpec.
Open Scope string_scope.
Open Scope list_scope.
Open Scope nat_scope.

(** ** Fuel is for patterns only *)
Lemma fuel_free : forall fuel fuel' force l g s, process_rules None fuel force l g s = process_rules None fuel' force l g s.
Proof.
  intros fuel fuel' force.
  assert (P : forall look rules, parse_rule None look rules fuel = parse_rule None look rules fuel') by (intros; cbv [parse_rule parse_helper precalculate]; reflexivity).
  assert (E : forall e g s, read_elem None fuel force e g s = read_elem None fuel' force e g s) by (intros; unfold read_elem, read_rule; rewrite P; reflexivity).
  induction l as [|e l IH]; intros g s; [reflexivity|]. cbn [process_rules]. rewrite E. destruct (read_elem None fuel' force e g s) as [p|]; [|reflexivity]. cbn [bind]. apply IH.
Qed.

Section Lang.
  Variable lang : cps -> option bool.
  Variable dig : N -> bool.

  Lemma read_fuel : forall fuel fuel' allow force d, read_document lang dig None fuel allow force d = read_document lang dig None fuel' allow force d.
  Proof.
    intros. unfold read_document. destruct (dc_meta d); [|reflexivity]. destruct (process_meta _ _ _ _) as [[m rm] [[]|e]]; [|reflexivity]. cbn [option_map].
    destruct (process_data _ _ _ _) as [[g r] [[]|e]]; [|reflexivity]. rewrite (fuel_free fuel fuel'). reflexivity.
  Qed.
  Lemma data_moves : forall db1 db2 allow rm r0 l g r, started db1 allow rm -> process_data false (set_refs (new_lgr db1 allow) rm) r0 l = (g, r, Ok tt) -> pair_ok db2 (negb allow) g ->
    process_data false (set_refs (new_lgr db2 allow) rm) r0 l = (under_db db2 g, r, Ok tt).
  Proof.
    intros db1 db2 allow rm r0 l g r S H P. unfold process_data in *. destruct (process_data_loop false (set_refs (new_lgr db1 allow) rm) r0 [] l) as [[g' r'] [[]|e]] eqn:L; [|discriminate].
    injection H as <- <-. destruct (data_within db2 _ _ _ _ _ _ (proj1 S) L) as [_ [_ K]]. specialize (K P).
    change (set_refs (new_lgr db2 allow) rm) with (under_db db2 (set_refs (new_lgr db1 allow) rm)). rewrite K. reflexivity.
  Qed.
  Lemma none_pair : forall ra g, pair_ok None ra g.
  Proof. intros ra g. split; intros; right; intros x d _ K; discriminate. Qed.

  (** ** The same document *)
  Theorem read_without : forall db fuel allow d x, read_document lang dig (Some db) fuel allow false d = Ok (Some x) ->
    exists y, read_document lang dig None fuel allow false d = Ok (Some y) /\ lg_db (ld_lgr y) = None /\ give_database db y = mkLoaded (ld_meta x) (ld_lgr x) (ld_rules x) [].
  Proof.
    intros db fuel allow d x H. destruct (document_inv _ _ _ _ _ _ _ _ H) as [ml [m [rm [r [s [H1 [H2 [H3 [H4 [H5 H6]]]]]]]]]]. cbn [option_map] in H3, H4.
    assert (S : forall o, started o allow rm).
    { intro o. unfold process_meta in H2. destruct (process_meta_loop lang dig false new_metadata empty_refman ml) as [[m1 rm1] [[]|e]] eqn:E; [|discriminate]. injection H2 as <- <-. exact (meta_started _ _ _ o allow _ _ _ _ _ _ E (started_new _ _)). }
    pose proof (data_moves _ None _ _ _ _ _ _ (S _) H3 (none_pair _ _)) as D.
    destruct (database_adds _ _ _ _ _ _ _ _ (fresh_read r) H4 (conj eq_refl eq_refl)) as [t [K [_ L]]].
    exists (mkLoaded (ld_meta x) (under_db None (ld_lgr x)) (ld_rules x) (rd_cache t)).
    split; [|split; [reflexivity|]].
    - unfold read_document. fold (rules_part d). rewrite H1, H2. cbn [option_map]. rewrite D.
      change (lg_tags (under_db None (ld_lgr x))) with (lg_tags (ld_lgr x)). rewrite K. cbn [bind fst snd]. rewrite H6, L. reflexivity.
    - unfold give_database, set_database, under_db. cbn [ld_meta ld_lgr ld_rules lg_rep lg_raise lg_types lg_refs lg_tags]. f_equal.
      assert (B : lg_db (ld_lgr x) = Some (fst db)).
      { unfold process_data in H3. destruct (process_data_loop false _ _ [] (dc_data d)) as [[g' r'] [[]|e]] eqn:Lo; [|discriminate]. injection H3 as <- _.
        destruct (data_neat _ _ _ _ _ _ _ _ _ (neat_start _ _ _ (S _)) Lo) as [[_ [F4 _]] _]. exact F4. }
      destruct (ld_lgr x). cbn in B |- *. congruence.
  Qed.

  (** ** The same answers *)
  Theorem late_answers : forall u1 u fuel fuel' allow d x y, read_document lang dig (Some (u1, u)) fuel allow false d = Ok (Some x) -> read_document lang dig None fuel' allow false d = Ok (Some y) ->
    orderly_names (rules_part d) -> good_rules u (ru_classes (ld_rules x)) (ru_rules (ld_rules x)) -> all_defined (lg_rep (ld_lgr x)) (ru_actions (ld_rules x)) (ru_rules (ld_rules x)) ->
    exists F, forall f, F <= f -> forall script label, equal_answers u f x (give_database (u1, u) y) script label.
  Proof.
    intros u1 u fuel fuel' allow d x y H H' N G D. destruct (read_without _ _ _ _ _ H) as [y' [K1 [_ K2]]]. rewrite (read_fuel fuel fuel'), H' in K1. injection K1 as <-. rewrite K2.
    destruct (document_evaluates _ _ _ _ _ _ _ _ _ H N G D) as [obj [rm [F [O [U [T HF]]]]]]. exists F. intros f Hf script label.
    destruct (HF f (ld_cache x) Hf U) as [A1 [A2 [A3 A4]]]. destruct (HF f [] Hf (used_none _ _ _ _)) as [B1 [B2 [B3 B4]]].
    split; [|split; [|split]]; cbn [ld_meta ld_lgr ld_rules ld_cache]; intros; [rewrite A1, B1|rewrite A3, B3|rewrite A2, B2|rewrite A4, B4]; reflexivity.
  Qed.

  (** ** When it can be read with the database *)
  Lemma read_admits : forall db fuel allow d x, read_document lang dig db fuel allow false d = Ok (Some x) -> admits (option_map fst db) allow (ld_lgr x).
  Proof.
    intros db fuel allow d x H. destruct (document_inv _ _ _ _ _ _ _ _ H) as [ml [m [rm [r [s [H1 [H2 [H3 _]]]]]]]].
    unfold process_meta in H2. destruct (process_meta_loop lang dig false new_metadata empty_refman ml) as [[m1 rm1] [[]|e]] eqn:E; [|discriminate]. injection H2 as <- <-.
    pose proof (meta_started _ _ _ (option_map fst db) allow _ _ _ _ _ _ E (started_new _ _)) as K. unfold process_data in H3.
    destruct (process_data_loop false _ _ [] (dc_data d)) as [[g' r'] [[]|e]] eqn:L; [|discriminate]. injection H3 as -> _.
    destruct (data_neat _ _ _ _ _ _ _ _ _ (neat_start _ _ _ K) L) as [[[F1 _] [F4 [F5 F6]]] [A _]].
    destruct allow; [left; reflexivity|right]. intros y q [c [ch [Hc Ho]]] Hq. rewrite lookup_lk in Hc. destruct Ho as [Ho|[v [Hv Ho]]].
    - pose proof (reachable_accepting _ F1) as Acc. destruct (db_idna_valid q y) eqn:B; [reflexivity|]. exfalso. apply (Acc ltac:(rewrite F5; reflexivity) c y); [congruence|exact Ho|].
      exists q. split; [congruence|exact B].
    - destruct (proj2 (A c ch Hc) v Hv) as [B|B]; [discriminate|]. exact (B y q Ho Hq).
  Qed.
  Theorem read_with : forall u1 u fuel0 allow d y, read_document lang dig None fuel0 allow false d = Ok (Some y) -> orderly_names (rules_part d) ->
    admits (Some u1) allow (ld_lgr y) -> all_resolve u (ru_classes (ld_rules y)) (ru_rules (ld_rules y)) ->
    exists F, forall fuel, F <= fuel -> exists k, read_document lang dig (Some (u1, u)) fuel allow false d = Ok (Some (mkLoaded (ld_meta y) (set_database u1 (ld_lgr y)) (ld_rules y) k)).
  Proof.
    intros u1 u fuel0 allow d y H N A R. destruct (document_inv _ _ _ _ _ _ _ _ H) as [ml [m [rm [r [s [H1 [H2 [H3 [H4 [H5 H6]]]]]]]]]]. cbn [option_map] in H3, H4.
    assert (S : started None allow rm).
    { unfold process_meta in H2. destruct (process_meta_loop lang dig false new_metadata empty_refman ml) as [[m1 rm1] [[]|e]] eqn:E; [|discriminate]. injection H2 as <- <-. exact (meta_started _ _ _ None allow _ _ _ _ _ _ E (started_new _ _)). }
    pose proof (data_moves _ (Some u1) _ _ _ _ _ _ S H3 (admits_pair _ _ _ A)) as D.
    destruct (orderly_new (lg_tags (ld_lgr y)) _ N) as [N1 N2]. destruct (rules_follow u _ _ _ _ _ _ H4 N1 N2 R) as [F HF]. exists F. intros fuel Hf. destruct (HF fuel Hf) as [t [K [_ L]]].
    exists (rd_cache t). unfold read_document. fold (rules_part d). rewrite H1, H2. cbn [option_map fst snd]. rewrite D.
    change (lg_tags (under_db (Some u1) (ld_lgr y))) with (lg_tags (ld_lgr y)). rewrite K. cbn [bind fst snd]. rewrite H6, L. reflexivity.
  Qed.
  Theorem readable_iff : forall u1 u fuel0 allow d y, read_document lang dig None fuel0 allow false d = Ok (Some y) -> orderly_names (rules_part d) ->
    (exists fuel x, read_document lang dig (Some (u1, u)) fuel allow false d = Ok (Some x)) <->
    admits (Some u1) allow (ld_lgr y) /\ all_resolve u (ru_classes (ld_rules y)) (ru_rules (ld_rules y)).
  Proof.
    intros u1 u fuel0 allow d y H N. split.
    - intros [fuel [x Hx]]. destruct (read_without _ _ _ _ _ Hx) as [y' [K1 [_ K2]]]. rewrite (read_fuel fuel fuel0), H in K1. injection K1 as <-.
      unfold give_database in K2. injection K2 as _ K3 K4. rewrite K4. split; [|exact (proj1 (proj2 (proj2 (document_ready _ _ _ _ _ _ _ _ _ Hx N))))].
      pose proof (read_admits _ _ _ _ _ Hx) as A. cbn [option_map fst] in A. rewrite <- K3 in A. exact A.
    - intros [A R]. destruct (read_with _ _ _ _ _ _ H N A R) as [F HF]. destruct (HF F (le_n F)) as [k Hk]. eauto.
  Qed.

  (** ** Evaluation after the database is given *)
  Theorem late_evaluates : forall u1 u fuel0 allow d y, read_document lang dig None fuel0 allow false d = Ok (Some y) -> orderly_names (rules_part d) ->
    let x := give_database (u1, u) y in
    let r := lg_rep (ld_lgr x) in let look := ru_classes (ld_rules x) in let rules := ru_rules (ld_rules x) in let acts := ru_actions (ld_rules x) in
    all_resolve u look rules -> good_rules u look rules -> all_defined r acts rules ->
    exists rm F, truthful u look rules rm /\ forall f, F <= f ->
    (forall label v, snd (eligible_e u look rules f r acts label v (ld_cache x)) = test_label_eligible rm r acts label v) /\
    (forall script label inv hide gc wl, snd (compute_e u look rules f r acts script label inv hide gc wl (ld_cache x)) = compute_label_disposition rm r acts script true label inv hide gc wl) /\
    (forall n t label, snd (index_e u look rules f r n t label (ld_cache x)) = index_label rm r n t label) /\
    (forall script label hide, snd (estimate_e u look rules f r script label hide (ld_cache x)) = match estimate_variant_number rm r script label hide with Some n => Ok n | None => Raise OutOfFuel end).
  Proof.
    intros u1 u fuel0 allow d y H N x r look rules acts HR HG HD. destruct (document_inv _ _ _ _ _ _ _ _ H) as [ml [m [rm0 [r0 [s [_ [_ [_ [H4 _]]]]]]]]]. cbn [option_map] in H4.
    destruct (orderly_new (lg_tags (ld_lgr y)) _ N) as [N1 N2]. destruct (rules_follow u _ _ _ _ _ _ H4 N1 N2 HR) as [F0 HF0]. destruct (HF0 F0 (le_n _)) as [t [K _]].
    destruct (read_ready _ _ _ _ _ _ _ _ K N1 N2) as [HT [_ [obj [O _]]]]. destruct (evaluation u look rules obj HT HG O HR) as [rm [Hrm [F HF]]]. exists rm, F. split; [exact Hrm|]. intros f Hf.
    pose proof (used_none u look rules obj) as Uk.
    split; [|split; [|split]].
    - intros label v. apply (HF f Hf r acts (fun _ => "") HD [] Uk).
    - intros script label inv hide gc wl. apply (HF f Hf r acts script HD [] Uk).
    - intros n z label. apply (HF f Hf r acts (fun _ => "") HD [] Uk).
    - intros script label hide. apply (HF f Hf r acts script HD [] Uk).
  Qed.
End Lang.
