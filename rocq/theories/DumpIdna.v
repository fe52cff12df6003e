(** The repertoire made from the registry of IDNA properties. *)
From Verif Require Import Base BaseFacts UtilsModel UtilsProofs CharModel RepSpec RefModel LgrModel LgrSpec LgrProofs LgrReach LgrFinal Rfc7940Model MetaModel MetaSpec
  ValidateModel PopulateSpec CompareSpec AnnotateModel AnnotateSpec SerialModel SerialSpec SerialProofs SerialFinal
  TableModel TableSpec TableScan TableParts TableProofs TableDoc TableEnding ForceProofs DumpModel DumpSpec DumpProofs DumpFinal.
Open Scope string_scope.
Open Scope list_scope.

(** ** Texts *)
Lemma py_int_unsigned : forall s z, (forall t, s <> 45 :: t) -> strip s = s -> py_int 16 s = Ok z -> (0 <= z)%Z.
Proof.
  intros s z Hs Ht H. unfold py_int in H. rewrite Ht in H. cbv zeta in H.
  match type of H with match ?x with _ => _ end = _ => destruct x as [z'|] eqn:K; [|discriminate] end. injection H as ->.
  assert (L : forall t, option_map Z.of_N (int_unsigned 16 t) = Some z -> (0 <= z)%Z).
  { intros t E. destruct (int_unsigned 16 t) as [n|]; [|discriminate]. injection E as <-. apply N2Z.is_nonneg. }
  destruct s as [|c s]; [apply (L _ K)|]. destruct (N.eq_dec c 45) as [->|E1]; [exfalso; eapply Hs; reflexivity|].
  revert K. clear -L E1. destruct c as [|p]; [apply L|].
  repeat match goal with |- context[match ?y with _ => _ end] => is_var y; destruct y; try (intro; eapply L; eassumption) end; exfalso; auto.
Qed.
Lemma no_dash : forall s n, hex_value s n -> ~ In 45 s.
Proof.
  intros s n H K. apply hex_value_hexes in H. unfold hexes in H. rewrite Forall_forall in H. apply H in K. discriminate.
Qed.
Lemma parse_hex : forall s n, hex_value s n -> s <> [] -> parse_cp s = Ok n.
Proof.
  intros s n H Hs. pose proof (int16_hex_value s n H Hs) as E. unfold int16 in E. destruct (py_int 16 s) as [z|e] eqn:Ez; [|discriminate]. cbn [bind] in E.
  unfold parse_cp. rewrite Ez. cbn [bind]. unfold cp_of_int. apply py_int_unsigned in Ez.
  - destruct (Z.ltb_spec z 0); [lia|]. congruence.
  - intros t ->. apply (no_dash _ _ H). left. reflexivity.
  - apply strip_id. apply hex_value_hexes in H. unfold hexes in H. rewrite Forall_forall in H |- *. intros x Hx. apply is_hex_space. auto.
Qed.
Lemma split_two : forall a b, ~ In 45 a -> ~ In 45 b -> split_on 45 (a ++ 45 :: b) = [a; b].
Proof. intros a b Ha Hb. apply split_on_is. split; [discriminate|]. split; [reflexivity|]. repeat constructor; assumption. Qed.
Lemma spans_fun : forall s f l f' l', spans s f l -> spans s f' l' -> f' = f /\ l' = l.
Proof.
  intros s f l f' l' [[H1 [H2 ->]]|[a [b [-> [Ha [Hb [Va [Vb H]]]]]]]] [[K1 [K2 ->]]|[c [d [E [Hc [Hd [Vc [Vd K]]]]]]]].
  - rewrite (hex_value_fun _ _ H2 _ K2). auto.
  - exfalso. apply (no_dash _ _ H2). rewrite E. apply in_or_app. right. left. reflexivity.
  - exfalso. apply (no_dash _ _ K2). apply in_or_app. right. left. reflexivity.
  - apply (f_equal (split_on 45)) in E. rewrite !split_two in E by (eapply no_dash; eassumption). injection E as <- <-.
    rewrite (hex_value_fun _ _ Va _ Vc), (hex_value_fun _ _ Vb _ Vd). auto.
Qed.
Lemma spans_le : forall s f l, spans s f l -> f <= l.
Proof. intros s f l [[_ [_ ->]]|[a [b [_ [_ [_ [_ [_ H]]]]]]]]; lia. Qed.
Lemma kept_iff : forall p, memb cps_eqb p [txt "PVALID"; txt "CONTEXTO"; txt "CONTEXTJ"] = true <-> kept_property p.
Proof.
  intro p. rewrite (memb_In _ _ cps_eqb_eq). unfold kept_property. cbn [In]. split; intros H.
  - destruct H as [H|[H|[H|[]]]]; auto.
  - destruct H as [H|[H|H]]; auto.
Qed.
(** Reading a well-formed record. *)
Lemma one_reads : forall g r f l, kept_property (rc_prop r) -> spans (rc_cp r) f l ->
  idna_one g r = lgr_add_range g f l None [] [] None None None false false \/
  (f = l /\ idna_one g r = lgr_add_cp g [f] None [] [] None None None false false).
Proof.
  intros g r f l Hk Hs. apply kept_iff in Hk. unfold idna_one. rewrite Hk. cbn [negb].
  destruct Hs as [[H1 [H2 ->]]|[a [b [E [Ha [Hb [Va [Vb H]]]]]]]].
  - right. split; [reflexivity|].
    assert (D : has_dash (rc_cp r) = false).
    { unfold has_dash. destruct (rc_cp r) as [|c s]; [reflexivity|]. rewrite (proj2 (memb_false _ _ N_eqb_iff _ _)); [reflexivity|].
      intro K. apply (no_dash _ _ H2). right. exact K. }
    rewrite D, (parse_hex _ _ H2 H1). reflexivity.
  - left. assert (D : has_dash (rc_cp r) = true).
    { unfold has_dash. rewrite E. destruct a as [|c a]; [contradiction|]. cbn [app hd]. rewrite (proj2 (memb_In _ _ N_eqb_iff _ _)).
      - destruct (N.eqb_spec c 45) as [->|]; [|reflexivity]. exfalso. apply (no_dash _ _ Va). left. reflexivity.
      - apply in_or_app. right. left. reflexivity. }
    rewrite D, E, split_two by (eapply no_dash; eassumption). cbn [mapM_res]. rewrite (parse_hex _ _ Va Ha). cbn [bind].
    rewrite (parse_hex _ _ Vb Hb). reflexivity.
Qed.
Lemma one_skipped : forall g r, ~ kept_property (rc_prop r) -> idna_one g r = (g, Ok tt).
Proof.
  intros g r H. unfold idna_one. destruct (memb cps_eqb (rc_prop r) _) eqn:E; [|reflexivity]. exfalso. apply H. apply kept_iff. exact E.
Qed.

(** ** One addition *)
Record state (g : lgr) (S : N -> Prop) : Prop := mkState {
  s_fine : fine g;
  s_reach : lgr_reachable g;
  s_db : lg_db g = None;
  s_refs : rm_refs (lg_refs g) = [];
  s_has : forall c, lookup (lg_rep g) c <> None <-> exists x, c = [x] /\ S x;
  s_bare : forall c ch, lookup (lg_rep g) c = Some ch -> nothing_else ch }.
Lemma not_invalid : forall g x, lg_db g = None -> ~ idna_invalid g x.
Proof. intros g x H [d [E _]]. congruence. Qed.
Lemma fold_tags_refs : forall l g, lg_refs (fold_left (fun g x => add_cp_to_tag_classes g [x] []) l g) = lg_refs g /\
  lg_db (fold_left (fun g x => add_cp_to_tag_classes g [x] []) l g) = lg_db g.
Proof. induction l as [|x l IH]; intro g; [auto|]. cbn [fold_left]. destruct (IH (add_cp_to_tag_classes g [x] [])) as [-> ->]. auto. Qed.
Lemma range_keeps : forall g f l, lg_refs (fst (lgr_add_range g f l None [] [] None None None false false)) = lg_refs g /\
  lg_db (fst (lgr_add_range g f l None [] [] None None None false false)) = lg_db g.
Proof.
  intros g f l. unfold lgr_add_range. destruct (N.ltb l f); [auto|]. cbn [negb is_some andb]. destruct (check_range g f l None); [|auto].
  destruct (select_cps g false false a) as [k|]; [|auto]. cbn [collect_refs]. change (has_dup []) with false. cbn [andb].
  destruct (insert_list (lg_rep g) k None [] [] None None) as [r [u|e]]; [|auto]. cbn [fst]. destruct (fold_tags_refs k (set_rep g r)) as [-> ->]. auto.
Qed.
Lemma bare_entry : forall y k, nothing_else (mkChar [y] k None [] [] None None []).
Proof. intros. repeat split; reflexivity. Qed.
Lemma classic_span : forall (c : cps) f l, (exists y, c = [y] /\ f <= y <= l) \/ (forall y, c = [y] -> ~ f <= y <= l).
Proof.
  intros c f l. destruct c as [|y [|z c]]; try (right; intros y' E; discriminate).
  destruct (N.le_gt_cases f y) as [A|A]; [destruct (N.le_gt_cases y l) as [B|B]|].
  - left. exists y. auto.
  - right. intros y' E. injection E as <-. lia.
  - right. intros y' E. injection E as <-. lia.
Qed.
Lemma add_one_cp : forall g S x, state g S ->
  (~ S x -> exists g', lgr_add_cp g [x] None [] [] None None None false false = (g', Ok tt) /\ state g' (fun y => S y \/ y = x)) /\
  (S x -> exists g', lgr_add_cp g [x] None [] [] None None None false false = (g', Raise (CharAlreadyExists [x]))).
Proof.
  intros g S x H. destruct (add_cp_spec g [x] None [] [] None None None false false) as [r [F K]].
  pose proof (fine_cp g [x] [] false (s_fine _ _ H) (NoDup_nil _)) as Hf.
  pose proof (lgr_reachable_step g (LAddCp [x] None [] [] None None None false false) (s_reach _ _ H)) as Hre. cbn [lgr_step] in Hre.
  destruct (lgr_add_cp g [x] None [] [] None None None false false) as [g' o] eqn:E. cbn [fst] in Hf, Hre.
  assert (Hp : present g [x] <-> S x).
  { unfold present. rewrite (s_has _ _ H). split; [intros [y [Ey Hy]]; injection Ey as <-; exact Hy|eauto]. }
  assert (R : (exists e, chk_present g [x] e /\ r = Some e) \/ ((forall e, ~ chk_present g [x] e) /\ r = None)).
  { unfold add_cp_checks in F. cbn [first_failing] in F.
    destruct F as [[e [[A _] _]]|[_ F]]; [discriminate|]. destruct F as [[e [[_ [y [Y _]]] _]]|[_ F]].
    { exfalso. destruct Y as [? [? [_ [Y _]]]]. exact (not_invalid g y (s_db _ _ H) Y). }
    destruct F as [[e [[_ [A _]] _]]|[_ F]]; [contradiction|]. destruct F as [[e [[v [y [A _]]] _]]|[_ F]]; [discriminate|].
    destruct F as [[e [[_ [y [[a [b [A _]]] _]]] _]]|[_ F]]; [destruct a; discriminate|]. destruct F as [[e [[_ [A _]] _]]|[_ F]]; [exfalso; apply A; constructor|].
    destruct F as [[e [[_ [_ [A _]]] _]]|[_ F]]; [contradiction|]. destruct F as [[e [[_ [A _]] _]]|[_ F]]; [exfalso; apply A; constructor|]. exact F. }
  split; intro Hx.
  - destruct R as [[e [[A _] _]]|[_ ->]]; [exfalso; apply Hx; apply Hp; exact A|]. destruct K as [-> [K1 [K2 [_ [K4 [_ [_ K7]]]]]]]. exists g'. split; [reflexivity|].
    constructor; [exact Hf|exact Hre|rewrite K4; apply (s_db _ _ H)|rewrite K7; apply (s_refs _ _ H)| |].
    + intro c. destruct (list_eq_dec N.eq_dec c [x]) as [->|Hc].
      * rewrite K1. split; [intros _; exists x; auto|discriminate].
      * rewrite (K2 c Hc), (s_has _ _ H). split; [intros [y [-> Hy]]; eauto|]. intros [y [-> [Hy| ->]]]; [eauto|contradiction].
    + intros c ch Hl. destruct (list_eq_dec N.eq_dec c [x]) as [->|Hc]; [|rewrite (K2 c Hc) in Hl; apply (s_bare _ _ H c ch Hl)].
      rewrite K1 in Hl. injection Hl as <-. apply bare_entry.
  - destruct R as [[e [[_ ->] ->]]|[A _]]; [|exfalso; apply (A (CharAlreadyExists [x])); split; [apply Hp; exact Hx|reflexivity]].
    destruct K as [-> _]. eauto.
Qed.
Lemma add_one_range : forall g S f l, state g S -> f <= l ->
  ((forall x, f <= x <= l -> ~ S x) -> exists g', lgr_add_range g f l None [] [] None None None false false = (g', Ok tt) /\ state g' (fun y => S y \/ f <= y <= l)) /\
  (forall x, f <= x <= l -> S x -> exists g' z, lgr_add_range g f l None [] [] None None None false false = (g', Raise (CharAlreadyExists [z]))).
Proof.
  intros g S f l H Hfl. destruct (add_range_spec_reach g f l None [] [] None None None false false (s_reach _ _ H)) as [r [F K]]. cbv zeta in K.
  pose proof (range_keeps g f l) as Hk.
  pose proof (lgr_reachable_step g (LAddRange f l None [] [] None None None false false) (s_reach _ _ H)) as Hre. cbn [lgr_step] in Hre.
  pose proof (pr_step g (LAddRange f l None [] [] None None None false false) (proj1 (s_fine _ _ H))) as Hpr.
  assert (Hp : forall x, present g [x] <-> S x).
  { intro x. unfold present. rewrite (s_has _ _ H). split; [intros [y [Ey Hy]]; injection Ey as <-; exact Hy|eauto]. }
  assert (Hst : forall x, to_insert g None false false x <-> ~ S x).
  { intro x. split.
    - intros [A|[[A _]|[A _]]].
      + inversion A as [| | |B C D]; subst. rewrite <- Hp. exact D.
      + inversion A; subst. discriminate.
      + exfalso. exact (not_invalid g x (s_db _ _ H) A).
    - intro A. left. apply RSt_ok; [apply (not_invalid g x (s_db _ _ H))|discriminate|]. rewrite Hp. exact A. }
  assert (Hbl : forall x e, blocks g None false false x e <-> S x /\ e = CharAlreadyExists [x]).
  { intros x e. split.
    - intro A. inversion A as [B _ _|B _ _|B _]; subst.
      + inversion B; subst. discriminate.
      + exfalso. exact (not_invalid g x (s_db _ _ H) B).
      + inversion B as [| |C D E|]; subst. split; [apply Hp; exact E|reflexivity].
    - intros [A ->]. apply Bl_exists; [|reflexivity]. apply RSt_exists; [apply (not_invalid g x (s_db _ _ H))|discriminate|apply Hp; exact A]. }
  assert (R : (exists x e, first_such (fun y => exists e', blocks g None false false y e') (nrange f l) x /\ blocks g None false false x e /\ r = Some e) \/
              ((forall x, f <= x <= l -> ~ S x) /\ r = None)).
  { unfold add_range_checks in F. cbn [first_failing] in F.
    destruct F as [[e [[A _] _]]|[_ F]]; [lia|]. destruct F as [[e [[_ [A _]] _]]|[_ F]]; [contradiction|].
    destruct F as [[e [[x [[? [? [_ [[_ [v [A _]]] _]]]] _]] _]]|[_ F]]; [discriminate|].
    destruct F as [[e [[x [A B]] C]]|[N F]]; [left; exists x, e; auto|]. right.
    assert (Hno : forall x, f <= x <= l -> ~ S x).
    { intros x Hx Hs. assert (Hin : In x (nrange f l)) by (apply nrange_In; lia).
      assert (Hex : exists y, first_such (fun y => exists e', blocks g None false false y e') (nrange f l) y).
      { assert (G : forall L, In x L -> exists y, first_such (fun y => exists e', blocks g None false false y e') L y).
        { induction L as [|a L IH]; intro Hi; [destruct Hi|].
          destruct (lookup (lg_rep g) [a]) as [ch|] eqn:Ea.
          - exists a, [], L. split; [reflexivity|]. split; [|intros ? []]. exists (CharAlreadyExists [a]). apply Hbl. split; [apply Hp; unfold present; congruence|reflexivity].
          - assert (Hns : ~ S a) by (rewrite <- Hp; unfold present; intro Q; apply Q; exact Ea).
            destruct Hi as [->|Hi]; [contradiction|]. destruct (IH Hi) as [y [p [q [E1 [E2 E3]]]]]. exists y, (a :: p), q.
            split; [rewrite E1; reflexivity|]. split; [exact E2|]. intros z [<-|Hz]; [|auto]. intros [e' B]. apply Hbl in B. destruct B. contradiction. }
        apply G. exact Hin. }
      destruct Hex as [y Hy]. pose proof Hy as [p [q [_ [[e' B] _]]]]. apply (N e'). exists y. auto. }
    split; [exact Hno|].
    destruct F as [[e [[_ [y [[a [b [A _]]] _]]] _]]|[_ F]]; [destruct a; discriminate|]. destruct F as [[e [[_ [A _]] _]]|[_ F]]; [exfalso; apply A; constructor|].
    destruct F as [[e [[_ [A _]] _]]|[_ F]]; [exfalso; apply A; constructor|]. destruct F as [[e [[A _] _]]|[_ F]]; [|exact F].
    exfalso. apply (A f); [lia|]. apply Hst. apply Hno. lia. }
  destruct (lgr_add_range g f l None [] [] None None None false false) as [g' o] eqn:E. cbn [fst] in Hk, Hre. split.
  - intro Hno. destruct R as [[x [e [[p [q [Eq [_ _]]]] [B _]]]]|[_ ->]].
    { exfalso. apply Hbl in B. destruct B as [B _]. apply (Hno x); [|exact B]. apply nrange_In. rewrite Eq. apply in_or_app. right. left. reflexivity. }
    destruct K as [[-> [_ [K2 K3]]]|[z [_ [[Hz _] [Hpz _]]]]]; [|exfalso; apply (Hno z Hz); apply Hp; exact Hpz].
    exists g'. split; [reflexivity|]. destruct Hk as [Hk1 Hk2].
    assert (W : forall y, f <= y <= l -> exists k, lookup (lg_rep g') [y] = Some (mkChar [y] k None [] [] None None [])).
    { intros y Hy. apply K2. split; [exact Hy|]. apply Hst. apply Hno. exact Hy. }
    constructor.
    + split; [|rewrite Hk1; apply (s_fine _ _ H)]. cbn [lgr_step] in Hpr. rewrite E in Hpr. apply Hpr; [|reflexivity].
      cbn [tidy_op lgr_step]. rewrite E. left. reflexivity.
    + exact Hre.
    + rewrite Hk2. apply (s_db _ _ H).
    + rewrite Hk1. apply (s_refs _ _ H).
    + intro c. destruct (classic_span c f l) as [[y [-> Hy]]|Hc].
      * destruct (W y Hy) as [k ->]. split; [intros _; exists y; auto|discriminate].
      * rewrite (K3 c) by (intros y -> [Hy _]; exact (Hc y eq_refl Hy)). rewrite (s_has _ _ H). split; [intros [y [-> Hy]]; eauto|].
        intros [y [-> [Hy|Hy]]]; [eauto|exfalso; exact (Hc y eq_refl Hy)].
    + intros c ch Hl. destruct (classic_span c f l) as [[y [-> Hy]]|Hc].
      * destruct (W y Hy) as [k Wk]. rewrite Wk in Hl. injection Hl as <-. apply bare_entry.
      * rewrite (K3 c) in Hl by (intros y -> [Hy _]; exact (Hc y eq_refl Hy)). apply (s_bare _ _ H c ch Hl).
  - intros x Hx Hs. destruct R as [[y [e [_ [B ->]]]]|[Hno _]]; [|exfalso; exact (Hno x Hx Hs)].
    apply Hbl in B. destruct B as [_ ->]. destruct K as [-> _]. eauto.
Qed.

(** ** All the records *)
Lemma state_ext : forall g S T, state g S -> (forall x, S x <-> T x) -> state g T.
Proof.
  intros g S T [A B C D E F] H. constructor; try assumption. intro c. rewrite E. split; intros [x [-> Hx]]; exists x; split; auto; apply H; exact Hx.
Qed.
Lemma nothing_new : forall c, lookup (lg_rep (new_lgr None false)) c = None.
Proof. intros [|x c]; reflexivity. Qed.
Lemma state_new : state (new_lgr None false) (fun _ => False).
Proof.
  constructor.
  - apply fine_new.
  - exists None, false, []. reflexivity.
  - reflexivity.
  - reflexivity.
  - intro c. rewrite nothing_new. split; [intro H; exfalso; apply H; reflexivity|intros [x [_ []]]].
  - intros c ch H. rewrite nothing_new in H. discriminate H.
Qed.
Lemma taken_dec : forall g S f l, state g S -> (exists x, f <= x <= l /\ S x) \/ (forall x, f <= x <= l -> ~ S x).
Proof.
  intros g S f l H.
  assert (D : forall x, S x \/ ~ S x).
  { intro x. destruct (lookup (lg_rep g) [x]) as [ch|] eqn:E.
    - left. destruct (proj1 (s_has _ _ H [x])) as [y [Ey Hy]]; [congruence|]. injection Ey as <-. exact Hy.
    - right. intro Hx. apply (proj2 (s_has _ _ H [x])); eauto. }
  assert (G : forall L, (exists x, In x L /\ S x) \/ (forall x, In x L -> ~ S x)).
  { induction L as [|a L [[x [Hx Sx]]|IH]]; [right; intros x []|left; exists x; split; [right; exact Hx|exact Sx]|].
    destruct (D a) as [Ha|Ha]; [left; exists a; split; [left; reflexivity|exact Ha]|]. right. intros x [<-|Hx]; auto. }
  destruct (G (nrange f l)) as [[x [Hx Sx]]|N].
  - left. exists x. apply nrange_In in Hx. auto.
  - right. intros x Hx. apply N. apply nrange_In. exact Hx.
Qed.
Lemma one_state : forall g S r, state g S -> (kept_property (rc_prop r) -> exists f l, spans (rc_cp r) f l) ->
  (exists g', idna_one g r = (g', Ok tt) /\ state g' (fun y => S y \/ lists r y) /\ (forall x, lists r x -> ~ S x)) \/
  (exists g' z, idna_one g r = (g', Raise (CharAlreadyExists [z])) /\ exists x, lists r x /\ S x).
Proof.
  intros g S r H Hw. destruct (memb cps_eqb (rc_prop r) [txt "PVALID"; txt "CONTEXTO"; txt "CONTEXTJ"]) eqn:Ek.
  2:{ assert (K : ~ kept_property (rc_prop r)) by (intro K; apply kept_iff in K; congruence). left. exists g. split; [apply one_skipped; exact K|].
      split; [|intros x [Hk _]; contradiction]. apply (state_ext g S); [exact H|]. intro x. split; [auto|]. intros [Hx|[Hk _]]; [exact Hx|contradiction]. }
  apply kept_iff in Ek. destruct (Hw Ek) as [f [l Hs]]. pose proof (spans_le _ _ _ Hs) as Hfl.
  assert (Hl : forall x, lists r x <-> f <= x <= l).
  { intro x. split; [intros [_ [f' [l' [Hs' Hx]]]]; destruct (spans_fun _ _ _ _ _ Hs Hs') as [-> ->]; exact Hx|]. intro Hx. split; [exact Ek|eauto]. }
  destruct (taken_dec g S f l H) as [[x [Hx Sx]]|Hno].
  - right. destruct (one_reads g r f l Ek Hs) as [->|[-> ->]].
    + destruct (proj2 (add_one_range g S f l H Hfl) x Hx Sx) as [g' [z E]]. exists g', z. split; [exact E|]. exists x. rewrite Hl. auto.
    + assert (x = l) by lia. subst x. destruct (proj2 (add_one_cp g S l H) Sx) as [g' E]. exists g', l. split; [exact E|]. exists l. rewrite Hl. auto.
  - left. assert (Hd : forall x, lists r x -> ~ S x) by (intros x Hx; apply Hno; apply Hl; exact Hx). destruct (one_reads g r f l Ek Hs) as [->|[-> ->]].
    + destruct (proj1 (add_one_range g S f l H Hfl) Hno) as [g' [E St]]. exists g'. split; [exact E|]. split; [|exact Hd].
      apply (state_ext _ _ _ St). intro x. rewrite Hl. tauto.
    + destruct (proj1 (add_one_cp g S l H) (Hno l ltac:(lia))) as [g' [E St]]. exists g'. split; [exact E|]. split; [|exact Hd].
      apply (state_ext _ _ _ St). intro x. rewrite Hl. split; (intros [A|A]; [left; exact A|right; lia]).
Qed.
Lemma all_state : forall recs g S, state g S -> well_formed recs ->
  (exists g', idna_all g recs = (g', Ok tt) /\ state g' (fun y => S y \/ exists r, In r recs /\ lists r y) /\
              listed_once recs /\ forall r x, In r recs -> lists r x -> ~ S x) \/
  (exists g' z, idna_all g recs = (g', Raise (CharAlreadyExists [z])) /\ ~ (listed_once recs /\ forall r x, In r recs -> lists r x -> ~ S x)).
Proof.
  induction recs as [|r recs IH]; intros g S H Hw.
  - left. exists g. split; [reflexivity|]. split; [|split; [constructor|intros r x []]]. apply (state_ext g S); [exact H|]. intro x. split; [auto|].
    intros [Hx|[r [[] _]]]. exact Hx.
  - cbn [idna_all]. destruct (one_state g S r H (Hw r (or_introl eq_refl))) as [[g1 [E [H1 D]]]|[g1 [z [E [x [Hx Sx]]]]]]; rewrite E.
    + destruct (IH g1 _ H1 (fun s Hs => Hw s (or_intror Hs))) as [[g2 [E2 [H2 [L2 D2]]]]|[g2 [z [E2 N]]]].
      * left. exists g2. split; [exact E2|]. split; [|split].
        { apply (state_ext _ _ _ H2). intro x. split.
          - intros [[A|A]|[s [Hs A]]]; [left; exact A|right; exists r; split; [left; reflexivity|exact A]|right; exists s; split; [right; exact Hs|exact A]].
          - intros [A|[s [[<-|Hs] A]]]; [left; left; exact A|left; right; exact A|right; exists s; auto]. }
        { constructor; [|exact L2]. apply Forall_forall. intros s Hs x [A B]. apply (D2 s x Hs B). right. exact A. }
        { intros s x [<-|Hs] A; [apply D; exact A|]. intro B. apply (D2 s x Hs A). left. exact B. }
      * right. exists g2, z. split; [exact E2|]. intros [L D']. apply N. inversion L as [|? ? F L']; subst. split; [exact L'|].
        intros s x Hs A [B|B]; [exact (D' s x (or_intror Hs) A B)|]. rewrite Forall_forall in F. exact (F s Hs x (conj B A)).
    + right. exists g1, z. split; [reflexivity|]. intros [_ D']. exact (D' r x (or_introl eq_refl) Hx Sx).
Qed.

Section Idna.
Variables (lc : cps -> option bool) (dig : N -> bool) (Hdig : knows_digits dig).
Lemma idna_dumped : forall db allow force recs, well_formed recs -> listed_once recs ->
  accepts db allow (fun x => exists r, In r recs /\ lists r x) ->
  exists doc, idna_repertoire recs = Ok doc /\
    reads lc dig db allow force doc (fun m g => same_metadata new_metadata m /\ rm_refs (lg_refs g) = [] /\
      (forall c, lookup (lg_rep g) c <> None <-> exists x, c = [x] /\ exists r, In r recs /\ lists r x) /\
      forall c ch, lookup (lg_rep g) c = Some ch -> nothing_else ch).
Proof.
  intros db allow force recs Hw Hl Ha. destruct (all_state recs _ _ state_new Hw) as [[g [E [St _]]]|[g [z [_ N]]]]; [|exfalso; apply N; split; [exact Hl|intros r x _ _ []]].
  exists (serialize_lgr new_metadata g). split; [unfold idna_repertoire; rewrite E; reflexivity|].
  assert (Hh : forall c, lookup (lg_rep g) c <> None <-> exists x, c = [x] /\ exists r, In r recs /\ lists r x).
  { intro c. rewrite (s_has _ _ St). split; intros [x [-> Hx]]; exists x; (split; [reflexivity|]); [destruct Hx as [[]|Hx]; exact Hx|right; exact Hx]. }
  destruct (written_reads_plain lc dig Hdig g db allow force (s_fine _ _ St)) as [m' [g' [R [R1 [R2 R3]]]]].
  - intros c ch Hlk. apply (s_bare _ _ St c ch Hlk).
  - apply no_references. apply (s_refs _ _ St).
  - destruct Ha as [Ha|Ha]; [left; exact Ha|]. right. intros x d [c [ch [Hlk [Hx|[v [Hv _]]]]]] Hd.
    + apply (Ha x d); [|exact Hd]. destruct (proj1 (Hh c)) as [y [-> Hy]]; [congruence|]. destruct Hx as [<-|[]]. exact Hy.
    + destruct (s_bare _ _ St c ch Hlk) as [_ [_ [_ [_ [_ K]]]]]. rewrite K in Hv. destruct Hv.
  - exists m', g'. split; [exact R|]. split; [exact R1|]. split; [|split].
    + rewrite R3. apply (s_refs _ _ St).
    + intro c. rewrite (same_repertoire_lookup _ _ c R2). apply Hh.
    + intros c ch Hlk. destruct (same_repertoire_entry _ _ _ _ R2 Hlk) as [ch0 [L [[A1 [A2 [A3 [A4 [A5 [A6 A7]]]]]] A8]]].
      destruct (s_bare _ _ St c ch0 L) as [B1 [B2 [B3 [B4 [B5 B6]]]]]. unfold nothing_else. rewrite A3, A4, A5, A6, A7, A8. auto 10.
Qed.
End Idna.
Lemma idna_refused : forall recs, well_formed recs -> ~ listed_once recs -> exists z, idna_repertoire recs = Raise (CharAlreadyExists [z]).
Proof.
  intros recs Hw Hn. unfold idna_repertoire. destruct (all_state recs _ _ state_new Hw) as [[g [E [_ [L _]]]]|[g [z [E _]]]]; [contradiction|]. rewrite E. eauto.
Qed.
Lemma stops_4290 : forall lines evs, asks_4290 None lines evs false -> dump_4290 lines = Raise TypeError.
Proof. intros lines evs H. destruct (proj2 (any_4290 lines) true false evs false H) as [g [E _]]. unfold dump_4290. rewrite E. reflexivity. Qed.
