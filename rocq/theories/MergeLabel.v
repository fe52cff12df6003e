(** Labels in the LGR merged from a set. *)
From Coq Require Import Permutation.
From Verif Require Import Base BaseFacts CharModel RepSpec RepProofs ActionModel ActionSpec LabelModel LabelSpec LabelProofs LabelElig LabelGen LabelVar LabelList LabelFinal LgrModel LgrSpec LgrReach LgrInv
  CompareModel CompareProofs CompareLabelSpec CompareLabel ValidateSpec MergeModel MergeSpec MergeProofs MergeSteps MergeLoop MergeFold MergeFinal MergeContext CombineSpec CombineFinal MergeLabelSpec.
Open Scope string_scope.
Open Scope list_scope.

(** ** Default actions *)
Lemma types_eqb_just : forall o t, types_eqb o (Some [t]) = true <-> just o t.
Proof.
  intros [l|] t; unfold types_eqb, just.
  2:{ split; [discriminate|intros [l [H _]]; discriminate]. }
  unfold subset_b. rewrite andb_true_iff, !forallb_forall. split.
  - intros [H1 H2]. exists l. split; [reflexivity|]. intro s. split.
    + intro Hs. specialize (H1 s Hs). apply (memb_In _ _ string_eqb_iff) in H1. destruct H1 as [<-|[]]. reflexivity.
    + intros ->. specialize (H2 t (or_introl eq_refl)). apply (memb_In _ _ string_eqb_iff) in H2. exact H2.
  - intros [l' [H1 H2]]. injection H1 as <-. split; intros x Hx; apply (memb_In _ _ string_eqb_iff).
    + apply H2 in Hx. left. auto.
    + destruct Hx as [<-|[]]. apply H2. reflexivity.
Qed.
Lemma types_eqb_none : forall o, types_eqb o None = true <-> o = None.
Proof. intros [l|]; cbn; split; congruence. Qed.
Lemma default_iff : forall a, memb action_eqb a default_actions = true <-> by_default a.
Proof.
  intro a. unfold default_actions, memb. cbn [existsb]. rewrite !orb_true_iff. unfold action_eqb. cbn [a_disp a_match a_not_match a_any a_all a_only].
  rewrite !andb_true_iff, !ostring_eqb_eq, !String.eqb_eq, !types_eqb_just, !types_eqb_none. unfold by_default. split.
  - intros H. repeat match goal with H : _ \/ _ |- _ => destruct H as [H|H] end; try discriminate; destruct H as [[[[[H1 H2] H3] H4] H5] H6]; (split; [exact H2|split; [exact H3|]]).
    + left. exists "invalid". cbn. auto 10.
    + left. exists "blocked". cbn. auto 10.
    + left. exists "allocatable". cbn. auto 10.
    + right. left. auto.
    + right. right. auto.
  - intros [H2 [H3 [[t [Ht [H1 [H4 [H5 H6]]]]]|[[H1 [H4 [H5 H6]]]|[H1 [H4 [H5 H6]]]]]]].
    + destruct Ht as [<-|[<-|[<-|[]]]]; auto 15.
    + auto 15.
    + auto 15.
Qed.

(** ** The action that decides *)
Lemma flat_map_split : forall (A B : Type) (f : A -> list B) l p a s, flat_map f l = p ++ a :: s ->
  exists l1 m l2 x1 x2, l = l1 ++ m :: l2 /\ f m = x1 ++ a :: x2 /\ p = flat_map f l1 ++ x1.
Proof.
  intros A B f l. induction l as [|y l IH]; intros p a s H.
  - cbn in H. destruct p; discriminate.
  - cbn [flat_map] in H. apply app_eq_app in H. destruct H as [z [[H1 H2]|[H1 H2]]].
    + destruct z as [|b z].
      * rewrite app_nil_r in H1. cbn in H2. destruct (IH [] a s) as [l1 [m [l2 [x1 [x2 [E1 [E2 E3]]]]]]]; [auto|].
        exists (y :: l1), m, l2, x1, x2. subst. cbn [flat_map app]. split; [reflexivity|]. split; [exact E2|]. rewrite <- app_assoc, <- E3, app_nil_r. reflexivity.
      * cbn in H2. injection H2 as <- H2. exists [], y, l, p, z. auto.
    + destruct (IH z a s H2) as [l1 [m [l2 [x1 [x2 [E1 [E2 E3]]]]]]]. exists (y :: l1), m, l2, x1, x2. subst. cbn [flat_map app]. rewrite <- app_assoc. auto.
Qed.
Lemma filter_split : forall (A : Type) (P : A -> bool) l x1 a x2, filter P l = x1 ++ a :: x2 -> exists y1 y2, l = y1 ++ a :: y2 /\ filter P y1 = x1 /\ P a = true.
Proof.
  intros A P l. induction l as [|b l IH]; intros x1 a x2 H; cbn in H; [destruct x1; discriminate|]. destruct (P b) eqn:Eb.
  - destruct x1 as [|c x1]; cbn in H; injection H as <- H.
    + exists [], l. cbn. auto.
    + destruct (IH _ _ _ H) as [y1 [y2 [E1 [E2 E3]]]]. exists (b :: y1), y2. subst. cbn. rewrite Eb. auto.
  - destruct (IH _ _ _ H) as [y1 [y2 [E1 [E2 E3]]]]. exists (b :: y1), y2. subst. cbn. rewrite Eb. auto.
Qed.
Lemma map_split : forall (A B : Type) (f : A -> B) l x1 a x2, map f l = x1 ++ a :: x2 -> exists y1 b y2, l = y1 ++ b :: y2 /\ map f y1 = x1 /\ f b = a.
Proof.
  intros A B f l x1 a x2 H. apply map_eq_app in H. destruct H as [y1 [y2 [E1 [E2 E3]]]]. destruct y2 as [|b y2]; [discriminate|]. injection E3 as E3 _. exists y1, b, y2. auto.
Qed.

Section Merged.
  Variable ord_names : list string -> list string.
  Variable ord_variants : list variant -> list variant.
  Hypothesis Pv : any_order ord_variants.
  Variables (rms : member -> rule_oracle) (rm : rule_oracle) (l : list member) (st : merged).
  Hypothesis T : forall m, In m l -> tidy (mb_lgr m).
  Hypothesis E : merge_lgr_set ord_names ord_variants l = Ok st.
  Hypothesis F : rules_follow rms rm l.

  Lemma renamed_triggers : forall m a label types only, In m l -> In a (mb_actions m) ->
    (triggers rm (rename_action (get_script m) a) label types only <-> triggers (rms m) a label types only).
  Proof.
    intros m a label types only Hm Ha. unfold triggers. cut (rule_condition rm (rename_action (get_script m) a) label <-> rule_condition (rms m) a label).
    { intro H. rewrite H. unfold variant_condition, rename_action. cbn [a_any a_all a_only]. tauto. }
    pose proof (fun n => proj1 F m a n label Hm Ha) as G. unfold rule_condition, rename_action. cbn [a_match a_not_match].
    assert (X : forall n, a_match a = Some n \/ a_not_match a = Some n -> rename_match (get_script m) (Some n) = Some (rename_rule (get_script m) n) /\ rm (rename_rule (get_script m) n) label None = rms m n label None).
    { intros n Hn. destruct (G n Hn) as [G1 [G2 G3]]. split.
      - unfold rename_match, truthy. destruct n; [contradiction|reflexivity].
      - unfold rename_rule, msr_rules, with_script. unfold memb. cbn [existsb]. rewrite orb_false_r. destruct (String.eqb n "leading-combining-mark") eqn:En.
        + apply String.eqb_eq in En. subst n. apply G2. reflexivity.
        + apply String.eqb_neq in En. apply G3. exact En. }
    destruct (a_match a) as [n|] eqn:Em.
    - destruct (X n) as [X1 X2]; [auto|]. rewrite X1, X2. tauto.
    - cbn [rename_match]. destruct (a_not_match a) as [n|] eqn:En; [|cbn; tauto]. destruct (X n) as [X1 X2]; [auto|]. rewrite X1, X2. tauto.
  Qed.

  Definition own (m : member) : list action := filter (fun a => negb (memb action_eqb a default_actions)) (mb_actions m).
  Lemma own_in : forall m a, In a (own m) <-> In a (mb_actions m) /\ ~ by_default a.
  Proof. intros m a. unfold own. rewrite filter_In, negb_true_iff, <- default_iff. destruct (memb action_eqb a default_actions); intuition congruence. Qed.

  Lemma decided : exists l', Permutation l l' /\ in_script_order l' /\ forall label types only a' i, decided_by rm (mg_actions st) label types only a' i ->
    (exists m a, first_triggered rms l' label types only m a /\ a_disp a' = a_disp a) \/
    ((forall m a, In m l -> ~ triggered rms m label types only a) /\ exists d1 d2, default_actions = d1 ++ a' :: d2 /\
       triggers rm a' label types only /\ forall b, In b d1 -> ~ triggers rm b label types only).
  Proof.
    destruct (actions_merged ord_names ord_variants Pv l st T E) as [l' [P [O [A _]]]]. exists l'. split; [exact P|]. split; [exact O|]. intros label types only a' i [D1 [D2 D3]].
    fold own in A. change (mg_actions st = flat_map (fun m => map (rename_action (get_script m)) (own m)) l') in A.
    assert (In' : forall m, In m l' -> In m l) by (intros m Hm; apply (Permutation_in m (Permutation_sym P) Hm)).
    destruct (nth_error_split _ _ D1) as [p [s [N1 N2]]].
    assert (B : forall b, In b p -> ~ triggers rm b label types only).
    { intros b Hb. apply In_nth_error in Hb. destruct Hb as [j Hj]. assert (Lj : (j < length p)%nat) by (apply nth_error_Some; congruence).
      apply (D3 j b); [lia|]. rewrite N1, nth_error_app1 by lia. exact Hj. }
    assert (C : (exists s', mg_actions st = p ++ a' :: s') \/ exists z, p = mg_actions st ++ z /\ default_actions = z ++ a' :: s).
    { apply app_eq_app in N1. destruct N1 as [z [[Z1 Z2]|[Z1 Z2]]].
      - destruct z as [|b z]; [right; exists []; rewrite app_nil_r in *; auto|]. left. cbn in Z2. injection Z2 as <- _. exists z. exact Z1.
      - right. exists z. auto. }
    destruct C as [[s' C]|[z [C1 C2]]].
    - left. rewrite A in C. destruct (flat_map_split _ _ _ _ _ _ _ C) as [l1 [m [l2 [x1 [x2 [Q1 [Q2 Q3]]]]]]].
      destruct (map_split _ _ _ _ _ _ _ Q2) as [y1 [a [y2 [R1 [R2 R3]]]]]. destruct (filter_split _ _ _ _ _ _ R1) as [w1 [w2 [S1 [S2 S3]]]].
      assert (Hm : In m l) by (apply In'; rewrite Q1; apply in_elt).
      exists m, a. split; [|subst a'; reflexivity]. exists l1, l2, w1, w2. split; [exact Q1|]. split; [exact S1|]. split.
      + intro X. apply default_iff in X. rewrite X in S3. discriminate.
      + split.
        * subst a'. apply renamed_triggers in D2; [exact D2|exact Hm|rewrite S1; apply in_elt].
        * split.
          -- intros b Hb Nb Tb. apply (B (rename_action (get_script m) b)).
             ++ rewrite Q3. apply in_or_app. right. rewrite <- R2. apply in_map. rewrite <- S2. apply filter_In. split; [exact Hb|]. apply negb_true_iff. destruct (memb action_eqb b default_actions) eqn:Eb; [|reflexivity]. apply default_iff in Eb. contradiction.
             ++ apply renamed_triggers; [exact Hm|rewrite S1; apply in_or_app; left; exact Hb|exact Tb].
          -- intros m' b Hm' [Tb1 [Tb2 Tb3]]. apply (B (rename_action (get_script m') b)).
             ++ rewrite Q3. apply in_or_app. left. apply in_flat_map. exists m'. split; [exact Hm'|]. apply in_map. apply own_in. auto.
             ++ apply renamed_triggers; [apply In'; rewrite Q1; apply in_or_app; left; exact Hm'|exact Tb1|exact Tb3].
    - right. split.
      + intros m a Hm [Ta1 [Ta2 Ta3]]. apply (B (rename_action (get_script m) a)).
        * rewrite C1. apply in_or_app. left. rewrite A. apply in_flat_map. exists m. split; [apply (Permutation_in m P Hm)|]. apply in_map. apply own_in. auto.
        * apply renamed_triggers; assumption.
      + exists z, s. split; [exact C2|]. split; [exact D2|]. intros b Hb. apply B. rewrite C1. apply in_or_app. right. exact Hb.
  Qed.

  (** ** Code points *)
  Definition Q_free_at (c : cps) (D : list member) (s : merged) : Prop := forall ch, lk (lg_rep (mg_lgr s)) c = Some ch -> ch_when ch = None /\ ch_not_when ch = None.
  Lemma free_at : forall c, (forall m ch, In m l -> lookup (lg_rep (mb_lgr m)) c = Some ch -> ch_when ch = None /\ ch_not_when ch = None) ->
    forall ch, lookup (lg_rep (mg_lgr st)) c = Some ch -> ch_when ch = None /\ ch_not_when ch = None.
  Proof.
    intros c L. cut (Q_free_at c (isort script_leb l) st); [intros H ch Hc; apply H; rewrite <- lookup_lk; exact Hc|].
    apply (merged_ind ord_names ord_variants Pv (Q_free_at c) l st); [|exact T| |exact E].
    - intros D s m s' P Hm H _ K ch' Hc. destruct (lk (lg_rep (mb_lgr m)) c) as [ch|] eqn:Em.
      + destruct (tk_here _ _ _ _ _ _ K c ch Em) as [y [Y1 Y2]]. rewrite Y1 in Hc. injection Hc as ->.
        assert (El : lookup (lg_rep (mb_lgr m)) c = Some ch) by (rewrite lookup_lk; exact Em). destruct (L m ch Hm El) as [F1 F2].
        destruct (lk (lg_rep (mg_lgr s)) c) as [ex|] eqn:Ee.
        * destruct (H ex Ee) as [G1 G2]. destruct (old_when _ _ _ _ _ _ _ _ Y2) as [j [J1 J2]]. destruct (old_not_when _ _ _ _ _ _ _ _ Y2) as [k [K1 K2]].
          rewrite F1, G1 in J1. rewrite F2, G2 in K1. rewrite J2, K2. split; [apply (join_none _ _ _ _ J1)|apply (join_none _ _ _ _ K1)].
        * rewrite (same_when _ _ Y2), (same_not_when _ _ Y2). cbn [new_head ch_when ch_not_when]. rewrite F1, F2. split; reflexivity.
      + assert (Hs : lk (lg_rep (mg_lgr s)) c <> None).
        { assert (X : lk (lg_rep (mg_lgr s')) c <> None) by congruence. apply (tk_entries _ _ _ _ _ _ K) in X. destruct X as [X|X]; [exact X|congruence]. }
        destruct (lk (lg_rep (mg_lgr s)) c) as [ex|] eqn:Ee; [|congruence]. destruct (tk_old _ _ _ _ _ _ K c ex Em Ee) as [y [Y1 Y2]]. rewrite Y1 in Hc. injection Hc as ->.
        rewrite (same_when _ _ Y2), (same_not_when _ _ Y2). apply (H ex Ee).
    - intros ch H. rewrite start_lk in H. discriminate.
  Qed.
  Lemma only_in : forall m c, only_member l m c -> In m l.
  Proof. intros m c [_ [rest [P _]]]. apply (Permutation_in m (Permutation_sym P)). left. reflexivity. Qed.
  Lemma context_follows : forall m c ch label i, In m l -> lookup (lg_rep (mb_lgr m)) c = Some ch ->
    (context_holds rm (renamed (get_script m) (ch_when ch)) (renamed (get_script m) (ch_not_when ch)) c label i <->
     context_holds (rms m) (ch_when ch) (ch_not_when ch) c label i).
  Proof.
    intros m c ch label i Hm Hc. pose proof (fun n => proj2 F m c n label (c, i) Hm) as G. unfold when_of, not_when_of in G. rewrite Hc in G. unfold context_holds.
    destruct (ch_when ch) as [n|] eqn:Ew.
    - destruct (G n) as [G1 G2]; [auto|]. cbn [renamed]. destruct (String.eqb n "") eqn:En; [apply String.eqb_eq in En; contradiction|]. rewrite G2. tauto.
    - cbn [renamed]. destruct (ch_not_when ch) as [n|] eqn:En; [|tauto]. destruct (G n) as [G1 G2]; [auto|]. cbn [renamed].
      destruct (String.eqb n "") eqn:E0; [apply String.eqb_eq in E0; contradiction|]. rewrite G2. tauto.
  Qed.

  Variable q : repertoire.
  Hypothesis B : rebuilt (lg_rep (mg_lgr st)) q.
  Lemma entry_lookup : forall r ch, entry r ch -> lookup r (ch_cp ch) = Some ch.
  Proof. intros r ch H. exact H. Qed.
  Lemma in_merged : forall c, lookup q c <> None <-> exists m, In m l /\ has_cp m c.
  Proof. intro c. destruct B as [_ [B1 _]]. rewrite B1. apply (code_points_merged ord_names ord_variants Pv l st T E). Qed.
  Lemma fits_applies : forall label i x, nth_error label i = Some x -> fits rms l label i x -> exists ch, entry q ch /\ ch_cp ch = [x] /\ applies rm q label i ch.
  Proof.
    intros label i x Hx Hf.
    assert (H : exists m, In m l /\ has_cp m [x]).
    { destruct Hf as [[m [ch [H1 [H2 _]]]]|[H _]]; [|exact H]. exists m. split; [apply (only_in _ _ H1)|unfold has_cp; congruence]. }
    assert (Q : lookup q [x] <> None) by (apply in_merged; exact H). destruct (lookup q [x]) as [ch|] eqn:Eq; [|congruence]. clear Q.
    assert (Hcp : ch_cp ch = [x]) by (rewrite lookup_lk in Eq; apply (lk_cp _ _ _ Eq)).
    assert (En : entry q ch) by (unfold entry; rewrite Hcp; exact Eq). exists ch. split; [exact En|]. split; [exact Hcp|]. split; [exact En|]. rewrite Hcp. split; [apply nth_occurs; exact Hx|].
    assert (Em : exists ch', lookup (lg_rep (mg_lgr st)) [x] = Some ch' /\ ch_when ch = ch_when ch' /\ ch_not_when ch = ch_not_when ch').
    { destruct B as [_ [B1 B2]]. destruct (lookup (lg_rep (mg_lgr st)) [x]) as [ch'|] eqn:Em; [|exfalso; apply (proj1 (B1 [x])); congruence].
      exists ch'. destruct (B2 [x] ch' ch Em Eq) as [W [NW _]]. auto. }
    destruct Em as [ch' [M1 [M2 M3]]]. rewrite M2, M3. destruct Hf as [[m [c0 [H1 [H2 H3]]]]|[_ H2]].
    - destruct (alone_kept ord_names ord_variants Pv l st T E m [x] H1) as [[a [b [A1 [A2 [_ [A3 A4]]]]]] _]. assert (a = c0) by congruence. assert (b = ch') by congruence. subst a b.
      rewrite A3, A4. apply context_follows; [apply (only_in _ _ H1)|exact H2|exact H3].
    - destruct (free_at [x] H2 ch' M1) as [-> ->]. exact I.
  Qed.

  (** ** Verdicts *)
  Lemma no_selves_rebuilt : no_selves (lg_rep (mg_lgr st)) -> no_selves q.
  Proof. intros H c Hc. apply (H c). apply (rebuilt_target _ _ c c B). exact Hc. Qed.
  Lemma no_self_type : forall rl r label t, no_selves r -> ~ self_type rl r label t.
  Proof.
    intros rl r label t H [i [ch [v [[E1 _] [[V1 [V2 _]] _]]]]]. apply (H (ch_cp ch)). exists v, ch. split; [exact E1|]. split; [exact V1|exact V2].
  Qed.
  Lemma empty_types : forall (P : option string -> Prop) (ds : dispset), (forall t, In t ds <-> P t) -> (forall t, ~ P t) -> ds = [].
  Proof. intros P [|t ds] H N; [reflexivity|]. destruct (N t). apply H. left. reflexivity. Qed.
  (** Without types the default action is the last one. *)
  Lemma default_valid : forall label only d1 a d2, default_actions = d1 ++ a :: d2 -> triggers rm a label [] only -> a_disp a = "valid".
  Proof.
    intros label only d1 a d2 H [_ V]. unfold default_actions in H.
    destruct d1 as [|b1 d1]; cbn in H; injection H as H1 H; [subst a; cbn in V; destruct V as [d [[] _]]|].
    destruct d1 as [|b2 d1]; cbn in H; injection H as H2 H; [subst a; cbn in V; destruct V as [d [[] _]]|].
    destruct d1 as [|b3 d1]; cbn in H; injection H as H3 H; [subst a; cbn in V; destruct V as [d [[] _]]|].
    destruct d1 as [|b4 d1]; cbn in H; injection H as H4 H; [subst a; cbn in V; destruct V as [X _]; destruct X; reflexivity|].
    destruct d1 as [|b5 d1]; cbn in H; injection H as H5 H; [subst a; reflexivity|]. destruct d1; discriminate.
  Qed.
  Theorem merged_verdict : no_selves (lg_rep (mg_lgr st)) -> exists l', Permutation l l' /\ in_script_order l' /\
    forall label, label <> [] -> (forall i x, nth_error label i = Some x -> fits rms l label i x) ->
    exists e, test_label_eligible rm q (mg_actions st) label false = Ok e /\ el_invalid e = [] /\
      ((exists m a, first_triggered rms l' label [] false m a /\ el_disp e = Some (a_disp a) /\ (el_ok e = true <-> a_disp a <> "invalid")) \/
       ((forall m a, In m l -> ~ triggered rms m label [] false a) /\ el_disp e = Some "valid" /\ el_ok e = true)).
  Proof.
    intro Ns. destruct decided as [l' [P [O D]]]. exists l'. split; [exact P|]. split; [exact O|]. intros label Ne Hf.
    destruct (test_label_eligible_spec rm q (mg_actions st) label false (proj1 B) Ne) as [e [chars [inv [H1 [H2 [_ [H4 H5]]]]]]].
    assert (Hi : inv = []) by (apply (always_applies rm q label) with (2 := H2); intros i x Hx; apply fits_applies; auto).
    exists e. split; [exact H1|]. split; [congruence|]. destruct H5 as [[X _]|[_ [ds [only [a [i [D1 [D2 [D3 [D4 [_ [D6 _]]]]]]]]]]]]; [contradiction|].
    assert (Hds : ds = []) by (apply (empty_types _ _ D1); intros t [_ X]; apply (no_self_type _ _ _ _ (no_selves_rebuilt Ns) X)). subst ds.
    assert (Ho : only = false) by (destruct only; [|reflexivity]; destruct (proj1 D2 eq_refl) as [X _]; destruct X; reflexivity). subst only.
    destruct (D label [] false a i D3) as [[m [b [X1 X2]]]|[X1 [d1 [d2 [X2 [X3 _]]]]]].
    - left. exists m, b. split; [exact X1|]. rewrite <- X2. auto.
    - right. split; [exact X1|]. pose proof (default_valid _ _ _ _ _ X2 X3) as V. rewrite V in D4, D6. split; [exact D4|]. apply D6. discriminate.
  Qed.
  Theorem merged_made : forall label e, test_label_eligible rm q (mg_actions st) label false = Ok e -> el_invalid e = [] ->
    made_of (fun c _ => exists m, In m l /\ has_cp m c) 0 label.
  Proof.
    intros label e H1 H2. assert (Ne : label <> []) by (intros ->; discriminate H1).
    destruct (test_label_eligible_spec rm q (mg_actions st) label false (proj1 B) Ne) as [e' [chars [inv [G1 [G2 [_ [G4 _]]]]]]]. assert (e' = e) by congruence. subst e'.
    assert (Hi : inv = []) by congruence. pose proof (longest_match_cut _ _ _ _ _ _ G2 Hi) as C. apply (cut_made _ _ _ (fun c _ => exists m, In m l /\ has_cp m c)) in C; [exact C| |lia].
    intros i ch [A _]. apply in_merged. unfold entry in A. congruence.
  Qed.

  (** ** What the member says *)
  Lemma default_empty : forall rl a label only, by_default a -> triggers rl a label [] only -> a_disp a = "valid".
  Proof.
    intros rl a label only [_ [_ H]] [_ V]. unfold variant_condition in V. destruct H as [[t [_ [_ [[x [Hx _]] _]]]]|[[_ [H1 [[x [Hx _]] _]]]|[H1 _]]]; [| |exact H1].
    - rewrite Hx in V. destruct V as [d [[] _]].
    - rewrite H1, Hx in V. destruct V as [V _]. destruct V; reflexivity.
  Qed.
  Lemma table_default : forall a, In a default_actions -> by_default a.
  Proof. intros a H. apply default_iff. unfold default_actions in *. cbn in H. repeat (destruct H as [<-|H]; [vm_compute; reflexivity|]). destruct H. Qed.
  Theorem member_agrees : no_selves (lg_rep (mg_lgr st)) -> forall m rest label e, Permutation l (m :: rest) -> defaults_last m -> no_selves (lg_rep (mb_lgr m)) -> (forall c, has_cp m c -> exists x, c = [x]) ->
    test_label_eligible (rms m) (lg_rep (mb_lgr m)) (mb_actions m) label false = Ok e -> el_invalid e = [] ->
    (forall x, In x label -> only_member l m [x] \/ forall m' ch, In m' l -> lookup (lg_rep (mb_lgr m')) [x] = Some ch -> ch_when ch = None /\ ch_not_when ch = None) ->
    (forall m' a, In m' rest -> ~ triggered rms m' label [] false a) ->
    exists e', test_label_eligible rm q (mg_actions st) label false = Ok e' /\ el_invalid e' = [] /\ el_disp e' = el_disp e /\ el_ok e' = el_ok e.
  Proof.
    intros Ns m rest label e Pm Dl Nm Sg He Hinv Hx Hoth. assert (Hm : In m l) by (apply (Permutation_in m (Permutation_sym Pm)); left; reflexivity). assert (Ne : label <> []) by (intros ->; discriminate He). set (r := lg_rep (mb_lgr m)) in *.
    assert (Hr : reachable r) by (apply lgr_reachable_rep; apply tidy_reachable; apply T; exact Hm).
    destruct (test_label_eligible_spec (rms m) r (mb_actions m) label false Hr Ne) as [e0 [chars [inv [H1 [H2 [_ [H4 H5]]]]]]]. assert (e0 = e) by congruence. subst e0.
    assert (Hi : inv = []) by congruence. destruct H5 as [[X _]|[_ [ds [only [a [i [D1 [D2 [D3 [D4 [_ [D6 _]]]]]]]]]]]]; [contradiction|].
    assert (Hds : ds = []) by (apply (empty_types _ _ D1); intros t [_ X]; apply (no_self_type _ _ _ _ Nm X)). subst ds.
    assert (Ho : only = false) by (destruct only; [|reflexivity]; destruct (proj1 D2 eq_refl) as [X _]; destruct X; reflexivity). subst only.
    pose proof (longest_match_cut _ _ _ _ _ _ H2 Hi) as C.
    assert (S1 : forall ch, entry r ch -> exists x, ch_cp ch = [x]) by (intros ch En; apply Sg; unfold has_cp; fold r; unfold entry in En; congruence).
    assert (Fi : forall i x, nth_error label i = Some x -> fits rms l label i x).
    { intros j x Hj. destruct (single_cut (rms m) r label S1 0 chars C j x (Nat.le_0_l _) Hj) as [ch [E1 [E2 E3]]]. unfold entry in E1. rewrite E2 in E1. destruct (Hx x (nth_error_In _ _ Hj)) as [Q|Q].
      - left. exists m, ch. auto.
      - right. split; [exists m; split; [exact Hm|unfold has_cp; fold r; congruence]|exact Q]. }
    destruct (merged_verdict Ns) as [l' [P [_ V]]]. destruct (V label Ne Fi) as [e' [V1 [V2 V3]]]. exists e'. split; [exact V1|]. split; [exact V2|].
    assert (K : el_disp e' = Some (a_disp a) /\ (el_ok e' = true <-> a_disp a <> "invalid")).
    { destruct Dl as [u [w [U1 [U2 U3]]]]. destruct V3 as [[m' [b [V3 [V4 V5]]]]|[V3 [V4 V5]]].
      - destruct V3 as [l1 [l2 [x1 [x2 [Y1 [Y2 [Y3 [Y4 [Y5 _]]]]]]]]].
        assert (Im : In m' l) by (apply (Permutation_in m' (Permutation_sym P)); rewrite Y1; apply in_elt).
        assert (Em : m' = m).
        { apply (Permutation_in m' Pm) in Im. destruct Im as [<-|Im]; [reflexivity|]. exfalso. apply (Hoth m' b Im). split; [rewrite Y2; apply in_elt|auto]. }
        subst m'. assert (Dd : decided_by (rms m) (mb_actions m) label [] false b (length x1)).
        { assert (Nx : forall y, In y x1 -> ~ by_default y).
          { rewrite U1 in Y2. apply app_eq_app in Y2. destruct Y2 as [z [[Z1 Z2]|[Z1 Z2]]].
            - intros y Hy. apply U2. rewrite Z1. apply in_or_app. left. exact Hy.
            - destruct Y3. apply U3. rewrite Z2. apply in_elt. }
          split; [rewrite Y2, <- app_assoc; cbn [app]; rewrite nth_error_app2, Nat.sub_diag by lia; reflexivity|]. split; [exact Y4|].
          intros j y Hj Hy. rewrite Y2, <- app_assoc, nth_error_app1 in Hy by exact Hj. apply nth_error_In in Hy. apply Y5; [exact Hy|apply Nx; exact Hy]. }
        destruct (decided_unique _ _ _ _ _ _ _ _ _ D3 Dd) as [-> _]. auto.
      - assert (Va : a_disp a = "valid").
        { destruct D3 as [N1 [N2 _]]. apply nth_error_In in N1. apply (default_empty (rms m) a label false); [|exact N2]. rewrite U1 in N1. rewrite !in_app_iff in N1. destruct N1 as [[N1|N1]|N1].
          - exfalso. apply (V3 m a Hm). split; [rewrite U1; apply in_or_app; left; exact N1|]. auto.
          - apply U3. exact N1.
          - apply table_default. exact N1. }
        rewrite Va. split; [exact V4|]. rewrite V5. split; [discriminate|reflexivity]. }
    destruct K as [K1 K2]. split; [congruence|]. destruct (el_ok e'), (el_ok e); try reflexivity.
    - symmetry. apply D6. apply K2. reflexivity.
    - apply K2. apply D6. reflexivity.
  Qed.
  Theorem apart_no_selves : apart_members l -> (forall m, In m l -> no_selves (lg_rep (mb_lgr m))) -> no_selves (lg_rep (mg_lgr st)).
  Proof. intros Hd Hn c Hc. apply (disjoint_targets ord_names ord_variants Pv l st T E Hd) in Hc. destruct Hc as [m [M1 M2]]. apply (Hn m M1 c M2). Qed.

  (** ** Variants *)
  Lemma blocked_variant : forall ch v, entry q ch -> In v (get_variants ch) -> v_type v = Some "blocked".
  Proof.
    intros ch v En Hv. destruct B as [_ [B1 B2]]. unfold entry in En. destruct (lookup (lg_rep (mg_lgr st)) (ch_cp ch)) as [c0|] eqn:Ec; [|exfalso; apply (proj1 (B1 (ch_cp ch))); congruence].
    destruct (B2 _ _ _ Ec En) as [_ [_ W]]. apply W in Hv. assert (M : mapping (lg_rep (mg_lgr st)) (ch_cp ch) (v_cp v) v) by (exists c0; auto).
    destruct (variants_from ord_names ord_variants Pv l st T E _ _ _ M) as [[m [u [_ [_ [_ [X _]]]]]]|[[X _] _]]; exact X.
  Qed.
  Lemma kept_all : forall allowed done rest x, replacement rm allowed done rest x -> (forall ch v, ~ In (ch, PVar v) x) -> result x = rest.
  Proof.
    intros allowed done rest x H. induction H as [|done ch tail x A K R IH|done ch v tail x A U R IH]; intro N; [reflexivity| |].
    - unfold result in *. cbn. f_equal. apply IH. intros c v Hv. apply (N c v). right. exact Hv.
    - destruct (N ch v). left. reflexivity.
  Qed.
  Lemma used_or_kept : forall x : list (char * piece), (exists ch v, In (ch, PVar v) x) \/ forall ch v, ~ In (ch, PVar v) x.
  Proof.
    induction x as [|[c [d|v]] x IH]; [right; intros ch v []| |left; exists c, v; left; reflexivity]. destruct IH as [[ch [v H]]|H]; [left; exists ch, v; right; exact H|].
    right. intros ch v [X|X]; [discriminate|apply (H ch v X)].
  Qed.
  Theorem variants_types : forall script label ws w, label <> [] -> label_variants rm q script label false = Some ws -> In w ws ->
    (forall t, In t (vl_disp w) -> t = Some "blocked") /\ (vl_cp w <> label -> In (Some "blocked") (vl_disp w)).
  Proof.
    intros script label ws w Ne Hws Hw. destruct (variants_exact rm q script (reachable_wf _ (proj1 B)) label Ne) as [ws' [W1 [W2 _]]]. assert (ws' = ws) by congruence. subst ws'.
    destruct (W2 w Hw) as [x [R1 [_ [R2 [_ [R3 _]]]]]].
    assert (Ent : forall ch v, In (ch, PVar v) x -> entry q ch /\ In v (get_variants ch)).
    { clear - R1. induction R1 as [|done ch tail x A K R IH|done ch v tail x A U R IH]; intros c u Hu; [contradiction| |]; destruct Hu as [Hu|Hu]; auto; [discriminate|].
      injection Hu as <- <-. split; [apply considered_entry in A; apply A|apply U]. }
    split.
    - intros t Ht. apply R3 in Ht. destruct Ht as [_ [ch [v [V1 <-]]]]. destruct (Ent _ _ V1) as [V2 V3]. apply (blocked_variant _ _ V2 V3).
    - intro Hd. destruct (used_or_kept x) as [[ch [v V1]]|K].
      + destruct (Ent _ _ V1) as [V2 V3]. apply R3. split; [discriminate|]. exists ch, v. split; [exact V1|]. apply (blocked_variant _ _ V2 V3).
      + exfalso. apply Hd. rewrite R2. apply (kept_all _ _ _ _ R1 K).
  Qed.
  Lemma default_blocked : forall label types only d1 a d2, (forall t, In t types -> t = Some "blocked") -> In (Some "blocked") types ->
    default_actions = d1 ++ a :: d2 -> triggers rm a label types only -> (forall b, In b d1 -> ~ triggers rm b label types only) -> a_disp a = "blocked".
  Proof.
    intros label types only d1 a d2 Ht Hb H [_ V] N. unfold default_actions in H.
    destruct d1 as [|b1 d1]; cbn in H; injection H as H1 H.
    - subst a. cbn in V. destruct V as [d [V1 [s [V2 [<-|[]]]]]]. rewrite (Ht d V1) in V2. discriminate.
    - destruct d1 as [|b2 d1]; cbn in H; injection H as H2 H; [subst a; reflexivity|]. exfalso. apply (N b2); [right; left; reflexivity|]. subst b2. split; [exact I|]. cbn.
      exists (Some "blocked"). split; [exact Hb|]. exists "blocked". split; [reflexivity|left; reflexivity].
  Qed.
  Theorem listed_blocked : exists l', Permutation l l' /\ in_script_order l' /\
    forall script label inc gen wl, label <> [] -> (length label <= 63)%nat ->
    exists zs o, compute_label_disposition rm q (mg_actions st) script true label inc false gen wl = (zs ++ [o], Ok tt) /\ ls_cp o = label /\
      forall z, In z zs -> (forall t, In t (ls_types z) -> t = Some "blocked") /\ In (Some "blocked") (ls_types z) /\
        (ls_disp z = Some "blocked" \/ ls_disp z = Some "invalid" \/
         exists m a only, first_triggered rms l' (ls_cp z) (ls_types z) only m a /\ ls_disp z = Some (a_disp a)).
  Proof.
    destruct decided as [l' [P [O D]]]. exists l'. split; [exact P|]. split; [exact O|]. intros script label inc gen wl Ne Hlen.
    destruct (listing_spec rm q (mg_actions st) script (proj1 B) label inc false gen wl Ne Hlen) as [ws [zs [o [L1 [L2 [L3 [L4 [_ [L6 _]]]]]]]]].
    exists zs, o. split; [exact L2|]. split; [exact L3|]. intros z Hz. destruct (L6 z Hz) as [w [W1 [_ [[J1 [J2 [e [_ [_ J3]]]]] _]]]].
    destruct (variants_types script label ws w Ne L1 W1) as [V1 V2]. rewrite J2. split; [exact V1|]. assert (Hd : vl_cp w <> label) by (rewrite <- J1; apply L4; exact Hz).
    split; [apply V2; exact Hd|]. destruct J3 as [[_ [J3 _]]|[_ [a [i [J3 [J4 _]]]]]]; [auto|]. rewrite J4, J1.
    destruct (D _ _ _ _ _ J3) as [[m [b [X1 X2]]]|[_ [d1 [d2 [X2 [X3 X4]]]]]].
    - right. right. exists m, b, (vl_only w). split; [exact X1|]. congruence.
    - left. f_equal. apply (default_blocked _ _ _ _ _ _ V1 (V2 Hd) X2 X3 X4).
  Qed.
End Merged.
