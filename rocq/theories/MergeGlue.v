(** Members that meet at few code points are merged to an LGR with complete variants. *)
From Coq Require Import Permutation.
From Verif Require Import Base BaseFacts CharModel RepSpec RepProofs VariantProofs IterProofs VarSetSpec VarSetProofs.
From Verif Require Import RefModel RefSpec RefProofs ActionModel LgrModel LgrSpec LgrProofs LgrReach LgrInv LgrRefs LgrTags LgrFinal.
From Verif Require Import ValidateModel ValidateSpec ValidateProofs PopulateModel PopulateSpec PopulateProofs.
From Verif Require Import CompareModel CompareSpec CompareProofs HarmonizeModel HarmonizeSpec HarmonizeProofs HarmonizeFinal.
From Verif Require Import SerialSpec SerialFinal MergeModel MergeProofs MergeSteps MergeLoop MergeSpec MergeRefs MergeFold MergeFinal MergeContext MergeSucceedSpec MergeSucceed MergeAgree MergeCross MergePairExact MergeTurn.
From Verif Require Import LabelModel LabelSpec CombineSpec CombineFinal HarmMergeSpec HarmMerge HarmRoot MergeGlueSpec.
Open Scope string_scope.
Open Scope list_scope.

(** ** One member *)
Record closed (D : list member) (H : cps -> Prop) (R : cps -> cps -> Prop) : Prop := mkClosed {
  cl_has : forall a, H a <-> some_has D a;
  cl_in : forall a b, R a b -> H a /\ H b;
  cl_rel : forall a b, a <> b -> (R a b <-> chained (some_gives D) a b);
  cl_self : forall a, R a a <-> some_gives D a a
}.
Section Step.
  Variable D : list member.
  Variable H : cps -> Prop.
  Variable R : cps -> cps -> Prop.
  Variable m : member.
  Hypothesis C : closed D H R.
  Hypothesis Cm : complete m.
  Hypothesis G : forall c, has_cp m c -> some_has D c -> alone_shared D m c \/ one_knows D m c.
  Let lone (c : cps) : Prop := alone_shared D m c.

  Lemma r_sym : forall a b, R a b -> R b a.
  Proof.
    intros a b X. destruct (cps_eq_dec a b) as [<-|N]; [exact X|]. apply (cl_rel _ _ _ C); [congruence|]. apply chained_sym. apply (cl_rel _ _ _ C); assumption.
  Qed.
  Lemma r_trans : forall a b c, R a b -> R b c -> c <> a -> R a c.
  Proof.
    intros a b c X Y N. destruct (cps_eq_dec a b) as [<-|N1]; [exact Y|]. destruct (cps_eq_dec b c) as [<-|N2]; [exact X|].
    apply (cl_rel _ _ _ C); [congruence|]. eapply chained_trans; apply (cl_rel _ _ _ C); eassumption.
  Qed.
  Lemma m_in : forall a b, gives m a b -> has_cp m a /\ has_cp m b.
  Proof. intros a b X. split; [eapply has_of; exact X|]. apply (proj1 Cm) in X. apply X. Qed.
  Lemma m_sym : forall a b, gives m a b -> gives m b a.
  Proof. intros a b X. apply (proj1 Cm) in X. apply X. Qed.
  Lemma m_trans : forall a b c, gives m a b -> gives m b c -> c <> a -> gives m a c.
  Proof. intros a b c X Y N. apply (proj2 Cm) in X. apply (proj2 X); assumption. Qed.
  Lemma once_m : forall c d, lone c -> H c -> H d -> gives m c d -> c = d.
  Proof. intros c d L X Y Z. destruct (m_in _ _ Z). symmetry. apply L; auto; apply (cl_has _ _ _ C); assumption. Qed.
  Lemma once_r : forall c d, lone c -> has_cp m c -> has_cp m d -> R c d -> c = d.
  Proof.
    intros c d L X Y Z. destruct (cps_eq_dec c d) as [|N]; [assumption|]. destruct (cl_in _ _ _ C _ _ Z). symmetry. apply L; auto; [apply (cl_has _ _ _ C); assumption|].
    right. apply (cl_rel _ _ _ C); assumption.
  Qed.
  Lemma not_lone : forall c, has_cp m c -> H c -> lone c \/ (forall x, gives m c x -> x = c \/ R c x) \/ (forall y, R c y -> y = c \/ gives m c y).
  Proof.
    intros c X Y. destruct (G c X) as [L|[L|L]]; [apply (cl_has _ _ _ C); exact Y|left; exact L| |]; right; [left|right].
    - intros x Z. destruct (cps_eq_dec x c) as [|N]; [auto|]. right. apply (cl_rel _ _ _ C); [congruence|]. apply L. exact Z.
    - intros y Z. destruct (cps_eq_dec y c) as [|N]; [auto|]. apply L. apply (cl_rel _ _ _ C); [congruence|exact Z].
  Qed.
  (** What meets at a shared code point: all its other variants. *)
  Definition crossed (c a b : cps) : Prop := lone c /\ H c /\ has_cp m c /\ a <> c /\ b <> c /\ (gives m c a /\ R c b \/ gives m c b /\ R c a).
  Lemma meeting_crossed : forall c a b, meeting H R m c a b <-> crossed c a b.
  Proof.
    assert (K : forall c x y, coming H R m c x /\ missing R m c y <-> lone c /\ H c /\ has_cp m c /\ x <> c /\ y <> c /\ gives m c x /\ R c y).
    { intros c x y. unfold coming, missing. split.
      - intros [[X1 [X2 [X3 X4]]] [Y1 [Y2 [Y3 Y4]]]]. split; [|auto 10]. destruct (not_lone c Y1 X1) as [L|[L|L]]; [exact L| |].
        + destruct (L x X2); tauto.
        + destruct (L y Y2); tauto.
      - intros [L [X1 [X2 [X3 [X4 [X5 X6]]]]]].
        split; [split; [exact X1|]; split; [exact X5|]; split; [|exact X3]|split; [exact X2|]; split; [exact X6|]; split; [|exact X4]].
        + intro Y. apply X3. symmetry. apply once_r; [exact L|exact X2|apply (m_in _ _ X5)|exact Y].
        + intro Y. apply X4. symmetry. apply once_m; [exact L|exact X1|apply (cl_in _ _ _ C _ _ X6)|exact Y]. }
    intros c a b. unfold meeting, crossed. rewrite !K. tauto.
  Qed.
  Lemma crossed_comm : forall c a b, crossed c a b -> crossed c b a.
  Proof. unfold crossed. tauto. Qed.
  Lemma glue_takes : takes H R m.
  Proof.
    assert (K : forall c a b, lone c -> H c -> has_cp m c -> a <> c -> b <> c -> gives m c a -> R c b -> has_cp m a /\ H b /\ ~ H a /\ ~ has_cp m b).
    { intros c a b L X1 X2 X3 X4 X5 X6. split; [apply (m_in _ _ X5)|]. split; [apply (cl_in _ _ _ C _ _ X6)|]. split.
      - intro Y. apply X3. symmetry. apply once_m; assumption.
      - intro Y. apply X4. symmetry. apply once_r; assumption. }
    intros c a b Mt. apply meeting_crossed in Mt. destruct Mt as [L [X1 [X2 [X3 [X4 [[X5 X6]|[X5 X6]]]]]]].
    - destruct (K c a b) as [Y1 [Y2 [Y3 Y4]]]; auto. split; [auto|]. split; [intro Z; apply Y3, (cl_in _ _ _ C _ _ Z)|]. split; [intro Z; apply Y4, (m_in _ _ Z)|].
      intros d Mt. apply meeting_crossed in Mt. destruct Mt as [_ [W1 [W2 [W3 [W4 [[W5 W6]|[W5 W6]]]]]]]; [|destruct Y4; apply (m_in _ _ W5)].
      destruct (cps_eq_dec d c) as [|N]; [assumption|]. symmetry. apply once_m; auto. apply (m_trans c a d); auto. apply m_sym. exact W5.
    - destruct (K c b a) as [Y1 [Y2 [Y3 Y4]]]; auto. split; [auto|]. split; [intro Z; apply Y3, (cl_in _ _ _ C _ _ Z)|]. split; [intro Z; apply Y4, (m_in _ _ Z)|].
      intros d Mt. apply meeting_crossed in Mt. destruct Mt as [_ [W1 [W2 [W3 [W4 [[W5 W6]|[W5 W6]]]]]]]; [destruct Y4; apply (m_in _ _ W5)|].
      destruct (cps_eq_dec d c) as [|N]; [assumption|]. symmetry. apply once_m; auto. apply (m_trans c b d); auto. apply m_sym. exact W5.
  Qed.
  Lemma rel_crossed : forall a b, then_related H R m a b <-> R a b \/ gives m a b \/ exists c, crossed c a b.
  Proof. intros a b. unfold then_related. split; (intros [X|[X|[c X]]]; [auto|auto|right; right; exists c; apply meeting_crossed; exact X]). Qed.
  (** A step, and then what is related. *)
  Lemma step_rel : forall a b d, R a b \/ gives m a b -> then_related H R m b d -> a = d \/ then_related H R m a d.
  Proof.
    intros a b d S T. destruct (cps_eq_dec a d) as [|Nad]; [auto|]. right. destruct (cps_eq_dec a b) as [<-|Nab]; [exact T|].
    apply rel_crossed in T. apply rel_crossed. destruct S as [S|S].
    - destruct (cl_in _ _ _ C _ _ S) as [Ha Hb]. destruct T as [T|[T|[c [L [X1 [X2 [X3 [X4 [[X5 X6]|[X5 X6]]]]]]]]]].
      + left. eapply r_trans; eauto.
      + destruct (cps_eq_dec d b) as [->|Ndb]; [auto|]. destruct (not_lone b (proj1 (m_in _ _ T)) Hb) as [L|[L|L]].
        2: { destruct (L d T) as [Y|Y]; [congruence|]. left. eapply r_trans; eauto. }
        2: { destruct (L a (r_sym _ _ S)) as [Y|Y]; [congruence|]. right. left. apply (m_trans a b d); auto. apply m_sym. exact Y. }
        right. right. exists b. split; [exact L|]. split; [exact Hb|]. split; [apply (m_in _ _ T)|]. split; [exact Nab|]. split; [exact Ndb|]. right. split; [exact T|apply r_sym; exact S].
      + destruct X3. symmetry. apply once_m; auto.
      + destruct (cps_eq_dec a c) as [->|Nac]; [auto|]. right. right. exists c. split; [exact L|]. split; [exact X1|]. split; [exact X2|]. split; [exact Nac|]. split; [exact X4|]. right. split; [exact X5|].
        apply r_sym. apply (r_trans a b c); auto. apply r_sym. exact X6.
    - destruct (m_in _ _ S) as [Ha Hb]. destruct T as [T|[T|[c [L [X1 [X2 [X3 [X4 [[X5 X6]|[X5 X6]]]]]]]]]].
      + destruct (cps_eq_dec d b) as [->|Ndb]; [auto|]. destruct (not_lone b Hb (proj1 (cl_in _ _ _ C _ _ T))) as [L|[L|L]].
        2: { destruct (L a (m_sym _ _ S)) as [Y|Y]; [congruence|]. left. apply (r_trans a b d); auto. apply r_sym. exact Y. }
        2: { destruct (L d T) as [Y|Y]; [congruence|]. right. left. eapply m_trans; eauto. }
        right. right. exists b. split; [exact L|]. split; [apply (cl_in _ _ _ C _ _ T)|]. split; [exact Hb|]. split; [exact Nab|]. split; [exact Ndb|]. left. split; [apply m_sym; exact S|exact T].
      + right. left. eapply m_trans; eauto.
      + destruct (cps_eq_dec a c) as [->|Nac]; [auto|]. right. right. exists c. split; [exact L|]. split; [exact X1|]. split; [exact X2|]. split; [exact Nac|]. split; [exact X4|]. left. split; [|exact X6].
        apply m_sym. apply (m_trans a b c); auto. apply m_sym. exact X5.
      + destruct X3. symmetry. apply once_r; auto.
  Qed.
  Lemma r_chained : forall a b, R a b -> chained (some_gives D) a b.
  Proof. intros a b X. destruct (cps_eq_dec a b) as [<-|N]; [constructor|]. apply (cl_rel _ _ _ C); assumption. Qed.
  Lemma some_more : forall a b, some_gives (D ++ [m]) a b <-> some_gives D a b \/ gives m a b.
  Proof.
    intros a b. unfold some_gives. split.
    - intros [x [X1 X2]]. apply in_app_iff in X1. destruct X1 as [X1|[<-|[]]]; [left; exists x; auto|auto].
    - intros [[x [X1 X2]]|X]; [exists x|exists m]; rewrite in_app_iff; cbn; auto.
  Qed.
  Lemma glue_closed : closed (D ++ [m]) (then_has H m) (then_related H R m).
  Proof.
    assert (F : forall a b, then_related H R m a b -> chained (some_gives (D ++ [m])) a b).
    { assert (F1 : forall a b, R a b -> chained (some_gives (D ++ [m])) a b).
      { intros a b X. apply r_chained in X. eapply chained_flat; [|exact X]. intros x y Y. eapply chained_forth; [apply some_more; left; exact Y|constructor]. }
      assert (F2 : forall a b, gives m a b -> chained (some_gives (D ++ [m])) a b) by (intros a b X; eapply chained_forth; [apply some_more; right; exact X|constructor]).
      intros a b X. apply rel_crossed in X. destruct X as [X|[X|[c [_ [_ [_ [_ [_ [[X Y]|[X Y]]]]]]]]]]; [auto|auto| |]; eapply chained_trans; [apply chained_sym, F2; exact X|apply F1; exact Y|apply chained_sym, F1; exact Y|apply F2; exact X]. }
    constructor.
    - intro a. unfold then_has. rewrite (cl_has _ _ _ C). unfold some_has. split.
      + intros [[x [X1 X2]]|X]; [exists x|exists m]; rewrite in_app_iff; cbn; auto.
      + intros [x [X1 X2]]. apply in_app_iff in X1. destruct X1 as [X1|[<-|[]]]; [left; exists x; auto|auto].
    - intros a b X. unfold then_has. apply rel_crossed in X. destruct X as [X|[X|[c [_ [_ [_ [_ [_ [[X Y]|[X Y]]]]]]]]]].
      + destruct (cl_in _ _ _ C _ _ X). auto.
      + destruct (m_in _ _ X). auto.
      + destruct (cl_in _ _ _ C _ _ Y). destruct (m_in _ _ X). auto.
      + destruct (cl_in _ _ _ C _ _ Y). destruct (m_in _ _ X). auto.
    - intros a b N. split; [apply F|]. intro X. assert (K : a = b \/ then_related H R m a b); [|destruct K as [K|K]; [destruct (N K)|exact K]]. clear N.
      assert (Sg : forall x y, some_gives (D ++ [m]) x y -> x <> y -> R x y \/ gives m x y).
      { intros x y Y N. apply some_more in Y. destruct Y as [Y|Y]; [left|auto]. apply (cl_rel _ _ _ C); [exact N|]. eapply chained_forth; [exact Y|constructor]. }
      induction X as [x|x y w S X IH|x y w S X IH]; [auto| |]; (destruct (cps_eq_dec x y) as [->|N]; [exact IH|]).
      + pose proof (Sg _ _ S N) as S'. destruct IH as [<-|IH]; [right; apply rel_crossed; tauto|]. apply (step_rel x y w S' IH).
      + assert (S' : R x y \/ gives m x y) by (destruct (Sg _ _ S) as [Y|Y]; [congruence|left; apply r_sym; exact Y|right; apply m_sym; exact Y]).
        destruct IH as [<-|IH]; [right; apply rel_crossed; tauto|]. apply (step_rel x y w S' IH).
    - intro a. rewrite rel_crossed, some_more, <- (cl_self _ _ _ C). split; [|tauto]. intros [X|[X|[c [L [X1 [X2 [X3 [_ [[X5 X6]|[X5 X6]]]]]]]]]]; [auto|auto| |]; destruct X3; symmetry; (apply once_r; [exact L|exact X2|apply (m_in _ _ X5)|exact X6]).
  Qed.
End Step.

(** ** All of them *)
Lemma glue_all : forall l D H R, closed D H R -> glued (D ++ l) -> (forall m, In m l -> complete m) ->
  all_taken H R l /\ exists K, closed (D ++ l) K (related_after H R l).
Proof.
  induction l as [|m l IH]; intros D H R C G Cl; cbn [all_taken related_after].
  { split; [exact I|]. exists H. rewrite app_nil_r. exact C. }
  pose proof (Cl m (or_introl eq_refl)) as Cm. pose proof (G D m l eq_refl) as Gm.
  destruct (IH (D ++ [m]) (then_has H m) (then_related H R m)) as [A [K B]].
  - apply glue_closed; assumption.
  - rewrite <- app_assoc. exact G.
  - intros x Hx. apply Cl. right. exact Hx.
  - split; [split; [apply (glue_takes D); assumption|exact A]|]. exists K. rewrite <- app_assoc in B. exact B.
Qed.
Lemma closed_start : closed [] no_one nothing.
Proof.
  constructor.
  - intro a. split; [intros []|intros [m [[] _]]].
  - intros a b [].
  - intros a b N. split; [intros []|]. intro X. exfalso. revert N. induction X as [x|x y w [m [[] _]] X IH|x y w [m [[] _]] X IH]. congruence.
  - intro a. split; [intros []|intros [m [[] _]]].
Qed.

(** Where there is one shared code point at most. *)
Lemma hub_glued : forall l c0, (forall c, in_two l c -> c = c0) -> glued l.
Proof.
  intros l c0 Hh before m after E c Hc Sc. left. intros d Hd Sd _.
  assert (K : forall x, has_cp m x -> some_has before x -> x = c0).
  { intros x Hx [y [Y1 Y2]]. apply Hh. subst l. apply in_split in Y1. destruct Y1 as [b1 [b2 ->]]. exists y, m. rewrite <- app_assoc. cbn [app].
    exists (b1 ++ b2 ++ after). split; [|split; assumption].
    eapply perm_trans; [apply Permutation_sym, Permutation_middle|]. apply perm_skip. rewrite !app_assoc. apply Permutation_sym, Permutation_middle. }
  rewrite (K d Hd Sd), (K c Hc Sc). reflexivity.
Qed.

Section Ord.
  Variable ord_names : list string -> list string.
  Variable ord_variants : list variant -> list variant.
  Hypothesis Pn : any_order ord_names.
  Hypothesis Pv : any_order ord_variants.

  Theorem glued_merge : forall l, (forall m, In m l -> proper (mb_lgr m) /\ texts_once m /\ unconditional m /\ complete m) -> NoDup (map get_script l) ->
    unambiguous when_of l -> unambiguous not_when_of l ->
    exists l', Permutation l l' /\ in_script_order l' /\ (glued l' ->
      ((exists st, merge_lgr_set ord_names ord_variants l = Ok st) <-> same_rules when_of l /\ same_rules not_when_of l) /\
      forall st, merge_lgr_set ord_names ord_variants l = Ok st ->
        symmetric (lg_rep (mg_lgr st)) /\ transitive (lg_rep (mg_lgr st)) /\
        (forall a b, a <> b -> (has_target (lg_rep (mg_lgr st)) a b <-> chained (some_gives l) a b)) /\
        (forall a, has_target (lg_rep (mg_lgr st)) a a <-> some_gives l a a)).
  Proof.
    intros l Hl Hn U1 U2. destruct (in_turn ord_names ord_variants Pn Pv l) as [l' [Hp [So [Ex Tg]]]]; auto.
    { intros m Hm. destruct (Hl m Hm) as [A [B [C _]]]. auto. }
    exists l'. split; [exact Hp|]. split; [exact So|]. intro G.
    destruct (glue_all l' [] no_one nothing closed_start G) as [A [K C]].
    { intros m Hm. apply Hl. apply (Permutation_in _ (Permutation_sym Hp)). exact Hm. }
    cbn [app] in C. split; [rewrite Ex; tauto|]. intros st E. specialize (Tg st E).
    assert (Q : forall a b, some_gives l' a b <-> some_gives l a b).
    { intros a b. split; intros [m [X1 X2]]; exists m; (split; [|exact X2]); [apply (Permutation_in _ (Permutation_sym Hp))|apply (Permutation_in _ Hp)]; exact X1. }
    assert (Hk : forall a b, has_target (lg_rep (mg_lgr st)) a b -> lookup (lg_rep (mg_lgr st)) b <> None).
    { intros a b T. apply Tg in T. destruct (cl_in _ _ _ C _ _ T) as [_ T']. apply (cl_has _ _ _ C) in T'. destruct T' as [m [X1 X2]].
      apply (Permutation_in _ (Permutation_sym Hp)) in X1. assert (T0 : forall x, In x l -> tidy (mb_lgr x)) by (intros x Hx; apply proper_tidy, Hl, Hx).
      apply (code_points_merged ord_names ord_variants Pv l st T0 E b). exists m. auto. }
    split; [|split; [|split]].
    - intros a b T. split; [eapply Hk; exact T|]. apply Tg. eapply r_sym; [exact C|]. apply Tg. exact T.
    - intros a b T. split; [eapply Hk; exact T|]. intros c T' N. apply Tg. apply Tg in T. apply Tg in T'. eapply (r_trans l' K (related_after no_one nothing l') C a b c); eauto.
    - intros a b N. rewrite Tg, (cl_rel _ _ _ C a b N). split; apply chained_flat; intros x y X; (eapply chained_forth; [apply Q; exact X|constructor]).
    - intro a. rewrite Tg, (cl_self _ _ _ C). apply Q.
  Qed.
  (** Labels: two collide exactly if chains lead from each character of the one
      to that of the other. *)
  Theorem glued_labels : forall l, (forall m, In m l -> proper (mb_lgr m) /\ texts_once m /\ letters (lg_rep (mb_lgr m)) /\ complete m) -> NoDup (map get_script l) ->
    unambiguous when_of l -> unambiguous not_when_of l ->
    exists l', Permutation l l' /\ in_script_order l' /\ (glued l' -> forall st q rm, merge_lgr_set ord_names ord_variants l = Ok st -> rebuilt (lg_rep (mg_lgr st)) q ->
      forall a b, in_lgr q a -> in_lgr q b -> exists ia ib, has_index rm q a ia /\ has_index rm q b ib /\
        (ia = ib <-> Forall2 (fun x y => chained (some_gives l) [x] [y]) a b)).
  Proof.
    intros l Hl Hn U1 U2. destruct (glued_merge l) as [l' [Hp [So Gl]]]; auto.
    { intros m Hm. destruct (Hl m Hm) as [A [B [C D]]]. split; [exact A|]. split; [exact B|]. split; [|exact D].
      intros a b v [ch [X1 [X2 X3]]]. destruct (C _ _ X1) as [_ [_ [_ V]]]. destruct (V v X2) as [V1 [V2 _]]. auto. }
    exists l'. split; [exact Hp|]. split; [exact So|]. intros G st q rm E B a b Ha Hb. destruct (Gl G) as [_ Rs]. destruct (Rs st E) as [_ [Tr [Re _]]].
    destruct (merged_keeps ord_names ord_variants Pv l st q rm) as [H _]; [|exact E|exact Tr|exact B|].
    { intros m Hm. destruct (Hl m Hm) as [X1 [_ [X3 X4]]]. split; [apply proper_tidy; exact X1|]. split; [exact X3|apply X4]. }
    destruct (H a b Ha Hb) as [ia [ib [I1 [I2 I3]]]]. exists ia, ib. split; [exact I1|]. split; [exact I2|]. rewrite I3. unfold variant_labels.
    assert (Q : forall x y : N, (x = y \/ has_target (lg_rep (mg_lgr st)) [x] [y]) <-> chained (some_gives l) [x] [y]).
    { intros x y. destruct (N.eq_dec x y) as [<-|Nx].
      - split; [intros _; apply chained_refl|auto].
      - assert (Nc : [x] <> [y]) by congruence. rewrite <- (Re _ _ Nc). tauto. }
    apply forall2_iff. exact Q.
  Qed.
  Theorem hub_merge : forall l c0, (forall m, In m l -> proper (mb_lgr m) /\ texts_once m /\ unconditional m /\ complete m) -> NoDup (map get_script l) ->
    unambiguous when_of l -> unambiguous not_when_of l -> (forall c, in_two l c -> c = c0) ->
    ((exists st, merge_lgr_set ord_names ord_variants l = Ok st) <-> same_rules when_of l /\ same_rules not_when_of l) /\
    forall st, merge_lgr_set ord_names ord_variants l = Ok st ->
      symmetric (lg_rep (mg_lgr st)) /\ transitive (lg_rep (mg_lgr st)) /\
      (forall a b, a <> b -> (has_target (lg_rep (mg_lgr st)) a b <-> chained (some_gives l) a b)) /\
      (forall a, has_target (lg_rep (mg_lgr st)) a a <-> some_gives l a a).
  Proof.
    intros l c0 Hl Hn U1 U2 Hh. destruct (glued_merge l Hl Hn U1 U2) as [l' [Hp [_ Gl]]]. apply Gl. apply (hub_glued l' c0).
    intros c [m1 [m2 [rest [X1 X2]]]]. apply Hh. exists m1, m2, rest. split; [eapply perm_trans; [exact Hp|exact X1]|exact X2].
  Qed.

  Lemma keys_scripts : forall l, NoDup (map sort_key l) -> NoDup (map get_script l).
  Proof. intros l H. unfold sort_key in H. rewrite <- (map_map get_script (replace_und 0)) in H. apply NoDup_map_inv in H. exact H. Qed.
  Theorem glued_in_order : forall l l', (forall m, In m l -> proper (mb_lgr m) /\ texts_once m /\ unconditional m /\ complete m) -> NoDup (map sort_key l) ->
    unambiguous when_of l -> unambiguous not_when_of l -> Permutation l l' -> in_script_order l' -> glued l' ->
    ((exists st, merge_lgr_set ord_names ord_variants l = Ok st) <-> same_rules when_of l /\ same_rules not_when_of l) /\
    forall st, merge_lgr_set ord_names ord_variants l = Ok st ->
      symmetric (lg_rep (mg_lgr st)) /\ transitive (lg_rep (mg_lgr st)) /\
      (forall a b, a <> b -> (has_target (lg_rep (mg_lgr st)) a b <-> chained (some_gives l) a b)) /\
      (forall a, has_target (lg_rep (mg_lgr st)) a a <-> some_gives l a a).
  Proof.
    intros l l' Hl Hn U1 U2 Hp So G. destruct (glued_merge l Hl (keys_scripts l Hn) U1 U2) as [k [Kp [Ko Gl]]]. apply Gl.
    rewrite <- (order_unique l' k So Ko); [exact G|eapply perm_trans; [apply Permutation_sym; exact Hp|exact Kp]|eapply Permutation_NoDup; [apply Permutation_map; exact Hp|exact Hn]].
  Qed.
  Theorem labels_in_order : forall l l', (forall m, In m l -> proper (mb_lgr m) /\ texts_once m /\ letters (lg_rep (mb_lgr m)) /\ complete m) -> NoDup (map sort_key l) ->
    unambiguous when_of l -> unambiguous not_when_of l -> Permutation l l' -> in_script_order l' -> glued l' ->
    forall st q rm, merge_lgr_set ord_names ord_variants l = Ok st -> rebuilt (lg_rep (mg_lgr st)) q ->
    forall a b, in_lgr q a -> in_lgr q b -> exists ia ib, has_index rm q a ia /\ has_index rm q b ib /\
      (ia = ib <-> Forall2 (fun x y => chained (some_gives l) [x] [y]) a b).
  Proof.
    intros l l' Hl Hn U1 U2 Hp So G. destruct (glued_labels l Hl (keys_scripts l Hn) U1 U2) as [k [Kp [Ko Gl]]]. apply Gl.
    rewrite <- (order_unique l' k So Ko); [exact G|eapply perm_trans; [apply Permutation_sym; exact Hp|exact Kp]|eapply Permutation_NoDup; [apply Permutation_map; exact Hp|exact Hn]].
  Qed.
End Ord.
