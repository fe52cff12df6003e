(** Exactly when members are merged to complete variants one after the other. *)
From Coq Require Import Permutation.
From Verif Require Import Base BaseFacts CharModel RepSpec RepProofs VariantProofs IterProofs VarSetSpec VarSetProofs.
From Verif Require Import RefModel RefSpec RefProofs ActionModel LgrModel LgrSpec LgrProofs LgrReach LgrInv LgrRefs LgrTags LgrFinal.
From Verif Require Import ValidateModel ValidateSpec ValidateProofs PopulateModel PopulateSpec PopulateProofs.
From Verif Require Import CompareModel CompareSpec CompareProofs HarmonizeModel HarmonizeSpec HarmonizeProofs HarmonizeFinal.
From Verif Require Import SerialSpec SerialFinal MergeModel MergeProofs MergeSteps MergeLoop MergeSpec MergeRefs MergeFold MergeFinal MergeContext MergeSucceedSpec MergeSucceed MergeAgree MergeCross MergePairExact MergeTurn.
From Verif Require Import LabelModel LabelSpec CombineSpec CombineFinal HarmMergeSpec HarmMerge HarmRoot MergeGlueSpec MergeGlue MeetRel.
Open Scope string_scope.
Open Scope list_scope.

Definition decided (R : cps -> cps -> Prop) : Prop := forall a b, R a b \/ ~ R a b.

(** ** One member *)
Section Step.
  Variable D : list member.
  Variable H : cps -> Prop.
  Variable R : cps -> cps -> Prop.
  Variable m : member.
  Hypothesis C : closed D H R.
  Hypothesis Rd : decided R.
  Hypothesis Cm : complete m.

  Lemma full_r : full_rel H R.
  Proof. split; [apply (r_sym D H R C)|]. split; [apply (r_trans D H R C)|]. split; [apply (cl_in _ _ _ C)|exact Rd]. Qed.
  Lemma gives_decided : decided (gives m).
  Proof. intros a b. destruct (has_target_dec (lg_rep (mb_lgr m)) a b); auto. Qed.
  Lemma full_m : full_rel (has_cp m) (gives m).
  Proof. split; [apply (m_sym m Cm)|]. split; [apply (m_trans m Cm)|]. split; [apply (m_in m Cm)|exact gives_decided]. Qed.
  Let mt := meet H (has_cp m) R (gives m).
  Lemma coming_adds : forall c x, coming H R m c x <-> adds H (has_cp m) R (gives m) c x.
  Proof. intros c x. unfold coming, adds. split; [intros [X1 [X2 X3]]; pose proof (m_in m Cm _ _ X2); tauto|tauto]. Qed.
  Lemma missing_adds : forall c x, missing R m c x <-> adds (has_cp m) H (gives m) R c x.
  Proof. intros c x. unfold missing, adds. split; [intros [X1 [X2 X3]]; pose proof (cl_in _ _ _ C _ _ X2); tauto|tauto]. Qed.
  Lemma meeting_meet : forall c a b, meeting H R m c a b <-> mt c a b.
  Proof. intros c a b. unfold meeting, mt, meet. rewrite !coming_adds, !missing_adds. reflexivity. Qed.
  Lemma related_joined : forall a b, then_related H R m a b <-> joined_by H (has_cp m) R (gives m) a b.
  Proof. intros a b. unfold then_related, joined_by. split; (intros [X|[X|[c X]]]; [auto|auto|right; right; exists c; apply meeting_meet; exact X]). Qed.
  Lemma takes_once : takes H R m <-> once H (has_cp m) R (gives m).
  Proof.
    destruct full_r as [Ps [Pt [Pi _]]]. destruct full_m as [Qs [Qt [Qi _]]]. split.
    - intros T c d a b X Y. apply meeting_meet in X. apply meeting_meet in Y. destruct (T c a b X) as [_ [_ [_ U]]]. apply U. exact Y.
    - intros O c a b X. apply meeting_meet in X. assert (U : forall d, meeting H R m d a b -> d = c) by (intros d Y; apply (O c d a b X); apply meeting_meet; exact Y).
      destruct X as [[[X1 [X2 [X3 [X4 X5]]]] [_ [_ [Y3 [Y4 Y5]]]]]|[[X1 [X2 [X3 [X4 X5]]]] [_ [_ [Y3 [Y4 Y5]]]]]].
      + split; [right; apply (Qi _ _ X3)|]. split; [intro Z; apply X4; apply (Pt c b a); auto|]. split; [intro Z; apply Y4; apply (Qt c a b); auto|exact U].
      + split; [left; apply (Pi _ _ Y3)|]. split; [intro Z; apply X4; apply (Pt c a b); auto|]. split; [intro Z; apply Y4; apply (Qt c b a); auto|exact U].
  Qed.
  (** What is related afterwards can be decided. *)
  Lemma next_decided : decided (then_related H R m).
  Proof.
    destruct full_r as [Ps [Pt [Pi _]]]. destruct full_m as [Qs [Qt [Qi _]]]. intros a b.
    assert (A : (R a b \/ gives m a b \/ exists c, mt c a b) \/ ~ (R a b \/ gives m a b \/ exists c, mt c a b)).
    { destruct (Rd a b) as [|N1]; [tauto|]. destruct (gives_decided a b) as [|N2]; [tauto|].
      set (plainly := fun c => gives m c a /\ ~ R c a /\ a <> c /\ R c b /\ ~ gives m c b /\ b <> c \/ gives m c b /\ ~ R c b /\ b <> c /\ R c a /\ ~ gives m c a /\ a <> c).
      assert (E : forall c, mt c a b <-> plainly c).
      { intro c. unfold mt, meet, adds, plainly. pose proof (Pi c b). pose proof (Pi c a). pose proof (Qi c a). pose proof (Qi c b). tauto. }
      assert (Pd : forall c, plainly c \/ ~ plainly c).
      { intro c. unfold plainly. destruct (Rd c a); destruct (Rd c b); destruct (gives_decided c a); destruct (gives_decided c b); destruct (cps_eq_dec a c); destruct (cps_eq_dec b c); tauto. }
      set (targets := fun x => match lookup (lg_rep (mb_lgr m)) x with Some ch => map v_cp (get_variants ch) | None => [] end).
      assert (It : forall x c, gives m x c -> In c (targets x)).
      { intros x c [v [ch [X1 [X2 X3]]]]. unfold targets. rewrite X1, <- X3. apply in_map. exact X2. }
      assert (L : (exists c, In c (targets a ++ targets b) /\ plainly c) \/ ~ (exists c, In c (targets a ++ targets b) /\ plainly c)).
      { induction (targets a ++ targets b) as [|c l IH]; [right; intros [c [[] _]]|]. destruct (Pd c) as [|Nc]; [left; exists c; cbn; auto|]. destruct IH as [[e [I1 I2]]|IH]; [left; exists e; cbn; auto|].
        right. intros [e [[<-|I1] I2]]; [exact (Nc I2)|]. apply IH. eauto. }
      destruct L as [[c [_ L]]|L]; [left; right; right; exists c; apply E; exact L|]. right. intros [X|[X|[c X]]]; [auto|auto|]. apply E in X. apply L. exists c. split; [|exact X].
      apply in_app_iff. destruct X as [[X _]|[X _]]; [left|right]; apply It; apply Qs; exact X. }
    rewrite related_joined. exact A.
  Qed.

  (** The condition in terms of the members. *)
  Definition fits_here : Prop := forall c d, c <> d -> some_has D c -> has_cp m c -> some_has D d -> has_cp m d ->
    (chained (some_gives D) c d -> gives m c d -> ~ (news D m c /\ lacks D m c)) /\
    (chained (some_gives D) c d -> ~ gives m c d -> ~ (news D m c /\ news D m d)) /\
    (gives m c d -> ~ chained (some_gives D) c d -> ~ (lacks D m c /\ lacks D m d)).
  Lemma news_adds : forall c, H c -> (news D m c <-> exists x, adds H (has_cp m) R (gives m) c x).
  Proof.
    intros c Hc. split.
    - intros [x [X1 X2]]. exists x. assert (N : x <> c) by (intros ->; apply X2; constructor). split; [exact Hc|]. split; [apply (m_in m Cm _ _ X1)|]. split; [exact X1|]. split; [|exact N].
      intro Y. apply X2. apply (r_chained D H R C). exact Y.
    - intros [x [X1 [X2 [X3 [X4 X5]]]]]. exists x. split; [exact X3|]. intro Y. apply X4. apply (cl_rel _ _ _ C); [congruence|exact Y].
  Qed.
  Lemma lacks_adds : forall c, has_cp m c -> (lacks D m c <-> exists x, adds (has_cp m) H (gives m) R c x).
  Proof.
    intros c Hc. split.
    - intros [y [Y1 [Y2 Y3]]]. exists y. apply (cl_rel _ _ _ C) in Y1; [|congruence]. split; [exact Hc|]. split; [apply (cl_in _ _ _ C _ _ Y1)|]. auto.
    - intros [y [X1 [X2 [X3 [X4 X5]]]]]. exists y. split; [apply (r_chained D H R C); exact X3|auto].
  Qed.
  Lemma fits_here_iff : fits_here <-> fit_one H (has_cp m) R (gives m) /\ fit_one (has_cp m) H (gives m) R /\ fit_both H (has_cp m) R (gives m).
  Proof.
    split.
    - intro F. split; [|split]; intros c d x z N X Y A B.
      + pose proof A as [A1 [A2 _]]. pose proof B as [B1 [B2 _]]. destruct (F c d N) as [_ [F2 _]]; auto; [apply (cl_has _ _ _ C); exact A1|apply (cl_has _ _ _ C); exact B1|].
        apply F2; [apply (cl_rel _ _ _ C); assumption|exact Y|]. split; apply news_adds; eauto.
      + pose proof A as [A1 [A2 _]]. pose proof B as [B1 [B2 _]]. destruct (F c d N) as [_ [_ F3]]; auto; [apply (cl_has _ _ _ C); exact A2|apply (cl_has _ _ _ C); exact B2|].
        apply F3; [exact X|intro Z; apply Y; apply (cl_rel _ _ _ C); assumption|]. split; apply lacks_adds; eauto.
      + pose proof A as [A1 [A2 _]]. destruct (cl_in _ _ _ C _ _ X) as [_ Hd]. destruct (m_in m Cm _ _ Y) as [_ Gd]. destruct (F c d N) as [F1 _]; auto; [apply (cl_has _ _ _ C); exact A1|apply (cl_has _ _ _ C); exact Hd|].
        apply F1; [apply (cl_rel _ _ _ C); assumption|exact Y|]. split; [apply news_adds; eauto|apply lacks_adds; eauto].
    - intros [F1 [F2 F3]] c d N Sc Hc Sd Hd. apply (cl_has _ _ _ C) in Sc. apply (cl_has _ _ _ C) in Sd. split; [|split].
      + intros X Y [A B]. apply news_adds in A; [|exact Sc]. apply lacks_adds in B; [|exact Hc]. destruct A as [x A]. destruct B as [y B]. apply (F3 c d x y N); auto. apply (cl_rel _ _ _ C); assumption.
      + intros X Y [A B]. apply news_adds in A; [|exact Sc]. apply news_adds in B; [|exact Sd]. destruct A as [x A]. destruct B as [z B]. apply (F1 c d x z N); auto. apply (cl_rel _ _ _ C); assumption.
      + intros X Y [A B]. apply lacks_adds in A; [|exact Hc]. apply lacks_adds in B; [|exact Hd]. destruct A as [x A]. destruct B as [z B]. apply (F2 c d x z N); auto. intro Z. apply Y. apply (cl_rel _ _ _ C); assumption.
  Qed.
  Lemma fit_takes : fits_here -> takes H R m.
  Proof. intro F. apply fits_here_iff in F. destruct F as [F1 [F2 F3]]. apply takes_once. apply fit_once; auto; [apply full_r|apply full_m]. Qed.
  Lemma fit_step : fits_here -> forall a b d, R a b \/ gives m a b -> then_related H R m b d -> a = d \/ then_related H R m a d.
  Proof.
    intros F a b d S T. apply fits_here_iff in F. destruct F as [F1 [F2 _]]. destruct (cps_eq_dec a d) as [|N]; [auto|]. right. apply related_joined in T. apply related_joined.
    destruct S as [S|S]; [apply (step_half H (has_cp m) R (gives m) full_r full_m F1 F2 a b d S T N)|].
    apply joined_swap. apply joined_swap in T. apply (step_half (has_cp m) H (gives m) R full_m full_r F2 F1 a b d S T N).
  Qed.
  Lemma fit_needed : takes H R m -> (forall a b d, then_related H R m a b -> then_related H R m b d -> d <> a -> then_related H R m a d) -> fits_here.
  Proof.
    intros T Tr. apply takes_once in T. apply fits_here_iff.
    assert (J : forall a b d, joined_by H (has_cp m) R (gives m) a b -> joined_by H (has_cp m) R (gives m) b d -> d <> a -> joined_by H (has_cp m) R (gives m) a d).
    { intros a b d X Y N. apply related_joined. apply (Tr a b d); [apply related_joined; exact X|apply related_joined; exact Y|exact N]. }
    split; [|split].
    - apply one_needed; [apply full_r|apply full_m|exact T|exact J].
    - apply one_needed; [apply full_m|apply full_r|apply once_swap; exact T|]. intros a b d X Y N. apply joined_swap. apply (J a b d); [apply joined_swap; exact X|apply joined_swap; exact Y|exact N].
    - apply both_needed; [apply full_r|apply full_m|exact T].
  Qed.
  Lemma fit_closed : fits_here -> closed (D ++ [m]) (then_has H m) (then_related H R m).
  Proof.
    intro Ft.
    assert (F : forall a b, then_related H R m a b -> chained (some_gives (D ++ [m])) a b).
    { assert (F1 : forall a b, R a b -> chained (some_gives (D ++ [m])) a b).
      { intros a b X. apply (r_chained D H R C) in X. eapply chained_flat; [|exact X]. intros x y Y. eapply chained_forth; [apply some_more; left; exact Y|constructor]. }
      assert (F2 : forall a b, gives m a b -> chained (some_gives (D ++ [m])) a b) by (intros a b X; eapply chained_forth; [apply some_more; right; exact X|constructor]).
      intros a b X. apply related_joined in X. destruct X as [X|[X|[c [[[_ [_ [X _]]] [_ [_ [Y _]]]]|[[_ [_ [X _]]] [_ [_ [Y _]]]]]]]]; [auto|auto| |]; eapply chained_trans; [apply chained_sym, F2; exact X|apply F1; exact Y|apply chained_sym, F1; exact Y|apply F2; exact X]. }
    constructor.
    - intro a. unfold then_has. rewrite (cl_has _ _ _ C). unfold some_has. split.
      + intros [[x [X1 X2]]|X]; [exists x|exists m]; rewrite in_app_iff; cbn; auto.
      + intros [x [X1 X2]]. apply in_app_iff in X1. destruct X1 as [X1|[<-|[]]]; [left; exists x; auto|auto].
    - intros a b X. unfold then_has. apply related_joined in X. destruct X as [X|[X|[c [[[_ [_ [X _]]] [_ [_ [Y _]]]]|[[_ [_ [X _]]] [_ [_ [Y _]]]]]]]].
      + destruct (cl_in _ _ _ C _ _ X). auto.
      + destruct (m_in m Cm _ _ X). auto.
      + destruct (cl_in _ _ _ C _ _ Y). destruct (m_in m Cm _ _ X). auto.
      + destruct (cl_in _ _ _ C _ _ Y). destruct (m_in m Cm _ _ X). auto.
    - intros a b N. split; [apply F|]. intro X. assert (K : a = b \/ then_related H R m a b); [|destruct K as [K|K]; [destruct (N K)|exact K]]. clear N.
      assert (Sg : forall x y, some_gives (D ++ [m]) x y -> x <> y -> R x y \/ gives m x y).
      { intros x y Y N. apply some_more in Y. destruct Y as [Y|Y]; [left|auto]. apply (cl_rel _ _ _ C); [exact N|]. eapply chained_forth; [exact Y|constructor]. }
      induction X as [x|x y w S X IH|x y w S X IH]; [auto| |]; (destruct (cps_eq_dec x y) as [->|N]; [exact IH|]).
      + pose proof (Sg _ _ S N) as S'. destruct IH as [<-|IH]; [right; unfold then_related; tauto|]. apply (fit_step Ft x y w S' IH).
      + assert (S' : R x y \/ gives m x y) by (destruct (Sg _ _ S) as [Y|Y]; [congruence|left; apply (r_sym D H R C); exact Y|right; apply (m_sym m Cm); exact Y]).
        destruct IH as [<-|IH]; [right; unfold then_related; tauto|]. apply (fit_step Ft x y w S' IH).
    - intro a. rewrite related_joined, some_more, <- (cl_self _ _ _ C). unfold joined_by, meet, adds. split; [|tauto]. intros [X|[X|[c X]]]; [auto|auto|]. tauto.
  Qed.
End Step.

(** ** All of them *)
Lemma fit_all : forall l D H R, closed D H R -> decided R -> fitted (D ++ l) -> (forall m, In m l -> complete m) ->
  all_taken H R l /\ exists K, closed (D ++ l) K (related_after H R l) /\ decided (related_after H R l).
Proof.
  induction l as [|m l IH]; intros D H R C Rd F Cl; cbn [all_taken related_after].
  { split; [exact I|]. exists H. rewrite app_nil_r. auto. }
  pose proof (Cl m (or_introl eq_refl)) as Cm. pose proof (F D m l eq_refl) as Fm.
  destruct (IH (D ++ [m]) (then_has H m) (then_related H R m)) as [A [K B]].
  - apply fit_closed; assumption.
  - apply (next_decided D); assumption.
  - rewrite <- app_assoc. exact F.
  - intros x Hx. apply Cl. right. exact Hx.
  - split; [split; [apply (fit_takes D); assumption|exact A]|]. exists K. rewrite <- app_assoc in B. exact B.
Qed.
(** What holds of every beginning gives the condition. *)
Lemma fit_back : forall l D H R, closed D H R -> decided R -> (forall m, In m l -> complete m) -> all_taken H R l ->
  (forall before after, l = before ++ after -> forall a b d, related_after H R before a b -> related_after H R before b d -> d <> a -> related_after H R before a d) ->
  forall before m after, l = before ++ m :: after -> fits_here (D ++ before) m.
Proof.
  induction l as [|x l IH]; intros D H R C Rd Cl A Tr before m after E; [destruct before; discriminate|].
  cbn [all_taken] in A. destruct A as [A1 A2]. pose proof (Cl x (or_introl eq_refl)) as Cx.
  assert (Fx : fits_here D x). { apply (fit_needed D H R x C Rd Cx A1). exact (Tr [x] l eq_refl). }
  destruct before as [|y before]; cbn [app] in E; injection E as <- E; [rewrite app_nil_r; exact Fx|].
  replace (D ++ x :: before) with ((D ++ [x]) ++ before) by (rewrite <- app_assoc; reflexivity).
  apply (IH (D ++ [x]) (then_has H x) (then_related H R x)) with (after := after); auto.
  - apply fit_closed; assumption.
  - apply (next_decided D); assumption.
  - intros z Hz. apply Cl. right. exact Hz.
  - intros b1 a1 E1. apply (Tr (x :: b1) a1). rewrite E1. reflexivity.
Qed.
Lemma nothing_decided : decided nothing.
Proof. intros a b. right. intros []. Qed.

Section Ord.
  Variable ord_names : list string -> list string.
  Variable ord_variants : list variant -> list variant.
  Hypothesis Pn : any_order ord_names.
  Hypothesis Pv : any_order ord_variants.

  (** In script order, with different keys. *)
  Lemma turn_order : forall l l', (forall m, In m l -> proper (mb_lgr m) /\ texts_once m /\ unconditional m) -> NoDup (map sort_key l) ->
    unambiguous when_of l -> unambiguous not_when_of l -> Permutation l l' -> in_script_order l' ->
    ((exists st, merge_lgr_set ord_names ord_variants l = Ok st) <-> same_rules when_of l /\ same_rules not_when_of l /\ all_taken no_one nothing l') /\
    (forall st, merge_lgr_set ord_names ord_variants l = Ok st -> forall a b, has_target (lg_rep (mg_lgr st)) a b <-> related_after no_one nothing l' a b).
  Proof.
    intros l l' Hl Hn U1 U2 Hp So. destruct (in_turn ord_names ord_variants Pn Pv l Hl (keys_scripts l Hn) U1 U2) as [k [Kp [Ko Gl]]].
    rewrite (order_unique l' k So Ko); [exact Gl|eapply perm_trans; [apply Permutation_sym; exact Hp|exact Kp]|eapply Permutation_NoDup; [apply Permutation_map; exact Hp|exact Hn]].
  Qed.
  Theorem fitted_merge : forall l l', (forall m, In m l -> proper (mb_lgr m) /\ texts_once m /\ unconditional m /\ complete m) -> NoDup (map sort_key l) ->
    unambiguous when_of l -> unambiguous not_when_of l -> Permutation l l' -> in_script_order l' -> fitted l' ->
    ((exists st, merge_lgr_set ord_names ord_variants l = Ok st) <-> same_rules when_of l /\ same_rules not_when_of l) /\
    forall st, merge_lgr_set ord_names ord_variants l = Ok st ->
      symmetric (lg_rep (mg_lgr st)) /\ transitive (lg_rep (mg_lgr st)) /\
      (forall a b, a <> b -> (has_target (lg_rep (mg_lgr st)) a b <-> chained (some_gives l) a b)) /\
      (forall a, has_target (lg_rep (mg_lgr st)) a a <-> some_gives l a a).
  Proof.
    intros l l' Hl Hn U1 U2 Hp So F. destruct (turn_order l l') as [Ex Tg]; auto.
    { intros m Hm. destruct (Hl m Hm) as [A [B [C _]]]. auto. }
    destruct (fit_all l' [] no_one nothing closed_start nothing_decided F) as [A [K [C _]]].
    { intros m Hm. apply Hl. apply (Permutation_in _ (Permutation_sym Hp)). exact Hm. }
    cbn [app] in C. split; [rewrite Ex; tauto|]. intros st E. specialize (Tg st E).
    assert (Q : forall a b, some_gives l' a b <-> some_gives l a b).
    { intros a b. split; intros [m [X1 X2]]; exists m; (split; [|exact X2]); [apply (Permutation_in _ (Permutation_sym Hp))|apply (Permutation_in _ Hp)]; exact X1. }
    assert (Hk : forall a b, has_target (lg_rep (mg_lgr st)) a b -> lookup (lg_rep (mg_lgr st)) b <> None).
    { intros a b T. apply Tg in T. destruct (cl_in _ _ _ C _ _ T) as [_ T']. apply (cl_has _ _ _ C) in T'. destruct T' as [m [X1 X2]].
      apply (Permutation_in _ (Permutation_sym Hp)) in X1. assert (T0 : forall x, In x l -> tidy (mb_lgr x)) by (intros x Hx; apply proper_tidy, Hl, Hx).
      apply (code_points_merged ord_names ord_variants Pv l st T0 E b). exists m. auto. }
    split; [|split; [|split]].
    - intros a b T. split; [eapply Hk; exact T|]. apply Tg. eapply r_sym; [exact C|]. apply Tg. exact T.
    - intros a b T. split; [eapply Hk; exact T|]. intros c T' N. apply Tg. apply Tg in T. apply Tg in T'. eapply (r_trans l' K (related_after no_one nothing l') C a b c); eauto.
    - intros a b N. rewrite Tg, (cl_rel _ _ _ C a b N). split; apply chained_flat; intros x y X; (eapply chained_forth; [apply Q; exact X|constructor]).
    - intro a. rewrite Tg, (cl_self _ _ _ C). apply Q.
  Qed.
  (** Every beginning of the list gives complete variants: the condition, no less. *)
  Theorem fitted_exact : forall l, (forall m, In m l -> proper (mb_lgr m) /\ texts_once m /\ unconditional m /\ complete m) -> NoDup (map sort_key l) ->
    unambiguous when_of l -> unambiguous not_when_of l -> in_script_order l ->
    ((forall before after, l = before ++ after -> exists st, merge_lgr_set ord_names ord_variants before = Ok st /\ symmetric (lg_rep (mg_lgr st)) /\ transitive (lg_rep (mg_lgr st))) <->
     same_rules when_of l /\ same_rules not_when_of l /\ fitted l).
  Proof.
    intros l Hl Hn U1 U2 So.
    assert (Fr : forall f before after, l = before ++ after -> unambiguous f l -> unambiguous f before).
    { intros f before after -> [F1 F2]. split.
      - intros a x c n Ha Hx. apply (F1 a x c n); rewrite in_app_iff; auto.
      - intros a x rest Q. apply (F2 a x (rest ++ after)). apply (Permutation_app_tail after) in Q. exact Q. }
    assert (Ss : forall before after, l = before ++ after -> in_script_order before).
    { intros before after ->. clear - So. unfold in_script_order in *. induction before as [|x before IH]; [constructor|]. cbn [app] in So. inversion So as [|? ? S1 S2]; subst. constructor; [apply IH; exact S1|].
      rewrite Forall_forall in *. intros y Hy. apply S2. apply in_app_iff. auto. }
    assert (Nd : forall before after, l = before ++ after -> NoDup (map sort_key before)).
    { intros before after ->. rewrite map_app in Hn. apply NoDup_app_iff in Hn. apply Hn. }
    assert (Mb : forall before after, l = before ++ after -> forall m, In m before -> proper (mb_lgr m) /\ texts_once m /\ unconditional m /\ complete m).
    { intros before after -> m Hm. apply Hl. apply in_app_iff. auto. }
    split.
    - intro E. destruct (E l []) as [st [M [S T]]]; [rewrite app_nil_r; reflexivity|].
      destruct (turn_order l l) as [Ex _]; auto; [intros m Hm; destruct (Hl m Hm) as [A [B [C _]]]; auto|]. apply proj1 in Ex. destruct (Ex (ex_intro _ st M)) as [R1 [R2 A]].
      split; [exact R1|]. split; [exact R2|]. intros before m after Eq.
      apply (fit_back l [] no_one nothing closed_start nothing_decided) with (after := after); auto.
      + intros x Hx. apply (Hl x Hx).
      + intros b1 a1 E1. destruct (E b1 a1 E1) as [s1 [M1 [S1 T1]]].
        destruct (turn_order b1 b1) as [_ Tg]; eauto; [intros x Hx; destruct (Mb b1 a1 E1 x Hx) as [P1 [P2 [P3 _]]]; auto|]. specialize (Tg s1 M1).
        intros a b d X Y N. apply Tg. apply Tg in X. apply Tg in Y. apply (proj2 (T1 a b X) d Y N).
    - intros [R1 [R2 F]] before after Eq. destruct (fitted_merge before before) as [Ex Rs]; eauto.
      { intros b1 m a1 E1. apply (F b1 m (a1 ++ after)). rewrite Eq, E1, <- app_assoc. reflexivity. }
      destruct (proj2 Ex) as [st M].
      { split; intros c x y n1 n2 Hx Hy; [apply R1|apply R2]; rewrite Eq; apply in_app_iff; auto. }
      exists st. split; [exact M|]. destruct (Rs st M) as [X1 [X2 _]]. auto.
  Qed.
End Ord.
Lemma glued_fitted : forall l, glued l -> fitted l.
Proof.
  intros l G before m after E c d N Sc Hc Sd Hd.
  assert (K : chained (some_gives before) c d \/ gives m c d -> one_knows before m c).
  { intro X. destruct (G before m after E c Hc Sc) as [A|A]; [|exact A]. exfalso. apply N. symmetry. apply (A d Hd Sd). tauto. }
  split; [|split].
  - intros X Y [[x [X1 X2]] [y [Y1 [Y2 Y3]]]]. destruct (K (or_introl X)) as [O|O]; [auto|]. destruct (O y Y1); auto.
  - intros X Y [[x [X1 X2]] _]. destruct (K (or_introl X)) as [O|O]; [auto|]. destruct (O d X); auto.
  - intros X Y [[y [Y1 [Y2 Y3]]] _]. destruct (K (or_intror X)) as [O|O]; [auto|]. destruct (O y Y1); auto.
Qed.
