(** Members that give the same variants to shared code points. *)
From Coq Require Import Permutation.
From Verif Require Import Base BaseFacts CharModel RepSpec RepProofs VariantProofs IterProofs VarSetSpec VarSetProofs.
From Verif Require Import RefModel RefSpec RefProofs ActionModel LgrModel LgrSpec LgrProofs LgrReach LgrInv LgrRefs LgrTags LgrFinal.
From Verif Require Import ValidateModel ValidateSpec ValidateProofs PopulateModel PopulateSpec PopulateProofs.
From Verif Require Import CompareModel CompareSpec CompareProofs HarmonizeModel HarmonizeSpec HarmonizeProofs HarmonizeFinal HarmonizeCopy.
From Verif Require Import SerialSpec SerialFinal MergeModel MergeProofs MergeSteps MergeLoop MergeSpec MergeRefs MergeFold MergeFinal MergeContext MergeSucceedSpec MergeSucceed MergeAgree MergeCross MergePairExact MergeTurn.
From Verif Require Import LabelModel LabelSpec CombineSpec CombineIndex CombineFinal HarmMergeSpec HarmMerge HarmRoot MergeGlueSpec MergeGlue.
Open Scope string_scope.
Open Scope list_scope.

Lemma same_perm : forall l l', Permutation l l' -> same_variants l -> same_variants l'.
Proof. intros l l' P S m m' c d H1 H2. apply S; apply (Permutation_in _ (Permutation_sym P)); assumption. Qed.
(** A chain is a single step. *)
Lemma same_chained : forall l, (forall m, In m l -> complete m) -> same_variants l -> forall a b, chained (some_gives l) a b -> a = b \/ some_gives l a b.
Proof.
  intros l Cl S a b H.
  assert (T : forall x y w, some_gives l x y -> y = w \/ some_gives l y w -> x = w \/ some_gives l x w).
  { intros x y w [m [I1 G1]] [<-|[m' [I2 G2]]]; [right; exists m; auto|]. destruct (cps_eq_dec x w) as [|N]; [auto|]. right. exists m. split; [exact I1|].
    destruct (cps_eq_dec y w) as [<-|Ny]; [exact G1|].
    apply (m_trans m (Cl m I1) x y w); auto. destruct (m_in m (Cl m I1) _ _ G1). destruct (m_in m' (Cl m' I2) _ _ G2). apply (S m' m y w); auto. }
  induction H as [x|x y w G H IH|x y w G H IH]; [auto|apply (T x y w G IH)|]. apply (T x y w); [|exact IH]. destruct G as [m [I1 G1]]. exists m. split; [exact I1|]. apply (m_sym m (Cl m I1)). exact G1.
Qed.
Lemma same_glued : forall l, (forall m, In m l -> complete m) -> same_variants l -> glued l.
Proof.
  intros l Cl S before m after E c Hc Sc. right. right. intros y Y.
  assert (I : forall x, In x before -> In x l) by (intros x Hx; rewrite E; apply in_app_iff; auto). assert (Im : In m l) by (rewrite E; apply in_app_iff; right; left; reflexivity).
  apply same_chained in Y; [|intros x Hx; apply Cl; auto|intros x x' d e Hx Hx'; apply S; auto].
  destruct (cps_eq_dec c y) as [->|Nc]; [auto|]. destruct Y as [Y|[x [Hx G]]]; [congruence|]. right. destruct (m_in x (Cl x (I x Hx)) _ _ G). apply (S x m c y); auto.
Qed.
Lemma by_script : forall (l : list member) m m', NoDup (map get_script l) -> In m l -> In m' l -> get_script m = get_script m' -> m = m'.
Proof.
  induction l as [|x l IH]; intros m m' N H H' E; [destruct H|]. cbn [map] in N. apply NoDup_cons_iff in N. destruct N as [N1 N2].
  destruct H as [<-|H]; destruct H' as [<-|H']; [reflexivity| | |apply IH; auto]; exfalso; apply N1; [rewrite E|rewrite <- E]; apply in_map; assumption.
Qed.
(** A set in which harmonizing any two adds nothing. *)
Theorem settled_same : forall l, (forall m, In m l -> proper (mb_lgr m)) -> NoDup (map get_script l) ->
  (forall m m', In m l -> In m' l -> get_script m <> get_script m' -> settled_pair m m') -> same_variants l.
Proof.
  intros l Hl Hn S m m' c d Hm Hm' N Hc Hc' G. destruct (string_dec (get_script m) (get_script m')) as [E|E]; [rewrite <- (by_script l m m' Hn Hm Hm' E); exact G|].
  destruct (S m' m Hm' Hm) as [order [h [h' [[r1 r2] [Po [Hh K]]]]]]; [congruence|].
  destruct (harmonize_ok order _ _ h h' r1 r2 Po (proper_tidy _ (Hl m' Hm')) (proper_tidy _ (Hl m Hm)) Hh) as [_ [_ [C _]]].
  apply K. apply (co_related _ _ _ C c d N). eapply chained_forth; [right; split; [split; assumption|exact G]|constructor].
Qed.
Theorem same_settled : forall l, (forall m, In m l -> proper (mb_lgr m) /\ complete m) -> same_variants l -> forall m m', In m l -> In m' l -> settled_pair m m'.
Proof.
  intros l Hl S m m' Hm Hm'. destruct (Hl m Hm) as [P C]. destruct (Hl m' Hm') as [P' C']. assert (Po : rearranges (fun x => x)) by (intro x; apply Permutation_refl).
  destruct (harmonized_exists (fun x => x) m m' Po P P') as [h [h' [[r1 r2] E]]]. exists (fun x => x), h, h', (r1, r2). split; [exact Po|]. split; [exact E|].
  destruct (harmonize_ok _ _ _ h h' r1 r2 Po (proper_tidy _ P) (proper_tidy _ P') E) as [_ [_ [K _]]]. intros a b H. destruct (cps_eq_dec a b) as [<-|N].
  - apply (co_itself _ _ _ K) in H. destruct H as [H|[H1 [c [[H2 H2'] [H3 H4]]]]]; [exact H|]. exfalso. apply H4. apply (S m' m c a); auto. intros ->. auto.
  - apply (co_related _ _ _ K a b N) in H.
    assert (T : forall x y w, gives m x y -> y = w \/ gives m y w -> x = w \/ gives m x w).
    { intros x y w G [<-|G']; [auto|]. destruct (cps_eq_dec x w) as [|Nw]; [auto|]. right. apply (m_trans m C x y w); auto. }
    assert (Q : forall x y, pooled (lg_rep (mb_lgr m)) (lg_rep (mb_lgr m')) x y -> x = y \/ gives m x y).
    { intros x y [X|[[X1 X2] X]]; [auto|]. destruct (cps_eq_dec x y) as [|Nx]; [auto|]. right. apply (S m' m x y); auto. }
    assert (Z : a = b \/ gives m a b); [|destruct Z; [congruence|assumption]]. clear N.
    induction H as [x|x y w G H IH|x y w G H IH]; [auto| |]; (destruct (Q _ _ G) as [Qe|Qg]; [subst; exact IH|]); [apply (T x y w Qg IH)|apply (T x y w); [apply (m_sym m C); exact Qg|exact IH]].
Qed.
Theorem settled_exact : forall l, (forall m, In m l -> proper (mb_lgr m) /\ complete m) -> NoDup (map get_script l) ->
  (same_variants l <-> forall m m', In m l -> In m' l -> get_script m <> get_script m' -> settled_pair m m').
Proof.
  intros l Hl Hn. split; [intros S m m' H H' _; apply (same_settled l Hl S m m' H H')|]. intro S. apply settled_same; [intros m Hm; apply (Hl m Hm)|exact Hn|exact S].
Qed.

Section Ord.
  Variable ord_names : list string -> list string.
  Variable ord_variants : list variant -> list variant.
  Hypothesis Pn : any_order ord_names.
  Hypothesis Pv : any_order ord_variants.

  Theorem same_merge : forall l, (forall m, In m l -> proper (mb_lgr m) /\ texts_once m /\ unconditional m /\ complete m) -> NoDup (map get_script l) ->
    unambiguous when_of l -> unambiguous not_when_of l -> same_variants l ->
    ((exists st, merge_lgr_set ord_names ord_variants l = Ok st) <-> same_rules when_of l /\ same_rules not_when_of l) /\
    forall st, merge_lgr_set ord_names ord_variants l = Ok st ->
      symmetric (lg_rep (mg_lgr st)) /\ transitive (lg_rep (mg_lgr st)) /\ forall a b, has_target (lg_rep (mg_lgr st)) a b <-> some_gives l a b.
  Proof.
    intros l Hl Hn U1 U2 S. assert (Cl : forall m, In m l -> complete m) by (intros m Hm; apply (Hl m Hm)).
    destruct (glued_merge ord_names ord_variants Pn Pv l Hl Hn U1 U2) as [l' [Hp [_ G]]].
    destruct G as [Ex Rs]; [apply same_glued; [intros m Hm; apply Cl; apply (Permutation_in _ (Permutation_sym Hp)); exact Hm|apply (same_perm l); assumption]|].
    split; [exact Ex|]. intros st E. destruct (Rs st E) as [R1 [R2 [R3 R4]]]. split; [exact R1|]. split; [exact R2|]. intros a b. destruct (cps_eq_dec a b) as [<-|N]; [apply R4|]. rewrite (R3 a b N). split.
    - intro H. destruct (same_chained l Cl S a b H) as [X|X]; [congruence|exact X].
    - intro H. eapply chained_forth; [exact H|constructor].
  Qed.
  (** The labels of a member keep their index, and collide with those of the
      member they collided with. *)
  Theorem same_labels : forall l, (forall m, In m l -> proper (mb_lgr m) /\ texts_once m /\ letters (lg_rep (mb_lgr m)) /\ complete m) -> NoDup (map get_script l) ->
    unambiguous when_of l -> unambiguous not_when_of l -> same_variants l ->
    forall st q rm rm', merge_lgr_set ord_names ord_variants l = Ok st -> rebuilt (lg_rep (mg_lgr st)) q ->
    forall m, In m l -> (forall a, in_lgr (lg_rep (mb_lgr m)) a -> exists i, has_index rm (lg_rep (mb_lgr m)) a i /\ has_index rm' q a i) /\
    forall a b, in_lgr (lg_rep (mb_lgr m)) a -> in_lgr q b -> exists ia ib, has_index rm' q a ia /\ has_index rm' q b ib /\
      (ia = ib <-> in_lgr (lg_rep (mb_lgr m)) b /\ variant_labels (lg_rep (mb_lgr m)) a b).
  Proof.
    intros l Hl Hn U1 U2 Sv st q rm rm' E B m Hm.
    assert (T : forall m, In m l -> tidy (mb_lgr m)) by (intros x Hx; apply proper_tidy, (Hl x Hx)). assert (L : forall m, In m l -> letters (lg_rep (mb_lgr m))) by (intros x Hx; apply (Hl x Hx)).
    assert (Cl : forall m, In m l -> complete m) by (intros x Hx; apply (Hl x Hx)). assert (S : forall m, In m l -> symmetric (lg_rep (mb_lgr m))) by (intros x Hx; apply (Cl x Hx)).
    destruct (same_merge l) as [_ Rs]; auto.
    { intros x Hx. destruct (Hl x Hx) as [A1 [B1 [C D]]]. split; [exact A1|]. split; [exact B1|]. split; [|exact D].
      intros u y v [ch [X1 [X2 X3]]]. destruct (C _ _ X1) as [_ [_ [_ V]]]. destruct (V v X2) as [V1 [V2 _]]. auto. }
    destruct (Rs st E) as [Sy [Tr Tg]].
    pose proof (rebuilt_simple _ _ B (letters_merged ord_names ord_variants Pv l st T L S E) Sy Tr) as Sq.
    pose proof (letters_simple _ (L m Hm) (S m Hm) (proj2 (Cl m Hm))) as Sm.
    assert (Ag : agreeing (lg_rep (mb_lgr m)) q).
    { intros a b Nab Ha _. rewrite (rebuilt_target _ _ a b B), (Tg a b). split; [intro X; exists m; auto|].
      intros [z [N1 N2]]. destruct (m_in z (Cl z N1) _ _ N2). apply (Sv z m a b); auto. }
    assert (Rm : reachable (lg_rep (mb_lgr m))) by (apply lgr_reachable_rep, tidy_reachable; auto). destruct B as [Rq [B1 _]].
    assert (Up : forall a, in_lgr (lg_rep (mb_lgr m)) a -> in_lgr q a).
    { intros a Ha x Hx. apply B1. apply (code_points_merged ord_names ord_variants Pv l st T E). exists m. split; [exact Hm|]. apply Ha. exact Hx. }
    assert (SI : forall a, in_lgr (lg_rep (mb_lgr m)) a -> exists i, has_index rm (lg_rep (mb_lgr m)) a i /\ has_index rm' q a i) by (intros a Ha; apply same_index; auto).
    split; [exact SI|]. intros a b Ha Hb. destruct (SI a Ha) as [i [I1 I2]].
    destruct (across rm rm' _ _ Rm Rq Sm Sq Ag a b Ha Hb) as [ia [ib [X1 [X2 X3]]]]. exists i, ib. split; [exact I2|]. split; [exact X2|].
    assert (ia = i); [destruct X1 as [X1 _]; destruct I1 as [I1 _]; congruence|]. subst ia. exact X3.
  Qed.
End Ord.
