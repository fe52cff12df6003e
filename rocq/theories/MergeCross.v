(** Exactly when the variants that differ between members can be joined. *)
From Coq Require Import Permutation.
From Verif Require Import Base BaseFacts CharModel RepSpec RepProofs VariantProofs IterProofs VarSetSpec VarSetProofs.
From Verif Require Import RefModel RefSpec RefProofs ActionModel LgrModel LgrSpec LgrProofs LgrReach LgrInv LgrRefs LgrTags LgrFinal.
From Verif Require Import ValidateModel ValidateSpec ValidateProofs PopulateModel PopulateSpec PopulateProofs.
From Verif Require Import CompareModel CompareSpec CompareProofs HarmonizeModel HarmonizeSpec HarmonizeProofs HarmonizeFinal.
From Verif Require Import SerialSpec SerialFinal MergeModel MergeProofs MergeSteps MergeLoop MergeSpec MergeRefs MergeFold MergeFinal MergeContext MergeSucceedSpec MergeSucceed.
Open Scope string_scope.
Open Scope list_scope.

(** ** Joining pair by pair *)
Fixpoint join_all (g : lgr) (l : list (cps * cps)) : res lgr :=
  match l with
  | [] => Ok g
  | (a, b) :: l' => bind (finished (put_variant g a b blocked None None merge_comment [])) (fun g1 => join_all g1 l')
  end.
Definition both_ways (X Y : list cps) : list (cps * cps) := flat_map (fun x => flat_map (fun y => [(x, y); (y, x)]) Y) X.
Lemma join_app : forall l1 l2 g, join_all g (l1 ++ l2) = bind (join_all g l1) (fun g1 => join_all g1 l2).
Proof. induction l1 as [|[a b] l1 IH]; intros l2 g; [reflexivity|]. cbn [app join_all]. destruct (finished _) as [g1|e]; cbn [bind]; [apply IH|reflexivity]. Qed.
Lemma cross_one_list : forall v1 l2 g, cross_one g v1 l2 = join_all g (flat_map (fun y => [(v_cp v1, y); (y, v_cp v1)]) (map v_cp l2)).
Proof.
  intros v1. induction l2 as [|v2 l2 IH]; intro g; [reflexivity|]. cbn [cross_one map flat_map app join_all]. destruct (finished _) as [g1|e]; cbn [bind]; [|reflexivity].
  destruct (finished _) as [g2|e]; cbn [bind]; [apply IH|reflexivity].
Qed.
Lemma cross_two_list : forall ov l1 l2 g, cross_two ov g l1 l2 = join_all g (both_ways (map v_cp l1) (map v_cp (ov l2))).
Proof.
  intros ov. induction l1 as [|v1 l1 IH]; intros l2 g; [reflexivity|]. cbn [cross_two]. unfold both_ways. cbn [map flat_map]. rewrite join_app, <- cross_one_list.
  destruct (cross_one _ _ _) as [g1|e]; cbn [bind]; [apply IH|reflexivity].
Qed.
Definition todo (ov : list variant -> list variant) (P : list (list variant * list variant)) : list (cps * cps) :=
  flat_map (fun p => both_ways (map v_cp (ov (fst p))) (map v_cp (ov (snd p)))) P.
Lemma cross_all_list : forall ov P g, cross_all ov g P = join_all g (todo ov P).
Proof.
  intros ov. induction P as [|[l1 l2] P IH]; intro g; [reflexivity|]. cbn [cross_all]. unfold todo. cbn [flat_map fst snd]. rewrite join_app, <- cross_two_list.
  destruct (cross_two _ _ _ _) as [g1|e]; cbn [bind]; [apply IH|reflexivity].
Qed.

(** ** When it succeeds *)
Definition freely (g : lgr) (a b : cps) : Prop := exists u, mapping (lg_rep g) a b u /\ v_when u = None /\ v_not_when u = None.
Lemma join_exact : forall l g, shape g ->
  ((exists g', join_all g l = Ok g') <-> NoDup l /\ forall a b, In (a, b) l -> lk (lg_rep g) a <> None /\ b <> [] /\ ~ freely g a b).
Proof.
  induction l as [|[a b] l IH]; intros g S.
  { split; [intros _; split; [constructor|intros a b []]|intros _; exists g; reflexivity]. }
  cbn [join_all]. split.
  - intros [g' E]. apply bind_ok in E. destruct E as [g1 [E1 E]]. destruct (put_grown _ _ _ _ _ _ _ _ _ S E1) as [G1 He].
    destruct (put_cases _ _ _ _ _ _ _ _ _ S E1) as [Hb [_ [_ [_ [ch [ch' [Hc [Hn _]]]]]]]].
    destruct (proj1 (IH g1 (gr_shape _ _ _ G1)) (ex_intro _ g' E)) as [Nd Al]. split.
    + constructor; [|exact Nd]. intro Hi. destruct (Al a b Hi) as [_ [_ X]]. apply X. eexists. split; [apply (gr_map _ _ _ G1); right; split; [|split; reflexivity]; reflexivity|]. split; reflexivity.
    + intros x y [H|H].
      * injection H as <- <-. split; [exact He|]. split; [exact Hb|]. intros [u [U1 [U2 U3]]]. apply Hn. apply mapping_lk in U1. destruct U1 as [z [Z1 [Z2 Z3]]].
        assert (z = ch) by congruence. subst z. apply in_map_iff. exists u. split; [unfold vkey; congruence|exact Z2].
      * destruct (Al x y H) as [X1 [X2 X3]]. split; [intro K; apply X1; apply (gr_new _ _ _ G1); exact K|]. split; [exact X2|]. intros [u [U1 U2]]. apply X3. exists u. split; [apply (gr_map _ _ _ G1); auto|exact U2].
  - intros [Nd Al]. inversion Nd as [|? ? N1 N2]; subst. destruct (Al a b (or_introl eq_refl)) as [X1 [X2 X3]]. destruct (lk (lg_rep g) a) as [ch|] eqn:Hc; [|congruence].
    destruct (put_ok g a b blocked None None merge_comment [] ch S Hc X2) as [g1 E1]; auto; [constructor|intros x []| |].
    { intro Hi. apply in_map_iff in Hi. destruct Hi as [u [U1 U2]]. unfold vkey in U1. injection U1 as U3 U4 U5. apply X3. exists u. split; [apply mapping_lk; exists ch; auto|auto]. }
    rewrite E1. cbn [bind]. destruct (put_grown _ _ _ _ _ _ _ _ _ S E1) as [G1 _]. apply (IH g1 (gr_shape _ _ _ G1)). split; [exact N2|].
    intros x y H. destruct (Al x y (or_intror H)) as [Y1 [Y2 Y3]]. split; [destruct (lk (lg_rep g) x) as [c0|] eqn:E; [destruct (gr_old _ _ _ G1 x c0 E) as [c1 [C1 _]]; congruence|congruence]|]. split; [exact Y2|].
    intros [u [U1 U2]]. apply (gr_map _ _ _ G1) in U1. destruct U1 as [U1|[U1 [U3 U4]]]; [apply Y3; exists u; auto|]. subst x. rewrite U4 in U1. cbn in U1. subst y. exact (N1 H).
Qed.

Lemma join_map : forall l g g', shape g -> join_all g l = Ok g' ->
  forall a b u, mapping (lg_rep g') a b u <-> mapping (lg_rep g) a b u \/ In (a, b) l /\ u = mkVariant b blocked None None merge_comment [].
Proof.
  induction l as [|[c d] l IH]; intros g g' S E a b u.
  { injection E as <-. cbn. tauto. }
  cbn [join_all] in E. apply bind_ok in E. destruct E as [g1 [E1 E]]. destruct (put_grown _ _ _ _ _ _ _ _ _ S E1) as [G1 _].
  rewrite (IH g1 g' (gr_shape _ _ _ G1) E), (gr_map _ _ _ G1). cbn [In]. split.
  - intros [[X|[X1 [X2 X3]]]|[X1 X2]]; [auto| |auto]. right. subst u. cbn in X1. subst d. split; [left; congruence|reflexivity].
  - intros [X|[[X|X] Y]]; [auto| |auto]. injection X as -> ->. left. right. subst u. auto.
Qed.

(** ** The pairs of one code point *)
Lemma both_ways_In : forall X Y a b, In (a, b) (both_ways X Y) <-> In a X /\ In b Y \/ In b X /\ In a Y.
Proof.
  intros X Y a b. unfold both_ways. rewrite in_flat_map. split.
  - intros [x [X1 X2]]. apply in_flat_map in X2. destruct X2 as [y [Y1 [Y2|[Y2|[]]]]]; injection Y2 as <- <-; auto.
  - intros [[H1 H2]|[H1 H2]]; [exists a|exists b]; (split; [exact H1|]); apply in_flat_map; [exists b|exists a]; cbn; auto.
Qed.
Lemma both_ways_once : forall X Y, NoDup X -> NoDup Y -> (forall x, In x X -> In x Y -> False) -> NoDup (both_ways X Y).
Proof.
  intros X Y Nx Ny. induction Nx as [|x X Hx Nx IH]; intros Hd; [constructor|]. unfold both_ways. cbn [flat_map]. apply NoDup_app_iff; split; [|split].
  - assert (Hxy : forall y, In y Y -> x <> y) by (intros y Hy ->; apply (Hd y (or_introl eq_refl) Hy)). clear - Ny Hxy. induction Ny as [|y Y Hy Ny IH]; [constructor|]. cbn [flat_map app].
    assert (A : forall p q, In (p, q) (flat_map (fun y => [(x, y); (y, x)]) Y) -> (p = x /\ In q Y) \/ (q = x /\ In p Y)).
    { intros p q H. apply in_flat_map in H. destruct H as [z [Z1 [Z2|[Z2|[]]]]]; injection Z2 as <- <-; auto. }
    constructor; [|constructor].
    + intros [H|H]; [injection H as H1 _; apply (Hxy y (or_introl eq_refl)); congruence|]. apply A in H. destruct H as [[_ H]|[H _]]; [exact (Hy H)|apply (Hxy y (or_introl eq_refl)); congruence].
    + intros H. apply A in H. destruct H as [[H _]|[_ H]]; [apply (Hxy y (or_introl eq_refl)); congruence|exact (Hy H)].
    + apply IH. intros z Hz. apply Hxy. right. exact Hz.
  - apply IH. intros z Hz. apply Hd. right. exact Hz.
  - intros [a b] H1 H2. apply in_flat_map in H1. destruct H1 as [y [Y1 Y2]]. change (In (a, b) (both_ways X Y)) in H2. apply both_ways_In in H2.
    destruct Y2 as [Y2|[Y2|[]]]; injection Y2 as <- <-; destruct H2 as [[H2 H3]|[H2 H3]]; first [exact (Hx H2)|apply (Hd y); [right; exact H2|exact Y1]|apply (Hd x); [left; reflexivity|exact H3]|apply (Hd x); [left; reflexivity|assumption]].
Qed.

(** ** The pairs of all code points *)
(** [x] is a variant [ch] has and the merged LGR does not, [y] the other way. *)
Definition only_new (g : lgr) (ch : char) (x : cps) : Prop :=
  lk (lg_rep g) (ch_cp ch) <> None /\ In x (map v_cp (get_variants ch)) /\ ~ has_target (lg_rep g) (ch_cp ch) x /\ x <> ch_cp ch.
Definition only_old (g : lgr) (ch : char) (y : cps) : Prop :=
  has_target (lg_rep g) (ch_cp ch) y /\ ~ In y (map v_cp (get_variants ch)) /\ y <> ch_cp ch.
Definition linked (g : lgr) (ch : char) (a b : cps) : Prop := only_new g ch a /\ only_old g ch b \/ only_new g ch b /\ only_old g ch a.
Definition pairing (g : lgr) (ch : char) (p : list variant * list variant) : Prop :=
  NoDup (map v_cp (fst p)) /\ NoDup (map v_cp (snd p)) /\
  (forall x, In x (map v_cp (fst p)) <-> only_new g ch x) /\ (forall y, In y (map v_cp (snd p)) <-> only_old g ch y).
Definition arranged (g : lgr) (D : list char) (P : list (list variant * list variant)) : Prop :=
  exists C, NoDup (map ch_cp C) /\ incl C D /\ Forall2 (pairing g) C P /\ forall ch x y, In ch D -> only_new g ch x -> only_old g ch y -> In ch C.

Section Pairs.
  Variable ord_variants : list variant -> list variant.
  Hypothesis Pv : forall l, Permutation (ord_variants l) l.
  Lemma pairing_In : forall g ch p a b, pairing g ch p -> (In (a, b) (both_ways (map v_cp (ord_variants (fst p))) (map v_cp (ord_variants (snd p)))) <-> linked g ch a b).
  Proof.
    intros g ch p a b [_ [_ [H1 H2]]]. rewrite both_ways_In.
    assert (K : forall x l, In x (map v_cp (ord_variants l)) <-> In x (map v_cp l)) by (intros x l; split; apply Permutation_in; [|apply Permutation_sym]; apply Permutation_map, Pv).
    rewrite !K, !H1, !H2. unfold linked. tauto.
  Qed.
  Lemma pairing_once : forall g ch p, pairing g ch p -> NoDup (both_ways (map v_cp (ord_variants (fst p))) (map v_cp (ord_variants (snd p)))).
  Proof.
    intros g ch p [N1 [N2 [H1 H2]]].
    assert (K : forall l, Permutation (map v_cp (ord_variants l)) (map v_cp l)) by (intro l; apply Permutation_map, Pv).
    apply both_ways_once; [apply (Permutation_NoDup (Permutation_sym (K _)) N1)|apply (Permutation_NoDup (Permutation_sym (K _)) N2)|].
    intros x X1 X2. apply (Permutation_in _ (K _)), H1 in X1. apply (Permutation_in _ (K _)), H2 in X2. destruct X1 as [_ [X1 _]]. destruct X2 as [_ [X2 _]]. exact (X2 X1).
  Qed.
  Lemma todo_In : forall g C P a b, Forall2 (pairing g) C P -> (In (a, b) (todo ord_variants P) <-> exists ch, In ch C /\ linked g ch a b).
  Proof.
    intros g C P a b F. induction F as [|ch p C P H F IH]; [split; [intros []|intros [ch [[] _]]]|].
    unfold todo. cbn [flat_map]. rewrite in_app_iff. fold (todo ord_variants P). rewrite IH, (pairing_In g ch p a b H). split.
    - intros [X|[c [X1 X2]]]; [exists ch|exists c]; cbn; auto.
    - intros [c [[<-|X1] X2]]; [auto|right; eauto].
  Qed.
  Lemma todo_once : forall g C P, NoDup (map ch_cp C) -> Forall2 (pairing g) C P ->
    (NoDup (todo ord_variants P) <-> forall c d a b, In c C -> In d C -> linked g c a b -> linked g d a b -> c = d).
  Proof.
    intros g C P N F. induction F as [|ch p C P H F IH]; [split; [intros _ c d a b []|constructor]|].
    cbn in N. apply NoDup_cons_iff in N. destruct N as [N1 N2]. unfold todo. cbn [flat_map]. fold (todo ord_variants P). rewrite NoDup_app_iff, (IH N2). split.
    - intros [_ [A B]] c d a b Hc Hd L1 L2.
      assert (X : forall c', In c' C -> linked g c' a b -> linked g ch a b -> False).
      { intros c' H' L' L. apply (B (a, b)); [apply (pairing_In g ch p a b H); exact L|]. apply (todo_In g C P a b F). eauto. }
      destruct Hc as [<-|Hc]; destruct Hd as [<-|Hd]; [reflexivity|destruct (X d Hd L2 L1)|destruct (X c Hc L1 L2)|apply (A c d a b); auto].
    - intro A. split; [apply (pairing_once g ch p H)|]. split; [intros c d a b Hc Hd; apply A; right; assumption|].
      intros [a b] X1 X2. apply (pairing_In g ch p a b H) in X1. apply (todo_In g C P a b F) in X2. destruct X2 as [d [D1 D2]].
      assert (ch = d) by (apply (A ch d a b); cbn; auto). subst d. apply N1. apply in_map. exact D1.
  Qed.
  Lemma arranged_exact : forall g g' D P, shape g' -> arranged g D P -> NoDup (map ch_cp D) ->
    ((exists h, cross_all ord_variants g' P = Ok h) <->
     forall c a b, In c D -> linked g c a b -> lk (lg_rep g') a <> None /\ b <> [] /\ ~ freely g' a b /\ forall d, In d D -> linked g d a b -> d = c).
  Proof.
    intros g g' D P S [C [N [I [F A]]]] Nd. rewrite cross_all_list, (join_exact _ g' S), (todo_once g C P N F).
    assert (L : forall c a b, In c D -> linked g c a b -> In c C) by (intros c a b Hc [[L1 L2]|[L1 L2]]; eapply A; eauto).
    split.
    - intros [H1 H2] c a b Hc L1. destruct (H2 a b) as [X1 [X2 X3]]; [apply (todo_In g C P a b F); exists c; split; [eapply L; eauto|exact L1]|].
      split; [exact X1|]. split; [exact X2|]. split; [exact X3|]. intros d Hd L2. apply (H1 d c a b); eauto.
    - intro H. split.
      + intros c d a b Hc Hd L1 L2. destruct (H d a b (I d Hd) L2) as [_ [_ [_ X]]]. apply X; [apply I; exact Hc|exact L1].
      + intros a b Hi. apply (todo_In g C P a b F) in Hi. destruct Hi as [c [Hc L1]]. destruct (H c a b (I c Hc) L1) as [X1 [X2 [X3 _]]]. auto.
  Qed.
  Lemma arranged_map : forall g g' D P h, shape g' -> arranged g D P -> cross_all ord_variants g' P = Ok h ->
    forall a b u, mapping (lg_rep h) a b u <-> mapping (lg_rep g') a b u \/ (exists c, In c D /\ linked g c a b) /\ u = mkVariant b blocked None None merge_comment [].
  Proof.
    intros g g' D P h S [C [N [I [F A]]]] E a b u. rewrite cross_all_list in E. rewrite (join_map _ _ _ S E), (todo_In g C P a b F).
    assert (L : (exists c, In c C /\ linked g c a b) <-> (exists c, In c D /\ linked g c a b)).
    { split; intros [c [X1 X2]]; exists c; (split; [|exact X2]); [apply I; exact X1|]. destruct X2 as [[L1 L2]|[L1 L2]]; eapply A; eauto. }
    rewrite L. tauto.
  Qed.
End Pairs.

(** ** The loop *)
Definition bare_variants (l : list variant) : Prop := forall v, In v l -> v_when v = None /\ v_not_when v = None.
Lemma drop_nodup : forall A (f : variant -> A) c l, NoDup (map f l) -> NoDup (map f (drop_itself c l)).
Proof.
  intros A f c. induction l as [|v l IH]; intro N; [constructor|]. cbn [drop_itself map] in *. apply NoDup_cons_iff in N. destruct N as [N1 N2]. destruct (cps_eqb _ _); [exact N2|].
  cbn [map]. constructor; [|apply IH; exact N2]. intro H. apply N1. apply in_map_iff in H. destruct H as [x [X1 X2]]. rewrite <- X1. apply in_map. eapply drop_itself_In; eauto.
Qed.
Lemma drop_other : forall c l, NoDup (map v_cp l) -> forall v, In v (drop_itself c l) -> v_cp v <> c.
Proof.
  intros c. induction l as [|v l IH]; intros N x Hx; [destruct Hx|]. cbn [drop_itself map] in *. apply NoDup_cons_iff in N. destruct N as [N1 N2]. destruct (cps_eqb (v_cp v) c) eqn:E.
  - apply cps_eqb_eq in E. intro K. apply N1. rewrite E, <- K. apply in_map. exact Hx.
  - destruct Hx as [<-|Hx]; [intro K; rewrite K, cps_eqb_refl in E; discriminate|]. apply (IH N2 x Hx).
Qed.
Lemma bare_once : forall l, bare_variants l -> NoDup (map vkey l) -> NoDup (map v_cp l).
Proof.
  induction l as [|v l IH]; intros B N; [constructor|]. cbn in *. apply NoDup_cons_iff in N. destruct N as [N1 N2]. constructor; [|apply IH; [intros x Hx; apply B; right; exact Hx|exact N2]].
  intro H. apply in_map_iff in H. destruct H as [x [X1 X2]]. apply N1. apply in_map_iff. exists x. split; [|exact X2].
  destruct (B v (or_introl eq_refl)) as [A1 A2]. destruct (B x (or_intror X2)) as [A3 A4]. unfold vkey. congruence.
Qed.
Section Ord.
  Variable ord_names : list string -> list string.
  Variable ord_variants : list variant -> list variant.
  Hypothesis Pn : forall l, Permutation (ord_names l) l.
  Hypothesis Pv : forall l, Permutation (ord_variants l) l.
  Lemma side_list : forall c a b, NoDup (map vkey a) -> bare_variants a -> bare_variants b ->
    let l := drop_itself c (ord_variants (set_diff variant_eqb a b)) in
    NoDup (map v_cp l) /\ forall x, In x (map v_cp l) <-> In x (map v_cp a) /\ ~ In x (map v_cp b) /\ x <> c.
  Proof.
    intros c a b N Ba Bb l.
    assert (H1 : forall v, In v (ord_variants (set_diff variant_eqb a b)) <-> In v a /\ ~ In (vkey v) (map vkey b)) by (intro v; rewrite (perm_In _ _ Pv); apply variant_diff_In; exact N).
    assert (N1 : NoDup (map v_cp (ord_variants (set_diff variant_eqb a b)))).
    { apply bare_once; [intros v Hv; apply H1 in Hv; apply Ba, Hv|]. eapply Permutation_NoDup; [apply Permutation_sym, Permutation_map, Pv|].
      unfold set_diff. destruct (dedup_vkey_aux a []) as [X _]. fold (dedup variant_eqb a) in X. clear - X. induction (dedup variant_eqb a) as [|v l IH]; [constructor|]. cbn in *. apply NoDup_cons_iff in X. destruct X as [X1 X2].
      destruct (negb _); [|apply IH; exact X2]. cbn. constructor; [|apply IH; exact X2]. intro K. apply X1. apply in_map_iff in K. destruct K as [u [U1 U2]]. apply filter_In in U2. rewrite <- U1. apply in_map, U2. }
    assert (K : forall v, In v a -> (In (vkey v) (map vkey b) <-> In (v_cp v) (map v_cp b))).
    { intros v Hv. destruct (Ba v Hv) as [V1 V2]. rewrite !in_map_iff. split; intros [u [U1 U2]]; exists u; (split; [|exact U2]); [unfold vkey in U1; congruence|]. destruct (Bb u U2) as [W1 W2]. unfold vkey. congruence. }
    split; [apply drop_nodup; exact N1|]. intro x. unfold l. rewrite !in_map_iff. split.
    - intros [v [V1 V2]]. pose proof (drop_other c _ N1 v V2) as V3. apply drop_itself_In, H1 in V2. destruct V2 as [V2 V4]. split; [exists v; auto|]. split; [|congruence].
      intro Hi. apply V4, (K v V2). rewrite in_map_iff. rewrite V1. exact Hi.
    - intros [[v [V1 V2]] [V3 V4]]. exists v. split; [exact V1|]. apply drop_itself_keeps; [|congruence]. apply H1. split; [exact V2|]. rewrite (K v V2), in_map_iff, V1. exact V3.
  Qed.
  Section Member.
  Variables (script : string) (previous : list string) (ext : option (N -> list string)).
  Variables (mp : dict string string) (rules : list string).
  Definition rules_join (ch ex : char) : Prop :=
    (exists j, join_context script previous (ch_when ex) (ch_when ch) (ch_cp ch) = Ok j) /\
    (exists j, join_context script previous (ch_not_when ex) (ch_not_when ch) (ch_cp ch) = Ok j).
  Lemma existing_plain : forall w ch ex, shape (wk_lgr w) -> good mp (wk_lgr w) ch -> lk (lg_rep (wk_lgr w)) (ch_cp ch) = Some ex -> rules_join ch ex ->
    bare_variants (get_variants ch) ->
    exists w', merge_existing ord_names ord_variants script previous ext mp rules w ch = Ok w' /\
      let l1 := drop_itself (ch_cp ch) (ord_variants (set_diff variant_eqb (get_variants ch) (get_variants ex))) in
      let l2 := drop_itself (ch_cp ch) (ord_variants (set_diff variant_eqb (get_variants ex) (get_variants ch))) in
      (wk_new w' = wk_new w ++ [(l1, l2)] \/ wk_new w' = wk_new w /\ (l1 = [] \/ l2 = [])).
  Proof.
    intros [g rl nw] ch ex S G Hl Hs Hb. cbn [wk_lgr] in *. unfold merge_existing. cbn [wk_lgr wk_rules wk_new].
    rewrite get_char_lk by (apply (go_cp _ _ _ G)). rewrite Hl. cbn [bind]. pose proof (lk_cp _ _ _ Hl) as Hcp. rewrite Hcp.
    set (ex1 := mkChar (ch_cp ch) (ch_kind ex) (choose_comment (ch_comment ex) (ch_comment ch)) _ _ _ _ _).
    set (n1 := set_diff variant_eqb (get_variants ch) (get_variants ex)). set (n2 := set_diff variant_eqb (get_variants ex) (get_variants ch)).
    pose proof (get_variants_NoDup ch (go_wf _ _ _ G)) as Nk.
    assert (Hn1 : forall v, In v (ord_variants n1) <-> In v (get_variants ch) /\ ~ In (vkey v) (map vkey (get_variants ex))).
    { intro v. rewrite (perm_In _ _ Pv). apply variant_diff_In. exact Nk. }
    destruct (edit_grown g (ch_cp ch) ex ex1 S Hl) as [S1 [R1 [L1 M1]]]; [unfold ex1; cbn; auto|reflexivity|reflexivity|].
    assert (Hput : exists g1, put_all (edit_char g ex1) script mp (ch_cp ch) (ord_variants n1) = Ok g1).
    { apply (put_all_ok script mp (ch_cp ch) (ord_variants n1) (edit_char g ex1) ex1); auto.
      - rewrite L1, cps_eqb_refl. reflexivity.
      - intros v Hv. apply Hn1 in Hv. apply (go_var _ _ _ (good_refs mp _ _ _ R1 G) v (proj1 Hv)).
      - apply (carried_keys script mp _ _ _ G).
        + apply (perm_NoDup _ _ Pv). unfold n1, set_diff. apply NoDup_filter. destruct (dedup_vkey_aux (get_variants ch) []) as [X _]. apply (NoDup_of_map _ _ vkey). exact X.
        + intros v Hv. apply Hn1 in Hv. apply Hv.
      - intros v Hv Hi. assert (Hg : get_variants ex1 = get_variants ex) by reflexivity. rewrite Hg in Hi.
        apply Hn1 in Hv. destruct Hv as [V1 V2]. apply V2. destruct (Hb v V1) as [W1 W2]. unfold vkey, carried in Hi |- *. cbn [v_cp v_when v_not_when] in Hi. rewrite W1, W2 in *. exact Hi. }
    destruct Hput as [g1 E1]. rewrite E1. cbn [bind].
    destruct Hs as [[jw Ew] [jn En]]. rewrite Ew. cbn [bind]. rewrite En. cbn [bind].
    destruct (put_all_grown _ _ _ _ _ _ S1 E1) as [[_ _ A3 _ _] _]. destruct (A3 (ch_cp ch) ex1) as [y [Y1 _]]; [rewrite L1, cps_eqb_refl; reflexivity|].
    rewrite get_char_lk by (apply (go_cp _ _ _ G)). rewrite Y1. cbn [bind]. eexists. split; [reflexivity|]. cbn [wk_new].
    destruct (drop_itself (ch_cp ch) (ord_variants n1)) as [|v1 k1]; [right; split; [reflexivity|left; reflexivity]|].
    destruct (drop_itself (ch_cp ch) (ord_variants n2)) as [|v2 k2]; [right; split; [reflexivity|right; reflexivity]|left; reflexivity].
  Qed.
  Lemma loop_plain : forall g0 acc0, shape g0 -> (forall a b u, mapping (lg_rep g0) a b u -> v_when u = None /\ v_not_when u = None) -> forall l D w,
    through ord_names script previous ext mp rules g0 acc0 D w -> arranged g0 D (wk_new w) -> NoDup (map ch_cp (D ++ l)) ->
    (forall ch, In ch l -> good mp g0 ch /\ bare_variants (get_variants ch) /\ forall ex, lk (lg_rep g0) (ch_cp ch) = Some ex -> rules_join ch ex) ->
    exists w', merge_loop ord_names ord_variants script previous ext mp rules (cps_of g0) w l = Ok w' /\
      through ord_names script previous ext mp rules g0 acc0 (D ++ l) w' /\ arranged g0 (D ++ l) (wk_new w').
  Proof.
    intros g0 acc0 S B0. induction l as [|ch l IH]; intros D w T A Hn Hl; [exists w; rewrite app_nil_r; auto|].
    cbn [merge_loop]. destruct (Hl ch (or_introl eq_refl)) as [G [Bc Hs]]. pose proof (good_refs mp _ _ _ (th_refs _ _ _ _ _ _ _ _ _ _ T) G) as Gw.
    pose proof (th_shape _ _ _ _ _ _ _ _ _ _ T) as Sw.
    replace (D ++ ch :: l) with ((D ++ [ch]) ++ l) in * by (rewrite <- app_assoc; reflexivity).
    assert (Hni : ~ In (ch_cp ch) (map ch_cp D)).
    { intro Hi. rewrite !map_app in Hn. cbn in Hn. rewrite <- app_assoc in Hn. apply NoDup_remove_2 in Hn. apply Hn. apply in_app_iff. auto. }
    assert (Step : exists w1, (if memb cps_eqb (ch_cp ch) (cps_of g0) then merge_existing ord_names ord_variants script previous ext mp rules w ch
       else merge_new ord_names script ext mp w ch) = Ok w1 /\ arranged g0 (D ++ [ch]) (wk_new w1)).
    { destruct (memb cps_eqb (ch_cp ch) (cps_of g0)) eqn:Em.
      - apply (memb_In _ _ cps_eqb_eq) in Em. apply (proj1 (proj2 (shape_iter g0 S))) in Em. destruct (lk (lg_rep g0) (ch_cp ch)) as [x|] eqn:Ex; [|congruence].
        destruct (th_old _ _ _ _ _ _ _ _ _ _ T _ x Hni Ex) as [y [Y1 Y2]].
        assert (M : forall b u, mapping (lg_rep (wk_lgr w)) (ch_cp ch) b u <-> mapping (lg_rep g0) (ch_cp ch) b u).
        { intros b u. rewrite (th_map _ _ _ _ _ _ _ _ _ _ T). split; [|auto]. intros [M|[_ [z [Z1 [Z2 _]]]]]; [exact M|]. exfalso. apply Hni. rewrite Z2. apply in_map. exact Z1. }
        assert (Vy : forall v, In v (get_variants y) <-> mapping (lg_rep g0) (ch_cp ch) (v_cp v) v).
        { intro v. rewrite <- M, mapping_lk. split; [intro Hv; exists y; auto|]. intros [q [Q1 [Q2 _]]]. congruence. }
        assert (By : bare_variants (get_variants y)) by (intros v Hv; apply Vy in Hv; apply (B0 _ _ _ Hv)).
        assert (Ty : forall b, In b (map v_cp (get_variants y)) <-> has_target (lg_rep g0) (ch_cp ch) b).
        { intro b. rewrite in_map_iff. split; [intros [v [<- Hv]]; exists v; apply Vy; exact Hv|]. intros [v Hv]. assert (Eb : v_cp v = b) by (destruct Hv as [? [_ [_ X]]]; exact X). exists v. split; [exact Eb|]. apply Vy. rewrite Eb. exact Hv. }
        destruct (existing_plain w ch y Sw Gw Y1) as [w1 [E1 E2]]; [|exact Bc|].
        { destruct (Hs x eq_refl) as [C1 C2]. destruct Y2 as [_ [_ [_ [_ [_ [A6 A7]]]]]]. split; [rewrite A6; exact C1|rewrite A7; exact C2]. }
        exists w1. split; [exact E1|]. cbv zeta in E2.
        destruct (side_list (ch_cp ch) (get_variants ch) (get_variants y) (get_variants_NoDup ch (go_wf _ _ _ G)) Bc By) as [L1 L2].
        destruct (side_list (ch_cp ch) (get_variants y) (get_variants ch) (get_variants_NoDup y (lk_wf _ _ _ (proj1 Sw) Y1)) By Bc) as [L3 L4].
        set (l1 := drop_itself (ch_cp ch) (ord_variants (set_diff variant_eqb (get_variants ch) (get_variants y)))) in *.
        set (l2 := drop_itself (ch_cp ch) (ord_variants (set_diff variant_eqb (get_variants y) (get_variants ch)))) in *.
        assert (Pr : pairing g0 ch (l1, l2)).
        { split; [exact L1|]. split; [exact L3|]. cbn [fst snd]. split; intro z; [rewrite L2|rewrite L4]; rewrite Ty; unfold only_new, only_old; [|tauto]. split; [|tauto]. intros [Z1 Z2]. split; [congruence|tauto]. }
        destruct A as [C [N1 [I1 [F1 A1]]]]. destruct E2 as [E2|[E2 E3]].
        + exists (C ++ [ch]). rewrite E2. split; [|split; [|split]].
          * rewrite map_app. cbn. apply NoDup_app_iff. split; [exact N1|]. split; [constructor; [intros []|constructor]|]. intros z Z1 [<-|[]]. apply Hni. apply in_map_iff in Z1. destruct Z1 as [q [Q1 Q2]]. rewrite <- Q1. apply in_map, I1, Q2.
          * intros z Z. apply in_app_iff in Z. apply in_app_iff. destruct Z as [Z|Z]; [left; apply I1; exact Z|right; exact Z].
          * apply Forall2_app; [exact F1|constructor; [exact Pr|constructor]].
          * intros c p q Hc O1 O2. apply in_app_iff in Hc. apply in_app_iff. destruct Hc as [Hc|Hc]; [left; eapply A1; eauto|right; exact Hc].
        + exists C. rewrite E2. split; [exact N1|]. split; [intros z Z; apply in_app_iff; left; apply I1; exact Z|]. split; [exact F1|].
          intros c p q Hc O1 O2. apply in_app_iff in Hc. destruct Hc as [Hc|[<-|[]]]; [eapply A1; eauto|]. exfalso. destruct Pr as [_ [_ [P3 P4]]]. cbn [fst snd] in *.
          apply P3 in O1. apply P4 in O2. destruct E3 as [E3|E3]; rewrite E3 in *; [destruct O1|destruct O2].
      - assert (Ex : lk (lg_rep g0) (ch_cp ch) = None).
        { destruct (lk (lg_rep g0) (ch_cp ch)) eqn:Ex; [|reflexivity]. exfalso. assert (Hin : In (ch_cp ch) (cps_of g0)) by (apply (proj1 (proj2 (shape_iter g0 S))); congruence).
          apply (memb_In _ _ cps_eqb_eq) in Hin. congruence. }
        destruct (merge_new_ok ord_names Pn script previous ext mp w ch Sw Gw) as [w1 [E1 E2]]; [apply (th_none _ _ _ _ _ _ _ _ _ _ T _ Hni Ex)|].
        exists w1. split; [exact E1|]. rewrite E2. destruct A as [C [N1 [I1 [F1 A1]]]]. exists C. split; [exact N1|]. split; [intros z Z; apply in_app_iff; left; apply I1; exact Z|]. split; [exact F1|].
        intros c p q Hc O1 O2. apply in_app_iff in Hc. destruct Hc as [Hc|[<-|[]]]; [eapply A1; eauto|]. destruct O1 as [O1 _]. congruence. }
    destruct Step as [w1 [E1 E2]]. rewrite E1. cbn [bind]. apply (IH (D ++ [ch]) w1); auto.
    - apply (through_step ord_names ord_variants Pv script previous ext mp rules g0 acc0 D w ch w1 S T (go_wf _ _ _ G) (go_cp _ _ _ G) Hni E1).
    - intros c Hc. apply Hl. right. exact Hc.
  Qed.
  End Member.
End Ord.
