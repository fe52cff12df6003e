(** Pairs harmonized again and again, then all merged. *)
From Coq Require Import Permutation.
From Verif Require Import Base BaseFacts CharModel RepSpec RepProofs VariantProofs IterProofs VarSetSpec VarSetProofs.
From Verif Require Import RefModel RefSpec RefProofs ActionModel LgrModel LgrSpec LgrProofs LgrReach LgrInv LgrRefs LgrTags LgrFinal.
From Verif Require Import ValidateModel ValidateSpec ValidateProofs PopulateModel PopulateSpec PopulateProofs.
From Verif Require Import CompareModel CompareSpec CompareProofs HarmonizeModel HarmonizeSpec HarmonizeProofs HarmonizeFinal HarmonizeCopy.
From Verif Require Import SerialSpec SerialFinal MergeModel MergeProofs MergeSteps MergeLoop MergeSpec MergeRefs MergeFold MergeFinal MergeContext MergeSucceedSpec MergeSucceed MergeAgree MergeCross MergePairExact MergeTurn.
From Verif Require Import LabelModel LabelSpec CombineSpec CombineIndex CombineFinal HarmMergeSpec HarmMerge HarmRoot MergeGlueSpec MergeGlue MergeSame.
Open Scope string_scope.
Open Scope list_scope.

Definition ready (m : member) : Prop := proper (mb_lgr m) /\ texts_once m /\ MergeSpec.unconditional m /\ complete m.

(** ** The order of the members does not matter *)
Lemma some_perm : forall l l', Permutation l l' -> forall a b, some_gives l a b -> some_gives l' a b.
Proof. intros l l' P a b [m [H G]]. exists m. split; [apply (Permutation_in _ P); exact H|exact G]. Qed.
Definition apart_scripts (l : list member) : Prop := forall s t r, Permutation (map get_script l) (s :: t :: r) -> ~ MergeSpec.starts s (t ++ "-").
Lemma apart_members : forall l, apart_scripts l <-> forall m x rest, Permutation l (m :: x :: rest) -> ~ MergeSpec.starts (get_script m) (get_script x ++ "-").
Proof.
  intro l. split.
  - intros A m x rest P. apply (A (get_script m) (get_script x) (map get_script rest)). apply (Permutation_map get_script) in P. exact P.
  - intros A s t r P. apply Permutation_sym in P. apply Permutation_map_inv in P. destruct P as [k [E P]]. destruct k as [|m [|x rest]]; try discriminate. cbn [map] in E. injection E as -> -> _. apply (A m x rest). exact P.
Qed.

(** ** One pair *)
Section Pair.
  Variable order : list cps -> list cps.
  Hypothesis Po : rearranges order.
  Variables (l rest : list member) (m1 m2 : member) (h1 h2 : lgr) (rs : list cps * list cps).
  Hypothesis P : Permutation l (m1 :: m2 :: rest).
  Hypothesis E : harmonize order (mb_lgr m1) (mb_lgr m2) None = Ok (h1, h2, rs).
  Hypothesis G : forall m, In m l -> ready m.
  Let k := with_lgr m1 h1 :: with_lgr m2 h2 :: rest.
  Lemma in1 : In m1 l.
  Proof. apply (Permutation_in _ (Permutation_sym P)). left. reflexivity. Qed.
  Lemma in2 : In m2 l.
  Proof. apply (Permutation_in _ (Permutation_sym P)). right. left. reflexivity. Qed.
  Lemma in_rest : forall m, In m rest -> In m l.
  Proof. intros m H. apply (Permutation_in _ (Permutation_sym P)). right. right. exact H. Qed.
  Lemma pair_completed : completed (lg_rep (mb_lgr m1)) (lg_rep (mb_lgr m2)) (lg_rep h1) /\ completed (lg_rep (mb_lgr m2)) (lg_rep (mb_lgr m1)) (lg_rep h2).
  Proof. apply (both_completed order Po m1 m2 h1 h2 rs); [apply (G m1 in1)|apply (G m2 in2)|exact E]. Qed.
  Lemma pair_ready : forall m, In m k -> ready m.
  Proof.
    destruct (G m1 in1) as [A1 [B1 [C1 D1]]]. destruct (G m2 in2) as [A2 [B2 [C2 D2]]]. destruct pair_completed as [K1 K2].
    destruct (both_free order m1 m2 h1 h2 rs A1 A2 C1 C2 E) as [F1 F2]. pose proof (both_ready order Po m1 m2 h1 h2 rs A1 A2 C1 C2 E B1 B2) as R.
    intros m [<-|[<-|H]]; [| |apply G, in_rest; exact H].
    - destruct (R (with_lgr m1 h1)) as [R1 [R2 _]]; [left; reflexivity|]. split; [exact R1|]. split; [exact R2|]. split; [exact F1|]. split; [apply (co_symmetric _ _ _ K1)|apply (co_transitive _ _ _ K1)].
    - destruct (R (with_lgr m2 h2)) as [R1 [R2 _]]; [right; left; reflexivity|]. split; [exact R1|]. split; [exact R2|]. split; [exact F2|]. split; [apply (co_symmetric _ _ _ K2)|apply (co_transitive _ _ _ K2)].
  Qed.
  Lemma pair_chained : forall a b, chained (some_gives k) a b <-> chained (some_gives l) a b.
  Proof.
    destruct pair_completed as [K1 K2].
    assert (Up : forall (x y : member) h, In x l -> In y l -> completed (lg_rep (mb_lgr x)) (lg_rep (mb_lgr y)) (lg_rep h) -> forall a b, has_target (lg_rep h) a b -> chained (some_gives l) a b).
    { intros x y h Hx Hy C a b H. destruct (cps_eq_dec a b) as [<-|N]; [constructor|]. apply (co_related _ _ _ C a b N) in H. eapply chained_flat; [|exact H].
      intros u v [U|[_ U]]; (eapply chained_forth; [|constructor]); [exists x|exists y]; auto. }
    assert (Dn : forall (x y : member) h, In (with_lgr x h) k -> completed (lg_rep (mb_lgr x)) (lg_rep (mb_lgr y)) (lg_rep h) -> forall a b, gives x a b -> chained (some_gives k) a b).
    { intros x y h Hx C a b H. destruct (cps_eq_dec a b) as [<-|N]; [constructor|]. eapply chained_forth; [|constructor]. exists (with_lgr x h). split; [exact Hx|].
      apply (co_related _ _ _ C a b N). eapply chained_forth; [left; exact H|constructor]. }
    intros a b. split; apply chained_flat; intros u v [m [Hm H]].
    - destruct Hm as [<-|[<-|Hm]]; [apply (Up m1 m2 h1 in1 in2 K1 u v H)|apply (Up m2 m1 h2 in2 in1 K2 u v H)|]. eapply chained_forth; [exists m; split; [apply in_rest; exact Hm|exact H]|constructor].
    - apply (Permutation_in _ P) in Hm. destruct Hm as [<-|[<-|Hm]]; [apply (Dn m1 m2 h1 (or_introl eq_refl) K1 u v H)|apply (Dn m2 m1 h2 (or_intror (or_introl eq_refl)) K2 u v H)|].
      eapply chained_forth; [exists m; split; [right; right; exact Hm|exact H]|constructor].
  Qed.
  Lemma pair_scripts : Permutation (map get_script l) (map get_script k).
  Proof. apply (Permutation_map get_script) in P. exact P. Qed.
  Lemma pair_back : forall f, f = when_of \/ f = not_when_of -> (forall x, In x k -> exists m, In m l /\ get_script m = get_script x /\ forall c, f x c = f m c) /\
    (forall m, In m l -> exists x, In x k /\ get_script x = get_script m /\ forall c, f x c = f m c).
  Proof.
    intros f Hf. assert (W : forall c, f (with_lgr m1 h1) c = f m1 c /\ f (with_lgr m2 h2) c = f m2 c).
    { intro c. destruct (both_rules order Po m1 m2 h1 h2 rs (proj1 (G m1 in1)) (proj1 (G m2 in2)) E c) as [[W1 W2] [W3 W4]]. destruct Hf as [-> | ->]; auto. }
    split.
    - intros x [<-|[<-|H]]; [exists m1; split; [apply in1|]|exists m2; split; [apply in2|]|exists x; split; [apply in_rest; exact H|auto]]; (split; [reflexivity|]); intro c; apply W.
    - intros m Hm. apply (Permutation_in _ P) in Hm. destruct Hm as [<-|[<-|Hm]]; [exists (with_lgr m1 h1)|exists (with_lgr m2 h2)|exists m; split; [right; right; exact Hm|auto]]; (split; [cbn; auto|]); (split; [reflexivity|]); intro c; apply W.
  Qed.
  Lemma pair_clear : forall f, f = when_of \/ f = not_when_of -> unambiguous f l -> unambiguous f k.
  Proof.
    intros f Hf [U1 U2]. destruct (pair_back f Hf) as [Bk _]. split.
    - intros m x c n Hm Hx F. destruct (Bk m Hm) as [m0 [M1 [M2 _]]]. destruct (Bk x Hx) as [x0 [X1 [_ X3]]]. rewrite <- M2. rewrite X3 in F. apply (U1 m0 x0 c n); assumption.
    - apply apart_members. apply apart_members in U2. intros s t r Q. apply (U2 s t r). eapply perm_trans; [apply pair_scripts|exact Q].
  Qed.
  Lemma pair_same : forall f, f = when_of \/ f = not_when_of -> (same_rules f k <-> same_rules f l).
  Proof.
    intros f Hf. destruct (pair_back f Hf) as [Bk Fw]. split; intros S c x y n1 n2 Hx Hy F1 F2.
    - destruct (Fw x Hx) as [x' [X1 [_ X3]]]. destruct (Fw y Hy) as [y' [Y1 [_ Y3]]]. apply (S c x' y'); auto; [rewrite X3|rewrite Y3]; assumption.
    - destruct (Bk x Hx) as [x' [X1 [_ X3]]]. destruct (Bk y Hy) as [y' [Y1 [_ Y3]]]. apply (S c x' y'); auto; [rewrite <- X3|rewrite <- Y3]; assumption.
  Qed.
End Pair.

(** ** All of them *)
Theorem run_keeps : forall l l', harmonized_run l l' -> (forall m, In m l -> ready m) ->
  (forall m, In m l' -> ready m) /\ (forall a b, chained (some_gives l') a b <-> chained (some_gives l) a b) /\ Permutation (map get_script l) (map get_script l') /\
  forall f, f = when_of \/ f = not_when_of -> (unambiguous f l -> unambiguous f l') /\ (same_rules f l' <-> same_rules f l).
Proof.
  intros l l' R. induction R as [l|l m1 m2 rest order h1 h2 rs l' P Po E R IH]; intro G.
  { split; [exact G|]. split; [reflexivity|]. split; [apply Permutation_refl|]. intros f _. split; [auto|reflexivity]. }
  destruct (IH (pair_ready order Po l rest m1 m2 h1 h2 rs P E G)) as [A [B [C D]]]. split; [exact A|]. split; [|split].
  - intros a b. rewrite B. apply (pair_chained order Po l rest m1 m2 h1 h2 rs P E G).
  - eapply perm_trans; [apply (pair_scripts l rest m1 m2 h1 h2 P)|exact C].
  - intros f Hf. destruct (D f Hf) as [D1 D2]. split.
    + intro U. apply D1. apply (pair_clear order Po l rest m1 m2 h1 h2 rs P E G f Hf U).
    + rewrite D2. apply (pair_same order Po l rest m1 m2 h1 h2 rs P E G f Hf).
Qed.

Section Ord.
  Variable ord_names : list string -> list string.
  Variable ord_variants : list variant -> list variant.
  Hypothesis Pn : any_order ord_names.
  Hypothesis Pv : any_order ord_variants.

  Theorem run_merged : forall l l', (forall m, In m l -> proper (mb_lgr m) /\ texts_once m /\ MergeSpec.unconditional m /\ complete m) -> NoDup (map get_script l) ->
    unambiguous when_of l -> unambiguous not_when_of l -> harmonized_run l l' ->
    (forall m m', In m l' -> In m' l' -> get_script m <> get_script m' -> settled_pair m m') ->
    ((exists st, merge_lgr_set ord_names ord_variants l' = Ok st) <-> same_rules when_of l /\ same_rules not_when_of l) /\
    forall st, merge_lgr_set ord_names ord_variants l' = Ok st ->
      symmetric (lg_rep (mg_lgr st)) /\ transitive (lg_rep (mg_lgr st)) /\ forall a b, a <> b -> (has_target (lg_rep (mg_lgr st)) a b <-> chained (some_gives l) a b).
  Proof.
    intros l l' Hl Hn U1 U2 R S. destruct (run_keeps l l' R Hl) as [A [B [C D]]]. destruct (D when_of (or_introl eq_refl)) as [D1 D2]. destruct (D not_when_of (or_intror eq_refl)) as [D3 D4].
    assert (Hn' : NoDup (map get_script l')) by (eapply Permutation_NoDup; [exact C|exact Hn]).
    assert (Sv : same_variants l') by (apply settled_exact; [intros m Hm; split; apply (A m Hm)|exact Hn'|exact S]).
    destruct (same_merge ord_names ord_variants Pn Pv l' A Hn' (D1 U1) (D3 U2) Sv) as [Ex Rs]. rewrite D2, D4 in Ex. split; [exact Ex|].
    intros st E. destruct (Rs st E) as [R1 [R2 R3]]. split; [exact R1|]. split; [exact R2|]. intros a b N. rewrite R3, <- B. split.
    - intro X. eapply chained_forth; [exact X|constructor].
    - intro X. destruct (same_chained l' (fun m Hm => proj2 (proj2 (proj2 (A m Hm)))) Sv a b X) as [Y|Y]; [congruence|exact Y].
  Qed.
End Ord.
