(** Harmonized LGRs can be merged. *)
From Coq Require Import Permutation.
From Verif Require Import Base BaseFacts CharModel RepSpec RepProofs VariantProofs RefModel RefSpec ActionModel LgrModel LgrSpec LgrProofs LgrReach LgrInv LgrRefs LgrFinal.
From Verif Require Import ValidateModel ValidateSpec ValidateProofs PopulateModel PopulateSpec PopulateProofs SerialSpec SerialFinal.
From Verif Require Import HarmonizeModel HarmonizeSpec HarmonizeProofs HarmonizeFinal HarmonizeCopy HarmToolProofs CombineHarm ActionModel LabelModel LabelSpec CombineSpec CombineFinal.
From Verif Require Import MergeModel MergeProofs MergeSpec MergeRefs MergeFold MergeFinal MergeContext MergeSucceedSpec MergeSucceed MergeAgree HarmMergeSpec.
Open Scope string_scope.
Open Scope list_scope.

Lemma proper_kept_all : kept_by_all proper.
Proof.
  unfold kept_by_all. split; [|split; [|split; [|split]]].
  - intros g c cm G. pose proof (pr_step g (LAddCp c cm [] [] None None None false false) G I eq_refl) as K. cbn [lgr_step] in K. destruct (lgr_add_cp _ _ _ _ _ _ _ _ _ _). exact K.
  - intros g c v ty w nw cm rf G. pose proof (pr_step g (LAddVariant c v ty w nw cm rf None false false) G I eq_refl) as K. cbn [lgr_step] in K. destruct (lgr_add_variant _ _ _ _ _ _ _ _ _ _ _). exact K.
  - intros g c v G. pose proof (pr_step g (LDelVariant c v None None) G I I) as K. cbn [lgr_step] in K. destruct (lgr_del_variant _ _ _ _ _). exact K.
  - intros g G. pose proof (pr_step g LExpandRanges G I I) as K. cbn [lgr_step] in K. destruct (lgr_expand_ranges g). exact K.
  - intros g G. exact (pr_step g LCopy G I I).
Qed.
Definition anything (_ _ : option string) : Prop := True.
Lemma unconditional_freed : forall m, lgr_reachable (mb_lgr m) -> (MergeSpec.unconditional m <-> freed anything (mb_lgr m)).
Proof.
  intros m R. split.
  - intro U. split; [apply lgr_reachable_wf; exact R|]. intros c ch H. split; [exact I|]. intros v Hv. apply (U c (v_cp v)). apply mapping_lk. exists ch. auto.
  - intros [_ A] a b v M. apply mapping_lk in M. destruct M as [ch [M1 [M2 _]]]. apply (A _ _ M1). exact M2.
Qed.

Lemma forall2_iff : forall (R S : N -> N -> Prop), (forall x y, R x y <-> S x y) -> forall a b, Forall2 R a b <-> Forall2 S a b.
Proof. intros R S H a b. split; intro F; induction F; constructor; try assumption; apply H; assumption. Qed.

Section Two.
  Variable order : list cps -> list cps.
  Hypothesis Po : rearranges order.
  Variables m1 m2 : member.
  Variables h1 h2 : lgr.
  Variable rs : list cps * list cps.
  Hypothesis P1 : proper (mb_lgr m1).
  Hypothesis P2 : proper (mb_lgr m2).
  Hypothesis U1 : MergeSpec.unconditional m1.
  Hypothesis U2 : MergeSpec.unconditional m2.
  Hypothesis C1 : complete m1.
  Hypothesis C2 : complete m2.
  Hypothesis E : harmonize order (mb_lgr m1) (mb_lgr m2) None = Ok (h1, h2, rs).
  Notation k1 := (with_lgr m1 h1).
  Notation k2 := (with_lgr m2 h2).

  Lemma both_proper : proper h1 /\ proper h2.
  Proof. apply (harmonize_kept proper proper_kept_all _ _ _ _ _ _ _ E P1 P2). intros z H. discriminate. Qed.
  Lemma both_free : MergeSpec.unconditional k1 /\ MergeSpec.unconditional k2.
  Proof.
    destruct both_proper as [Q1 Q2]. pose proof (fun g H => tidy_reachable g (proper_tidy g H)) as R.
    destruct (free_harmonize anything I _ _ _ _ _ _ _ E (proj1 (unconditional_freed m1 (R _ P1)) U1) (proj1 (unconditional_freed m2 (R _ P2)) U2)) as [F1 F2]; [intros z H; discriminate|].
    split; [apply (unconditional_freed k1 (R _ Q1)); exact F1|apply (unconditional_freed k2 (R _ Q2)); exact F2].
  Qed.
  Lemma both_agree : forall a b, a <> b -> has_cp k1 a -> has_cp k2 a -> (gives k1 a b <-> gives k2 a b).
  Proof.
    intros a b N. destruct C1 as [S1 T1], C2 as [S2 T2].
    exact (harmonize_agree order _ _ h1 h2 rs Po (proper_tidy _ P1) (proper_tidy _ P2) S1 T1 S2 T2 E a b N).
  Qed.
  Lemma both_completed : completed (lg_rep (mb_lgr m1)) (lg_rep (mb_lgr m2)) (lg_rep h1) /\ completed (lg_rep (mb_lgr m2)) (lg_rep (mb_lgr m1)) (lg_rep h2).
  Proof. destruct rs as [r1 r2] eqn:Er. destruct (harmonize_ok order _ _ h1 h2 r1 r2 Po (proper_tidy _ P1) (proper_tidy _ P2) E) as [_ [_ [K1 [K2 _]]]]. auto. Qed.
  Lemma one_way : forall x y c, MergeSpec.unconditional x -> MergeSpec.unconditional y -> (forall b, c <> b -> gives x c b <-> gives y c b) ->
    plainly_given x c /\ plainly_given y c /\ (all_given x y c \/ all_given y x c).
  Proof.
    intros x y c Ux Uy H. split; [intros b v; apply Ux|]. split; [intros b v; apply Uy|].
    destruct (has_target_dec (lg_rep (mb_lgr x)) c c) as [Hx|Hx].
    - right. intros b G. destruct (cps_eq_dec c b) as [<-|N]; [exact Hx|apply H; assumption].
    - left. intros b G. destruct (cps_eq_dec c b) as [<-|N]; [destruct (Hx G)|apply H; assumption].
  Qed.
  Lemma both_variants : variants_agree [k1; k2].
  Proof.
    destruct both_free as [F1 F2]. intros c x y rest R Hx Hy. right. right.
    assert (K : (x = k1 /\ y = k2) \/ (x = k2 /\ y = k1)).
    { pose proof (Permutation_length R) as L. destruct rest; [|discriminate]. apply Permutation_length_2_inv in R. destruct R as [R|R]; injection R as -> ->; auto. }
    destruct K as [[-> ->]|[-> ->]]; apply one_way; auto; intros b N; [|symmetry]; apply both_agree; assumption.
  Qed.

  (** ** Context rules of the code points *)
  Lemma rules_of : forall m s h, respected (mb_lgr m) s h -> forall c, when_of (with_lgr m h) c = when_of m c /\ not_when_of (with_lgr m h) c = not_when_of m c.
  Proof.
    intros m s h R c. unfold when_of, not_when_of. cbn [with_lgr mb_lgr]. destruct (lookup (lg_rep (mb_lgr m)) c) as [ch|] eqn:L.
    - destruct (re_old _ _ _ R _ _ L) as [ch' [L' S]]. rewrite L'. unfold same_but_range, same_entry in S. cbn in S. split; apply S.
    - destruct (lookup (lg_rep h) c) as [ch'|] eqn:L'; [|auto]. destruct (re_new _ _ _ R _ _ L L') as [[_ S]|[_ S]]; unfold same_entry in S; cbn in S; split; apply S.
  Qed.
  Lemma both_rules : forall c, (when_of k1 c = when_of m1 c /\ not_when_of k1 c = not_when_of m1 c) /\ (when_of k2 c = when_of m2 c /\ not_when_of k2 c = not_when_of m2 c).
  Proof.
    destruct (harmonize_respects order _ _ h1 h2 rs Po (proper_tidy _ P1) (proper_tidy _ P2) E) as [R1 R2].
    intro c. split; [apply (rules_of m1 _ h1 R1)|apply (rules_of m2 _ h2 R2)].
  Qed.
  Lemma both_refs : lg_refs h1 = lg_refs (mb_lgr m1) /\ lg_refs h2 = lg_refs (mb_lgr m2).
  Proof. destruct (harmonize_respects order _ _ h1 h2 rs Po (proper_tidy _ P1) (proper_tidy _ P2) E) as [R1 R2]. split; [apply R1|apply R2]. Qed.
  Lemma back : forall x, In x [k1; k2] -> exists m, In m [m1; m2] /\ get_script x = get_script m /\ forall c, when_of x c = when_of m c /\ not_when_of x c = not_when_of m c.
  Proof. intros x [<-|[<-|[]]]; [exists m1|exists m2]; (split; [cbn; auto|]); (split; [reflexivity|]); intro c; apply both_rules. Qed.
  Lemma forth : forall m, In m [m1; m2] -> exists x, In x [k1; k2] /\ get_script x = get_script m /\ forall c, when_of x c = when_of m c /\ not_when_of x c = not_when_of m c.
  Proof. intros m [<-|[<-|[]]]; [exists k1|exists k2]; (split; [cbn; auto|]); (split; [reflexivity|]); intro c; apply both_rules. Qed.
  Lemma perm_two : forall (A : Type) (a b x y : A) rest, Permutation [a; b] (x :: y :: rest) -> rest = [] /\ ((x = a /\ y = b) \/ (x = b /\ y = a)).
  Proof.
    intros A a b x y rest R. pose proof (Permutation_length R) as L. destruct rest; [|discriminate]. split; [reflexivity|].
    apply Permutation_length_2_inv in R. destruct R as [R|R]; injection R as -> ->; auto.
  Qed.
  Lemma both_clear : forall f, f = when_of \/ f = not_when_of -> unambiguous f [m1; m2] -> unambiguous f [k1; k2].
  Proof.
    intros f Hf [A B]. split.
    - intros m x c n Hm Hx F. destruct (back m Hm) as [m' [H1 [-> _]]]. destruct (back x Hx) as [x' [H2 [_ H3]]]. apply (A m' x' c n H1 H2). destruct (H3 c) as [H4 H5]. destruct Hf as [-> | ->]; congruence.
    - intros m x rest R. destruct (perm_two _ _ _ _ _ _ R) as [_ [[-> ->]|[-> ->]]]; [apply (B m1 m2 []); apply Permutation_refl|apply (B m2 m1 []); constructor].
  Qed.
  Lemma both_same : forall f, f = when_of \/ f = not_when_of -> (same_rules f [k1; k2] <-> same_rules f [m1; m2]).
  Proof.
    intros f Hf. split; intros S c x y n1 n2 Hx Hy F1 F2.
    - destruct (forth x Hx) as [x' [X1 [_ X2]]]. destruct (forth y Hy) as [y' [Y1 [_ Y2]]]. destruct (X2 c) as [X3 X4], (Y2 c) as [Y3 Y4]. apply (S c x' y' n1 n2 X1 Y1); destruct Hf as [-> | ->]; congruence.
    - destruct (back x Hx) as [x' [X1 [_ X2]]]. destruct (back y Hy) as [y' [Y1 [_ Y2]]]. destruct (X2 c) as [X3 X4], (Y2 c) as [Y3 Y4]. apply (S c x' y' n1 n2 X1 Y1); destruct Hf as [-> | ->]; congruence.
  Qed.
  Lemma both_ready : texts_once m1 -> texts_once m2 -> forall m, In m [k1; k2] -> proper (mb_lgr m) /\ texts_once m /\ contexts_named m.
  Proof.
    intros O1 O2. destruct both_proper as [Q1 Q2]. destruct both_free as [F1 F2]. destruct both_refs as [R1 R2].
    assert (N : forall x, MergeSpec.unconditional x -> contexts_named x) by (intros x U a b v M; destruct (U a b v M) as [-> ->]; split; discriminate).
    intros m [<-|[<-|[]]]; (split; [assumption|]); (split; [|apply N; assumption]); intros i j t; unfold text_in; cbn [with_lgr mb_lgr]; [rewrite R1; apply O1|rewrite R2; apply O2].
  Qed.

  Section Ord.
    Variable ord_names : list string -> list string.
    Variable ord_variants : list variant -> list variant.
    Hypothesis Pn : any_order ord_names.
    Hypothesis Pv : any_order ord_variants.
    Hypothesis O1 : texts_once m1.
    Hypothesis O2 : texts_once m2.
    Hypothesis Sc : get_script m1 <> get_script m2.
    Hypothesis A1 : unambiguous when_of [m1; m2].
    Hypothesis A2 : unambiguous not_when_of [m1; m2].

    Lemma scripts_differ : NoDup (map get_script [k1; k2]).
    Proof. cbn. constructor; [|repeat constructor; intros []]. intros [H|[]]. apply Sc. symmetry. exact H. Qed.
    Theorem harmonized_merge : (exists st, merge_lgr_set ord_names ord_variants [k1; k2] = Ok st) <-> same_rules when_of [m1; m2] /\ same_rules not_when_of [m1; m2].
    Proof.
      rewrite (agreeing_exact ord_names ord_variants Pn Pv [k1; k2] (both_ready O1 O2) scripts_differ (both_clear _ (or_introl eq_refl) A1) (both_clear _ (or_intror eq_refl) A2) both_variants).
      rewrite (both_same when_of (or_introl eq_refl)), (both_same not_when_of (or_intror eq_refl)). reflexivity.
    Qed.
    Variable st : merged.
    Hypothesis M : merge_lgr_set ord_names ord_variants [k1; k2] = Ok st.
    Notation T := (has_target (lg_rep (mg_lgr st))).
    Lemma merged_either : forall a b, T a b <-> either k1 k2 a b.
    Proof.
      intros a b. rewrite (agreeing_targets ord_names ord_variants Pn Pv [k1; k2] st (both_ready O1 O2) scripts_differ (both_clear _ (or_introl eq_refl) A1) (both_clear _ (or_intror eq_refl) A2) both_variants M).
      unfold either. split; [intros [m [[<-|[<-|[]]] G]]; auto|]. intros [G|G]; [exists k1|exists k2]; cbn; auto.
    Qed.
    Lemma merged_tidy : forall m, In m [k1; k2] -> tidy (mb_lgr m).
    Proof. intros m Hm. apply proper_tidy. apply (both_ready O1 O2 m Hm). Qed.
    Theorem harmonized_symmetric : symmetric (lg_rep (mg_lgr st)).
    Proof. apply (merge_symmetric ord_names ord_variants Pv [k1; k2] st merged_tidy M). destruct both_completed as [K1 K2]. intros m [<-|[<-|[]]]; [apply K1|apply K2]. Qed.
    Lemma target_has : forall k a b, symmetric (lg_rep (mb_lgr k)) -> gives k a b -> has_cp k b.
    Proof. intros k a b S G. apply (S a b G). Qed.
    Lemma source_has : forall k a b, gives k a b -> has_cp k a.
    Proof. intros k a b [v [ch [L _]]]. unfold has_cp. congruence. Qed.
    Theorem harmonized_transitive : transitive (lg_rep (mg_lgr st)).
    Proof.
      destruct both_completed as [K1 K2]. intros a b Hab. split; [apply (harmonized_symmetric a b Hab)|].
      intros c Hbc N. apply merged_either in Hab. apply merged_either in Hbc. apply merged_either.
      destruct (cps_eq_dec b c) as [->|Nb]; [exact Hab|]. destruct (cps_eq_dec a b) as [->|Na]; [exact Hbc|].
      destruct Hab as [Hab|Hab].
      - left. assert (Hc : gives k1 b c). { destruct Hbc as [Hbc|Hbc]; [exact Hbc|]. apply both_agree; [exact Nb|exact (target_has k1 _ _ (co_symmetric _ _ _ K1) Hab)|exact (source_has k2 _ _ Hbc)|exact Hbc]. }
        destruct (co_transitive _ _ _ K1 a b Hab) as [_ X]. apply X; assumption.
      - right. assert (Hc : gives k2 b c). { destruct Hbc as [Hbc|Hbc]; [|exact Hbc]. apply both_agree; [exact Nb|exact (source_has k1 _ _ Hbc)|exact (target_has k2 _ _ (co_symmetric _ _ _ K2) Hab)|exact Hbc]. }
        destruct (co_transitive _ _ _ K2 a b Hab) as [_ X]. apply X; assumption.
    Qed.
    Lemma chained_mono : forall (R S : cps -> cps -> Prop), (forall x y, R x y -> S x y) -> forall a b, chained R a b -> chained S a b.
    Proof. intros R S H a b C. induction C; [constructor|eapply chained_forth; eauto|eapply chained_back; eauto]. Qed.
    Lemma pooled_either : forall x y, pooled (lg_rep (mb_lgr m1)) (lg_rep (mb_lgr m2)) x y \/ pooled (lg_rep (mb_lgr m2)) (lg_rep (mb_lgr m1)) x y -> either m1 m2 x y.
    Proof. intros x y [[H|[_ H]]|[H|[_ H]]]; [left|right|right|left]; exact H. Qed.
    Theorem harmonized_related : forall a b, a <> b -> (T a b <-> chained (either m1 m2) a b).
    Proof.
      destruct both_completed as [K1 K2]. intros a b N. rewrite merged_either. split.
      - intros [G|G]; [apply (co_related _ _ _ K1) in G|apply (co_related _ _ _ K2) in G]; auto; (eapply chained_mono; [|exact G]); intros x y H; apply pooled_either; auto.
      - rewrite <- merged_either. intro C.
        assert (B : forall x y, x <> y -> either m1 m2 x y -> T x y).
        { intros x y Nx [G|G]; apply merged_either; [left; apply (co_related _ _ _ K1)|right; apply (co_related _ _ _ K2)]; auto; (eapply chained_forth; [|apply chained_refl]); left; exact G. }
        assert (X : a = b \/ T a b); [|tauto]. clear N. induction C as [x|x y z R C IH|x y z R C IH]; [auto| |].
        + destruct (cps_eq_dec x y) as [->|Nx]; [exact IH|]. specialize (B x y Nx R). destruct IH as [->|IH]; [auto|].
          destruct (cps_eq_dec x z) as [->|Nz]; [auto|]. right. destruct (harmonized_transitive x y B) as [_ K]. apply K; [exact IH|auto].
        + destruct (cps_eq_dec x y) as [->|Nx]; [exact IH|]. assert (B' : T x y) by (apply harmonized_symmetric; apply B; [congruence|exact R]). destruct IH as [->|IH]; [auto|].
          destruct (cps_eq_dec x z) as [->|Nz]; [auto|]. right. destruct (harmonized_transitive x y B') as [_ K]. apply K; [exact IH|auto].
    Qed.
    Theorem harmonized_itself : forall a, T a a <-> gives m1 a a \/ gives m2 a a \/ gets m1 m2 a \/ gets m2 m1 a.
    Proof.
      destruct both_completed as [K1 K2]. intro a. rewrite merged_either. unfold either, gives at 1 2. cbn [with_lgr mb_lgr]. rewrite (co_itself _ _ _ K1), (co_itself _ _ _ K2).
      assert (G : forall x y, complete x -> (taken_over (lg_rep (mb_lgr x)) (lg_rep (mb_lgr y)) a <-> gets x y a)).
      { intros x y [Sx _]. unfold taken_over, gets, has_cp, gives, common. split.
        - intros [L [c [[A B] [C _]]]]. split; [congruence|]. exists c. auto.
        - intros [L [c [A [B C]]]]. destruct (lookup (lg_rep (mb_lgr x)) a) eqn:El; [exfalso; apply L; discriminate|]. split; [reflexivity|]. exists c. split; [auto|]. split; [exact C|].
          intro Z. destruct (Sx _ _ Z) as [Z1 _]. apply Z1. exact El. }
      rewrite (G m1 m2 C1), (G m2 m1 C2). unfold gives. tauto.
    Qed.
    (** ** Labels *)
    Theorem harmonized_labels : letters (lg_rep (mb_lgr m1)) -> letters (lg_rep (mb_lgr m2)) -> forall q rm, rebuilt (lg_rep (mg_lgr st)) q ->
      forall a b, in_lgr q a -> in_lgr q b -> exists ia ib, has_index rm q a ia /\ has_index rm q b ib /\
        (ia = ib <-> Forall2 (fun x y => chained (either m1 m2) [x] [y]) a b).
    Proof.
      intros L1 L2 q rm B a b Ha Hb. destruct both_completed as [K1 K2].
      destruct (harm_simple order _ _ None h1 h2 rs Po (proper_tidy _ P1) (proper_tidy _ P2)) as [M1 [M2 _]]; auto; try discriminate.
      destruct (merged_keeps ord_names ord_variants Pv [k1; k2] st q rm) as [H _]; [|exact M|exact harmonized_transitive|exact B|].
      { intros m Hm. split; [exact (merged_tidy m Hm)|]. destruct Hm as [<-|[<-|[]]]; (split; [assumption|]); [apply K1|apply K2]. }
      destruct (H a b Ha Hb) as [ia [ib [I1 [I2 I3]]]]. exists ia, ib. split; [exact I1|]. split; [exact I2|]. rewrite I3. unfold variant_labels.
      assert (Q : forall x y : N, (x = y \/ T [x] [y]) <-> chained (either m1 m2) [x] [y]).
      { intros x y. destruct (N.eq_dec x y) as [<-|Nx].
        - split; [intros _; apply chained_refl|auto].
        - assert (Nc : [x] <> [y]) by congruence. rewrite <- (harmonized_related _ _ Nc). tauto. }
      apply forall2_iff. exact Q.
    Qed.
  End Ord.
End Two.
Theorem harmonized_exists : forall order m1 m2, rearranges order -> proper (mb_lgr m1) -> proper (mb_lgr m2) -> exists h1 h2 rs, harmonize order (mb_lgr m1) (mb_lgr m2) None = Ok (h1, h2, rs).
Proof.
  intros order m1 m2 Po P1 P2. destruct (harmonize_succeeds order (mb_lgr m1) (mb_lgr m2) None Po (proper_tidy _ P1) (proper_tidy _ P2)) as [[[h1 h2] rs] E]; [discriminate|apply proper_plain; exact P1|apply proper_plain; exact P2|].
  exists h1, h2, rs. exact E.
Qed.
