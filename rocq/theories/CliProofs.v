(** Proofs about the tool lgr_validate. *)
From Coq Require Import Permutation.
From Verif Require Import Base BaseFacts CharModel RepSpec RangeProofs RepProofs ActionModel ActionSpec LabelModel LabelSpec LabelProofs LabelElig LabelFinal CollisionModel CollisionSpec CollisionFinal CollisionProofs UtilsModel AnnotateModel AnnotateSpec AnnotateRead AnnotateProofs CliModel CliSpec.
Open Scope string_scope.
Open Scope list_scope.

(** ** Reading plain labels *)

Lemma plain_read : forall decode l, plain_text l -> read_line decode false false l = Ok [mkReading l l true None].
Proof.
  intros decode l [H1 [H2 [H3 [H4 H5]]]]. destruct (read_line_spec decode false l) as [xs [E [t [T1 [T2 _]]]]].
  assert (t = l) by (transitivity (content l); [symmetry; apply content_unique; exact T1|apply content_unique; exact H2]). subst t.
  destruct (T2 H1) as [x [-> [R1 R2]]]. rewrite E. f_equal. f_equal. destruct x as [tx lb v er]. cbn [rd_text rd_valid rd_error rd_label] in *. subst tx.
  assert (Hl : read_as decode l l) by (right; right; auto).
  destruct R2 as [[-> [-> R]]|[_ [_ [_ R]]]]; [|exfalso; exact (R l Hl)].
  destruct R as [[A _]|[[_ [[A|A] _]]|[_ [_ [_ ->]]]]]; [contradiction..|reflexivity].
Qed.
Lemma plain_reads : forall decode ls, Forall plain_text ls ->
  read_labels decode false false ls = (map (fun l => mkReading l l true None) ls, Ok tt).
Proof.
  intros decode ls H. induction H as [|l ls H1 _ IH]; [reflexivity|]. cbn [read_labels map]. rewrite (plain_read decode l H1), IH. reflexivity.
Qed.
Lemma plain_labels : forall ls, map rd_label (filter rd_valid (map (fun l => mkReading l l true None) ls)) = ls.
Proof. induction ls as [|l ls IH]; [reflexivity|]. cbn [map filter rd_valid rd_label]. f_equal. exact IH. Qed.

(** ** The answer on collisions *)

Section Answer.
  Variable decode : cps -> res cps.
  Variable order : list cps -> list cps.
  Variable index : cps -> res cps.
  Variable listing : cps -> list cps -> list (cps * option string) * res unit.
  Hypothesis Hord : reorders order.
  Hypothesis Hlist : obedient listing.
  Variable set_labels : list cps.
  Variable label : cps.
  Hypothesis Hplain : Forall plain_text (label :: set_labels).
  Hypothesis Hset : forall l, In l (label :: set_labels) -> settled index l.

  Let all := order (dedup cps_eqb (set_labels ++ [label])).
  Lemma all_NoDup : NoDup all.
  Proof. apply (Permutation_NoDup (Hord _)). apply dedup_NoDup. exact cps_eqb_eq. Qed.
  Lemma all_In : forall l, In l all <-> In l (label :: set_labels).
  Proof.
    intro l. unfold all. split; intro H.
    - apply (Permutation_in _ (Permutation_sym (Hord _))) in H. rewrite (dedup_In _ _ cps_eqb_eq) in H. apply in_app_iff in H.
      destruct H as [H|[<-|[]]]; [right; exact H|left; reflexivity].
    - apply (Permutation_in _ (Hord _)). rewrite (dedup_In _ _ cps_eqb_eq). apply in_app_iff. destruct H as [<-|H]; [right; left; reflexivity|left; exact H].
  Qed.
  Lemma collisions_read : collisions_of decode order index listing (set_labels ++ [label]) = get_collisions index listing all true [].
  Proof.
    unfold collisions_of. rewrite plain_reads.
    - cbn [fst]. rewrite plain_labels. reflexivity.
    - apply Forall_forall. intros l H. rewrite Forall_forall in Hplain. apply Hplain. apply in_app_iff in H.
      destruct H as [H|[<-|[]]]; [right; exact H|left; reflexivity].
  Qed.
  Lemma collisions_table : exists t, collisions_of decode order index listing (set_labels ++ [label]) = Ok t /\ NoDup (dkeys t) /\
    (forall i, In i (dkeys t) <-> shared index set_labels label i) /\
    (forall i es, In (i, es) t -> NoDup (map ce_cp es) /\ forall l, In l (map ce_cp es) <-> In l (label :: set_labels) /\ index l = Ok i).
  Proof.
    rewrite collisions_read. unfold get_collisions.
    destruct (generate_total index listing all [] all_NoDup (NoDup_nil _) false true) as [t [E _]].
    { intros l [H|[]]. apply Hset. apply all_In. exact H. }
    { discriminate. }
    match type of E with _ = Ok (t, ?m) => destruct (collisions_found index listing all [] all_NoDup (NoDup_nil _) true t m Hlist E) as [_ [A2 [A3 A4]]] end.
    exists t. rewrite E. cbn [bind fst]. split; [reflexivity|]. split; [exact A2|]. split.
    - intro i. assert (K : In i (dkeys t) <-> dget cps_eqb i t <> None).
      { rewrite (dget_None _ cps_eqb_eq). split; [tauto|]. intro H. destruct (in_dec (list_eq_dec N.eq_dec) i (dkeys t)); [assumption|contradiction]. }
      rewrite K, A3. unfold shared, has_index, subject. split.
      + intros [a [b [H1 [[[Ha|[]] Ia] [[Hb|[]] Ib]]]]]. exists a, b. rewrite all_In in Ha, Hb. auto.
      + intros [a [b [Ha [Hb [H1 [Ia Ib]]]]]]. apply all_In in Ha. apply all_In in Hb. exists a, b. auto.
    - intros i es H. assert (G : dget cps_eqb i t = Some es) by (apply (In_dget _ cps_eqb_eq); auto). destruct (A4 i es G) as [B1 B2]. split; [exact B1|].
      intro l. rewrite B2. unfold has_index, subject. rewrite all_In. cbn [In]. tauto.
  Qed.

  (** The labels of the set in a group. *)
  Lemma in_set_of : forall es, map ce_cp (filter (fun e => memb cps_eqb (ce_cp e) set_labels) es) = filter (fun l => memb cps_eqb l set_labels) (map ce_cp es).
  Proof. induction es as [|e es IH]; [reflexivity|]. cbn [filter map]. destruct (memb _ _ _); cbn [map]; rewrite IH; reflexivity. Qed.

  Lemma clean_iff : ~ In label set_labels -> (clean_set index set_labels <->
    forall i a b, In a set_labels -> In b set_labels -> index a = Ok i -> index b = Ok i -> a = b).
  Proof.
    intros _. unfold clean_set, collide. split.
    - intros H i a b Ha Hb Ia Ib. destruct (list_eq_dec N.eq_dec a b) as [->|N]; [reflexivity|]. exfalso. apply (H a b Ha Hb). eauto.
    - intros H a b Ha Hb [N [i [Ia Ib]]]. apply N. eauto.
  Qed.

  Theorem collision_answer : exists v, collision_lines decode order index listing set_labels label = ([v], Ok (negb (is_trouble v))) /\
    answer index set_labels label v.
  Proof.
    unfold collision_lines. destruct (memb cps_eqb label set_labels) eqn:Em.
    - apply (memb_In _ _ cps_eqb_eq) in Em. exists VInSet. split; [reflexivity|]. constructor. exact Em.
    - apply (memb_false _ _ cps_eqb_eq) in Em. destruct collisions_table as [t [E [Hn [Hk He]]]]. rewrite E. destruct t as [|[i es] [|[j fs] t]].
      + exists VNone. split; [reflexivity|]. apply an_none; [exact Em| |].
        * intros a b Ha Hb [N [i [Ia Ib]]]. apply (Hk i). exists a, b. repeat split; auto; right; assumption.
        * intros x Hx [N [i [Ia Ib]]]. apply (Hk i). exists label, x. repeat split; auto; [left; reflexivity|right; assumption].
      + destruct (He i es (or_introl eq_refl)) as [B1 B2]. assert (Hi : shared index set_labels label i) by (apply Hk; left; reflexivity).
        assert (Ho : forall j, shared index set_labels label j -> j = i) by (intros j Hj; apply Hk in Hj; destruct Hj as [Hj|[]]; auto).
        destruct (existsb (fun e => cps_eqb (ce_cp e) label) es) eqn:Ex.
        * assert (Il : index label = Ok i).
          { apply existsb_exists in Ex. destruct Ex as [e [Ein Ee]]. apply cps_eqb_eq in Ee. apply (B2 label). rewrite <- Ee. apply in_map. exact Ein. }
          set (g := filter (fun l => memb cps_eqb l set_labels) (map ce_cp es)).
          assert (G1 : NoDup g) by (apply NoDup_filter; exact B1).
          assert (G2 : forall l, In l g <-> In l set_labels /\ index l = Ok i).
          { intro l. unfold g. rewrite filter_In, B2, (memb_In _ _ cps_eqb_eq). cbn [In]. tauto. }
          pose proof (in_set_of es) as G3. fold g in G3.
          destruct (filter (fun e => memb cps_eqb (ce_cp e) set_labels) es) as [|x [|y k]]; cbn [map] in G3.
          -- exfalso. destruct Hi as [a [b [Ha [Hb [N [Ia Ib]]]]]]. rewrite <- G3 in G2. cbn [In] in Ha, Hb.
             destruct Ha as [<-|Ha]; [destruct Hb as [<-|Hb]; [contradiction|apply (proj2 (G2 b)); auto]|apply (proj2 (G2 a)); auto].
          -- exists (VCollides (ce_cp x)). split; [reflexivity|]. rewrite <- G3 in G2. cbn [In] in G2. apply an_collides; [exact Em| | |].
             ++ intros a b Ha Hb [N [j [Ia Ib]]]. assert (Hj : j = i).
                { apply Ho. exists a, b. repeat split; auto; right; assumption. }
                subst j. apply N. destruct (proj2 (G2 a) (conj Ha Ia)) as [<-|[]]. destruct (proj2 (G2 b) (conj Hb Ib)) as [<-|[]]. reflexivity.
             ++ apply G2. left. reflexivity.
             ++ destruct (proj1 (G2 (ce_cp x)) (or_introl eq_refl)) as [X1 X2]. split; [intro Hx; rewrite Hx in Em; contradiction|exists i; auto].
          -- exists (VTrouble ManyInSet). split; [reflexivity|]. rewrite <- G3 in G1, G2. cbn [In] in G2.
             apply (an_several index set_labels label i (ce_cp x) (ce_cp y)); auto.
             ++ apply G2. left. reflexivity.
             ++ apply G2. right. left. reflexivity.
             ++ inversion G1 as [|? ? N _]. intro Hx. apply N. left. auto.
             ++ apply G2. left. reflexivity.
             ++ apply G2. right. left. reflexivity.
        * exists (VTrouble LabelLost). split; [reflexivity|]. apply (an_lost index set_labels label i); auto.
          intro Il. assert (K : In label (map ce_cp es)) by (apply B2; split; [left; reflexivity|exact Il]).
          apply in_map_iff in K. destruct K as [e [E1 E2]].
          assert (X : existsb (fun e => cps_eqb (ce_cp e) label) es = true) by (apply existsb_exists; exists e; split; [exact E2|apply cps_eqb_eq; exact E1]).
          rewrite Ex in X. discriminate.
      + exists (VTrouble ManyIndexes). split; [reflexivity|]. apply (an_many index set_labels label i j); auto.
        * cbn in Hn. inversion Hn as [|? ? N _]. intros ->. apply N. left. reflexivity.
        * apply Hk. left. reflexivity.
        * apply Hk. right. left. reflexivity.
  Qed.

  (** Only one answer is right. *)
  Theorem answer_unique : forall v w, answer index set_labels label v -> answer index set_labels label w -> v = w.
  Proof.
    assert (Hcl : clean_set index set_labels -> forall i j, shared index set_labels label i -> shared index set_labels label j -> i = j).
    { intros Hc.
      assert (L : forall i, shared index set_labels label i -> index label = Ok i).
      { intros i [a [b [Ha [Hb [N [Ia Ib]]]]]]. destruct Ha as [<-|Ha]; [exact Ia|]. destruct Hb as [<-|Hb]; [exact Ib|].
        exfalso. apply (Hc a b Ha Hb). split; [exact N|]. eauto. }
      intros i j Hi Hj. apply L in Hi. apply L in Hj. congruence. }
    assert (Hlost : clean_set index set_labels -> forall i, shared index set_labels label i -> index label = Ok i).
    { intros Hc i [a [b [Ha [Hb [N [Ia Ib]]]]]]. destruct Ha as [<-|Ha]; [exact Ia|]. destruct Hb as [<-|Hb]; [exact Ib|].
      exfalso. apply (Hc a b Ha Hb). split; [exact N|]. eauto. }
    assert (Hsev : forall i a b, clean_set index set_labels -> In a set_labels -> In b set_labels -> a <> b -> index a = Ok i -> index b = Ok i -> False).
    { intros i a b Hc Ha Hb N Ia Ib. apply (Hc a b Ha Hb). split; eauto. }
    assert (Hshr : forall i a b, In a set_labels -> In b set_labels -> a <> b -> index a = Ok i -> index b = Ok i -> shared index set_labels label i).
    { intros i a b Ha Hb N Ia Ib. exists a, b. repeat split; auto; right; assumption. }
    intros v w Hv Hw. destruct Hv; destruct Hw; try contradiction; try reflexivity; try (exfalso; eauto; fail).
    - f_equal. destruct (list_eq_dec N.eq_dec x x0) as [E|E]; [exact E|]. exfalso.
      destruct H2 as [_ [i [I1 I2]]]. destruct H6 as [_ [j [J1 J2]]]. assert (i = j) by congruence. subst j. exact (Hsev i x x0 H0 H1 H5 E I2 J2).
    - exfalso. match goal with H : forall y, In y set_labels -> ~ collide index label y |- _ => eapply H; eassumption end.
    - exfalso. match goal with H : forall y, In y set_labels -> ~ collide index label y |- _ => eapply H; eassumption end.
    - exfalso. match goal with H : forall k, _ -> k = ?c, N : ?p <> ?q |- _ => apply N; transitivity c; [apply H; assumption|symmetry; apply H; assumption] end.
    - exfalso. match goal with H : forall k, _ -> k = ?c, N : ?p <> ?q, Sp : shared _ _ _ ?p |- _ => apply N; transitivity c; [apply H; assumption|symmetry; apply H; assumption] end.
    - exfalso. match goal with H : forall k, _ -> k = ?c, N : ?p <> ?q, Sp : shared _ _ _ ?p |- _ => apply N; transitivity c; [apply H; assumption|symmetry; apply H; assumption] end.
    - exfalso. match goal with H : forall k, _ -> k = ?c, N : index label <> Ok ?p, I : index label = Ok ?c, Sp : shared _ _ _ ?p |- _ => apply N; rewrite I; f_equal; symmetry; apply H; exact Sp end.
    - exfalso. match goal with H : forall k, _ -> k = ?c, N : ?p <> ?q, Sp : shared _ _ _ ?p |- _ => apply N; transitivity c; [apply H; assumption|symmetry; apply H; assumption] end.
    - exfalso. match goal with H : forall k, _ -> k = ?c, N : index label <> Ok ?p, I : index label = Ok ?c, Sp : shared _ _ _ ?p |- _ => apply N; rewrite I; f_equal; symmetry; apply H; exact Sp end.
  Qed.
End Answer.
