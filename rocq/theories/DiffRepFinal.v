(** The whole comparison report. *)
From Coq Require Import Permutation.
From Verif Require Import Base BaseFacts AnnotateModel CollisionModel CollisionSpec CollisionProofs CollisionFinal CollisionDiff CollideModel CollideSpec CollideProofs CollideFinal CollideReport DiffRepModel DiffRepSpec DiffRepProofs DiffRepLines.
Open Scope string_scope.
Open Scope list_scope.

Section Diff.
  Variable lower : string -> string.
  Variable decode : cps -> res cps.
  Variable order : list cps -> list cps.
  Variables index1 index2 : cps -> res cps.
  Variables listing1 listing2 : cps -> list cps -> list (cps * option string) * res unit.
  Variable lines : list cps.
  Hypothesis Hor : reorders order.
  Let readings := fst (read_labels decode false false lines).
  Let L := order (valid_labels readings).
  Let start := map (fun x => RBad (rd_label x) (rd_error x)) (filter (fun x => negb (rd_valid x)) readings).
  Notation run := (diff lower decode order index1 index2 listing1 listing2 lines).

  Lemma L_given : forall l, In l L <-> given decode lines l.
  Proof. intro l. unfold L. rewrite <- (Permutation_in' eq_refl (Hor _)). apply (labels_given decode lines). Qed.
  Lemma L_NoDup : NoDup L.
  Proof. unfold L. eapply Permutation_NoDup; [apply Hor|]. apply (dedup_NoDup _ _ cps_eqb_eq). Qed.

  Definition ns (l : cps) : list (bool * cps) :=
    match index1 l with
    | Ok _ => match index2 l with Ok _ => [] | Raise _ => [(true, l)] end
    | Raise _ => [(false, l)]
    end.
  Definition ds (l : cps) : list (cps * (cps * cps)) :=
    match index1 l, index2 l with Ok i1, Ok i2 => [(l, (i1, i2))] | _, _ => [] end.
  Lemma with_ok : forall ls, (forall l, In l ls -> settled index1 l /\ settled index2 l) ->
    with_indexes index1 index2 ls = (map (fun q => RNotIn (fst q) (snd q)) (flat_map ns ls), Ok (flat_map ds ls)).
  Proof.
    induction ls as [|l ls IH]; intro H; [reflexivity|]. cbn [with_indexes flat_map]. unfold ns at 1, ds at 1. rewrite IH by (intros x Hx; apply H; right; exact Hx).
    destruct (H l (or_introl eq_refl)) as [[[i1 H1]|[x1 H1]] [[i2 H2]|[x2 H2]]]; rewrite H1, ?H2; reflexivity.
  Qed.
  Lemma ds_In : forall l i1 i2, In (l, (i1, i2)) (flat_map ds L) <-> In l L /\ index1 l = Ok i1 /\ index2 l = Ok i2.
  Proof.
    intros l i1 i2. rewrite in_flat_map. unfold ds. split.
    - intros [x [X1 X2]]. destruct (index1 x) eqn:E1; [|contradiction]. destruct (index2 x) eqn:E2; [|contradiction]. destruct X2 as [X2|[]]. injection X2 as <- <- <-. auto.
    - intros [H1 [H2 H3]]. exists l. rewrite H2, H3. split; [exact H1|left; reflexivity].
  Qed.
  Lemma ds_NoDup : NoDup (map fst (flat_map ds L)).
  Proof.
    pose proof L_NoDup as N. induction L as [|l ls IH]; [constructor|]. inversion N as [|? ? N1 N2]; subst. cbn [flat_map]. rewrite map_app.
    assert (S : forall x, In x (map fst (flat_map ds ls)) -> In x ls).
    { intros x Hx. apply in_map_iff in Hx. destruct Hx as [[y [a b]] [<- Hy]]. apply in_flat_map in Hy. destruct Hy as [z [Z1 Z2]]. unfold ds in Z2. destruct (index1 z); [|contradiction]. destruct (index2 z); [|contradiction]. destruct Z2 as [Z2|[]]. injection Z2 as <- _ _. exact Z1. }
    unfold ds at 1. destruct (index1 l); [|exact (IH N2)]. destruct (index2 l); [|exact (IH N2)]. cbn [map app fst]. constructor; [intro K; apply N1; apply S; exact K|exact (IH N2)].
  Qed.
  Lemma ns_In : forall b l, (forall l, In l L -> settled index1 l /\ settled index2 l) -> In (b, l) (flat_map ns L) <->
    In l L /\ if b then (exists i, index1 l = Ok i) /\ not_in_lgr index2 l else not_in_lgr index1 l.
  Proof.
    intros b l H. rewrite in_flat_map. unfold ns. split.
    - intros [x [X1 X2]]. destruct (H x X1) as [[[i1 H1]|[x1 H1]] [[i2 H2]|[x2 H2]]]; rewrite H1, ?H2 in X2; try contradiction; destruct X2 as [X2|[]]; injection X2 as <- <-; (split; [exact X1|]); unfold not_in_lgr; eauto.
    - intros [H1 H2]. exists l. split; [exact H1|]. destruct b.
      + destruct H2 as [[i H2] [x H3]]. rewrite H2, H3. left. reflexivity.
      + destruct H2 as [x H2]. rewrite H2. left. reflexivity.
  Qed.
  Lemma ns_NoDup : NoDup (flat_map ns L).
  Proof.
    pose proof L_NoDup as N. induction L as [|l ls IH]; [constructor|]. inversion N as [|? ? N1 N2]; subst. cbn [flat_map].
    assert (S : forall b, ~ In (b, l) (flat_map ns ls)).
    { intros b Hx. apply in_flat_map in Hx. destruct Hx as [z [Z1 Z2]]. unfold ns in Z2. destruct (index1 z); [destruct (index2 z); [contradiction|]|]; destruct Z2 as [Z2|[]]; injection Z2 as _ ->; contradiction. }
    unfold ns at 1. destruct (index1 l); [destruct (index2 l); [exact (IH N2)|]|]; cbn [app]; (constructor; [apply S|exact (IH N2)]).
  Qed.

  (** The lines that are no labels come first, whatever follows. *)
  Definition not_bad (x : rline) : Prop := match x with RBad _ _ => False | _ => True end.
  Lemma start_is : start = map (fun q => RBad (fst q) (snd q)) (refused_in decode lines).
  Proof. unfold start, refused_in. rewrite map_map. reflexivity. Qed.

  Hypothesis Ob1 : obedient listing1.
  Hypothesis Ob2 : obedient listing2.
  Hypothesis Self1 : shows_itself listing1.
  Hypothesis Self2 : shows_itself listing2.
  Variable gl : list cps.
  Hypothesis Hgl : forall l, In l gl <-> given decode lines l.
  Lemma L_gl : forall l, In l L <-> In l gl.
  Proof. intro l. rewrite L_given, Hgl. reflexivity. Qed.

  Section Made.
    Variables (quiet : bool) (t1 t2 : ctable) (m1 m2 : list cps).
    Hypothesis E1 : generate_indexes index1 listing1 L [] true quiet [] = Ok (t1, m1).
    Hypothesis E2 : generate_indexes index2 listing2 L [] true quiet [] = Ok (t2, m2).

    Lemma both_settled : forall l, In l L -> settled index1 l /\ settled index2 l.
    Proof.
      intros l H. destruct (table_kept index1 listing1 L [] L_NoDup (NoDup_nil _) Ob1 _ _ _ _ E1) as [T1 _], (table_kept index2 listing2 L [] L_NoDup (NoDup_nil _) Ob2 _ _ _ _ E2) as [T2 _].
      split; [apply T1|apply T2]; left; exact H.
    Qed.
    Definition of_table (t : ctable) (index : cps -> res cps) (l : cps) : list centry :=
      match index l with Ok i => match dget cps_eqb i t with Some es => es | None => [] end | Raise _ => [] end.
    Definition say (l : cps) : said :=
      let es1 := of_table t1 index1 l in let es2 := of_table t2 index2 l in
      mkSaid (ch_list l es1 es2) (num_list es2 es1) (num_list es1 es2).

    (** What the table holds for a label, of one LGR. *)
    Lemma table_has : forall index listing t m, generate_indexes index listing L [] true quiet [] = Ok (t, m) -> obedient listing -> shows_itself listing ->
      forall l i, In l L -> index l = Ok i ->
      dget cps_eqb i t = Some (of_table t index l) /\ NoDup (map ce_cp (of_table t index l)) /\
      (forall v, disp_in (of_table t index l) v l = dget cps_eqb v (fst (listing l []))) /\
      (forall v, In v (map ce_cp (of_table t index l)) <-> belongs index listing gl [] true i v) /\
      (forall v, kind_in gl index l v (category_in (of_table t index l) v)) /\
      NoDup (map fst (fst (listing l []))) /\ snd (listing l []) = Ok tt.
    Proof.
      intros index listing t m E Ob Self l i Hl Hi. destruct (kept_entry index listing L L_NoDup Self quiet t m E (proj1 Ob) l i Hl Hi) as [es [K1 [K2 [K3 _]]]].
      assert (Et : of_table t index l = es) by (unfold of_table; rewrite Hi, K1; reflexivity). rewrite Et. split; [exact K1|]. split; [exact K2|]. split; [exact K3|].
      destruct (table_kept index listing L [] L_NoDup (NoDup_nil _) Ob _ _ _ _ E) as [_ [_ [_ [_ T5]]]]. destruct (T5 i es) as [_ [U2 [U3 U4]]]; [apply (dget_In _ cps_eqb_eq); exact K1|].
      split; [intro v; rewrite U2; apply (belongs_same _ _ _ _ _ _ L_gl nothing_same)|]. split; [|split; [apply Ob|]].
      - intro v. exists i. split; [exact Hi|]. apply (kind_same _ _ _ _ _ L_gl nothing_same). apply U3.
      - apply (U4 eq_refl l). split; [left; exact Hl|exact Hi].
    Qed.
    Lemma listed_dget : forall listing l v, NoDup (map fst (fst (listing l []))) -> (dget cps_eqb v (fst (listing l [])) <> None <-> lists listing l v).
    Proof. intros listing l v N. apply dget_unlisted. Qed.
    Lemma kind_once : forall index l v c c', kind_in gl index l v c -> kind_in gl index l v c' -> c = c'.
    Proof.
      intros index l v c c' [i [H1 H2]] [i' [H3 H4]]. assert (i = i') by congruence. subst i'. destruct H2 as [[A B]|[A B]], H4 as [[C D]|[C D]]; try contradiction; [|congruence].
      destruct B as [[B1 B2]|[B1 [[] _]]], D as [[D1 D2]|[D1 [[] _]]]. congruence.
    Qed.
    (** The comparison of a label completes when each LGR lists for it what belongs to
        its index. *)
    Lemma label_done : forall l i1 i2, In l L -> index1 l = Ok i1 -> index2 l = Ok i2 ->
      (snd (compare_lines t1 t2 (l, (i1, i2))) = Ok tt <-> agreeing gl index1 listing1 l /\ agreeing gl index2 listing2 l).
    Proof.
      intros l i1 i2 Hl H1 H2. destruct (table_has index1 listing1 t1 m1 E1 Ob1 Self1 l i1 Hl H1) as [A1 [A2 [A3 [A4 [_ [A5 _]]]]]], (table_has index2 listing2 t2 m2 E2 Ob2 Self2 l i2 Hl H2) as [B1 [B2 [B3 [B4 [_ [B5 _]]]]]].
      unfold compare_lines. cbn [fst snd]. rewrite A1, B1, !goes_on_snd. cbn [snd]. pose proof (block_ok l _ _ A2 B2) as K.
      assert (Q1 : (forall v, In v (map ce_cp (of_table t1 index1 l)) -> disp_in (of_table t1 index1 l) v l <> None) <-> agreeing gl index1 listing1 l).
      { unfold agreeing. split.
        - intros H i v Hi Hb. assert (i = i1) by congruence. subst i. apply (listed_dget listing1 l v A5). rewrite <- A3. apply H. apply A4. exact Hb.
        - intros H v Hv. rewrite A3. apply (listed_dget listing1 l v A5). apply (H i1 v H1). apply A4. exact Hv. }
      assert (Q2 : (forall v, In v (map ce_cp (of_table t2 index2 l)) -> disp_in (of_table t2 index2 l) v l <> None) <-> agreeing gl index2 listing2 l).
      { unfold agreeing. split.
        - intros H i v Hi Hb. assert (i = i2) by congruence. subst i. apply (listed_dget listing2 l v B5). rewrite <- B3. apply H. apply B4. exact Hb.
        - intros H v Hv. rewrite B3. apply (listed_dget listing2 l v B5). apply (H i2 v H2). apply B4. exact Hv. }
      rewrite <- Q1, <- Q2, <- K. clear. intuition.
    Qed.
    Lemma label_block : forall l i1 i2, In l L -> index1 l = Ok i1 -> index2 l = Ok i2 -> snd (compare_lines t1 t2 (l, (i1, i2))) = Ok tt ->
      fst (compare_lines t1 t2 (l, (i1, i2))) = block say l /\ says_right index1 index2 listing1 listing2 gl l (say l).
    Proof.
      intros l i1 i2 Hl H1 H2 Hok. pose proof (proj1 (label_done l i1 i2 Hl H1 H2) Hok) as [G1 G2].
      destruct (table_has index1 listing1 t1 m1 E1 Ob1 Self1 l i1 Hl H1) as [A1 [A2 [A3 [A4 [A6 [A5 _]]]]]], (table_has index2 listing2 t2 m2 E2 Ob2 Self2 l i2 Hl H2) as [B1 [B2 [B3 [B4 [B6 [B5 _]]]]]].
      split.
      - unfold compare_lines in *. cbn [fst snd] in *. rewrite A1, B1 in *. rewrite !goes_on_snd in Hok. destruct Hok as [_ [O1 [_ O2]]]. rewrite !goes_on_fst by (try reflexivity; exact O1). cbn [fst].
        destruct (disposition_spec l (of_table t1 index1 l) (of_table t2 index2 l)) as [P1 P2]. rewrite P2 by (apply P1; exact O1). rewrite (proj2 (number_spec l _ _) O2). reflexivity.
      - assert (M1 : forall v, In v (map ce_cp (of_table t1 index1 l)) <-> lists listing1 l v).
        { intro v. split; intro H; [apply (G1 i1 v H1); apply A4; exact H|]. apply (listed_dget listing1 l v A5) in H. rewrite <- A3 in H. exact (disp_member l _ v H). }
        assert (M2 : forall v, In v (map ce_cp (of_table t2 index2 l)) <-> lists listing2 l v).
        { intro v. split; intro H; [apply (G2 i2 v H2); apply B4; exact H|]. apply (listed_dget listing2 l v B5) in H. rewrite <- B3 in H. exact (disp_member l _ v H). }
        unfold says_right, say. cbn [sa_changed sa_added sa_removed]. split; [apply changed_NoDup; assumption|]. split; [apply number_NoDup; assumption|]. split; [apply number_NoDup; assumption|]. split; [|split].
        + intros c v b a. rewrite (changed_In l _ _ A2 B2), A3, B3, (dget_listed listing1 l v a A5), (dget_listed listing2 l v b B5). split; intros [X1 [X2 [X3 X4]]]; (split; [exact X1|]; split; [exact X2|]; split; [exact X3|]).
          * rewrite X4. apply B6.
          * exact (kind_once _ _ _ _ _ X4 (B6 v)).
        + intros c v. rewrite (number_In _ _ c v B2), M1, M2. split; intros [X1 [X2 X3]]; (split; [exact X1|]; split; [exact X2|]).
          * rewrite X3. apply B6.
          * exact (kind_once _ _ _ _ _ X3 (B6 v)).
        + intros c v. rewrite (number_In _ _ c v A2), M1, M2. split; intros [X1 [X2 X3]]; (split; [exact X1|]; split; [exact X2|]).
          * rewrite X3. apply A6.
          * exact (kind_once _ _ _ _ _ X3 (A6 v)).
    Qed.

    Lemma tables_out : forall show dump, exists o, run show dump quiet =
      goes_on (start ++ missing_lines m1 m2 ++ RComparison :: map (fun q => RNotIn (fst q) (snd q)) (flat_map ns L), Ok tt)
        (goes_on (in_turn (compare_lines t1 t2) (flat_map ds L))
          (if show then goes_on (collision_lines lower false dump L t1) (collision_lines lower true dump L t2) else ([], Ok tt))) /\ o = tt.
    Proof.
      intros show dump. exists tt. split; [|reflexivity]. unfold diff. fold readings. fold L. rewrite E1, E2, (with_ok L both_settled). reflexivity.
    Qed.
    Lemma collision_lines_ok : forall second dump t, snd (collision_lines lower second dump L t) = Ok tt <-> (dump = true -> snd (dump_lines lower t) = Ok tt).
    Proof.
      intros second dump t. unfold collision_lines. rewrite goes_on_snd. destruct dump; cbn [snd found]; [rewrite goes_on_snd; cbn [snd]|]; intuition congruence.
    Qed.
    Lemma made_ok : forall show dump, snd (run show dump quiet) = Ok tt <->
      (forall l, in_both index1 index2 gl l -> agreeing gl index1 listing1 l /\ agreeing gl index2 listing2 l) /\
      (show = true -> dump = true -> snd (dump_lines lower t1) = Ok tt /\ snd (dump_lines lower t2) = Ok tt).
    Proof.
      intros show dump. destruct (tables_out show dump) as [_ [-> _]]. rewrite !goes_on_snd, in_turn_snd. cbn [snd].
      assert (A : (forall x, In x (flat_map ds L) -> snd (compare_lines t1 t2 x) = Ok tt) <-> forall l, in_both index1 index2 gl l -> agreeing gl index1 listing1 l /\ agreeing gl index2 listing2 l).
      { unfold in_both. split.
        - intros H l [H1 [[i1 H2] [i2 H3]]]. apply L_gl in H1. apply (label_done l i1 i2 H1 H2 H3). apply H. apply ds_In. auto.
        - intros H [l [i1 i2]] Hx. apply ds_In in Hx. destruct Hx as [H1 [H2 H3]]. apply (label_done l i1 i2 H1 H2 H3). apply H. split; [apply L_gl; exact H1|]. eauto. }
      rewrite A. destruct show; [rewrite goes_on_snd, !collision_lines_ok|cbn [snd]]; clear.
      - split; [intros [_ [H1 [H2 H3]]]; split; [exact H1|]; intros _ D; split; auto|]. intros [H1 H2]. split; [reflexivity|]. split; [exact H1|]. split; intro D; apply (H2 eq_refl D).
      - split; [intros [_ [H1 _]]; split; [exact H1|discriminate]|]. intros [H1 _]. auto.
    Qed.

    (** The sections on collisions. *)
    Lemma alone : forall index listing t m, generate_indexes index listing L [] true quiet [] = Ok (t, m) -> forall dump, (dump = true -> snd (dump_lines lower t) = Ok tt) ->
      as_alone lower decode index listing order lines dump quiet (complete_output L [] t) (fst (dump_lines lower t)).
    Proof.
      intros index listing t m E dump Hd. exists (rearranged decode L lines).
      assert (V : valid_labels (fst (read_labels decode false false (rearranged decode L lines))) = L) by (apply rearranged_labels; [exact L_NoDup|exact L_given]).
      assert (O : order [] = []) by (pose proof (Hor []) as P; apply Permutation_nil in P; exact P).
      set (st := refused BadLabel (fst (read_labels decode false false (rearranged decode L lines))) ++ match m with [] => [] | _ => MissingHeader :: map IsMissing (isort cps_leb m) end).
      exists st, (snd (dump_lines lower t)). split; [apply rearranged_perm; exact L_NoDup|]. split; [|split; [|exact Hd]].
      - unfold st. rewrite in_app_iff. intros [K|K]; [unfold refused in K; apply in_map_iff in K; destruct K as [x [K _]]; discriminate|]. destruct m as [|a m]; [contradiction|]. destruct K as [K|K]; [discriminate|]. apply in_map_iff in K. destruct K as [x [K _]]. discriminate.
      - unfold collision. cbv zeta. rewrite V. cbn [valid_labels filter map dedup dedup_aux]. change (valid_labels []) with (@nil cps). rewrite O, E.
        assert (F : filter (fun l => memb cps_eqb l []) L = []) by (clear; induction L as [|x l IH]; [reflexivity|exact IH]). rewrite F. unfold refused at 2. cbn [map filter app]. cbn [continue fst snd]. destruct (dump_lines lower t) as [o r].
        cbn [fst snd]. unfold st. repeat first [rewrite <- app_assoc | progress cbn [app]]. reflexivity.
    Qed.
  End Made.

  Theorem report_made : forall show dump quiet out, run show dump quiet = (out, Ok tt) ->
    exists m1 m2 n ls say s1 d1 s2 d2,
      out = map (fun q => RBad (fst q) (snd q)) (refused_in decode lines) ++ missing_part m1 m2 ++
            RComparison :: map (fun q => RNotIn (fst q) (snd q)) n ++ flat_map (block say) ls ++
            (if show then collision_part false dump s1 d1 ++ collision_part true dump s2 d2 else []) /\
      (NoDup m1 /\ forall l, In l m1 <-> In l gl /\ not_in_lgr index1 l) /\
      (NoDup m2 /\ forall l, In l m2 <-> In l gl /\ not_in_lgr index2 l) /\
      (NoDup n /\ forall b l, In (b, l) n <-> In l gl /\ if b then (exists i, index1 l = Ok i) /\ not_in_lgr index2 l else not_in_lgr index1 l) /\
      (NoDup ls /\ forall l, In l ls <-> in_both index1 index2 gl l) /\
      (forall l, In l ls -> says_right index1 index2 listing1 listing2 gl l (say l)) /\
      (show = true -> pairs_right index1 listing1 gl s1 /\ pairs_right index2 listing2 gl s2 /\
         as_alone lower decode index1 listing1 order lines dump quiet s1 d1 /\ as_alone lower decode index2 listing2 order lines dump quiet s2 d2).
  Proof.
    intros show dump quiet out H. assert (Hs : snd (run show dump quiet) = Ok tt) by (rewrite H; reflexivity).
    destruct (generate_indexes index1 listing1 L [] true quiet []) as [[t1 m1]|e] eqn:E1.
    2:{ exfalso. unfold diff in Hs. fold readings in Hs. fold L in Hs. rewrite E1 in Hs. discriminate. }
    destruct (generate_indexes index2 listing2 L [] true quiet []) as [[t2 m2]|e] eqn:E2.
    2:{ exfalso. unfold diff in Hs. fold readings in Hs. fold L in Hs. rewrite E1, E2 in Hs. discriminate. }
    pose proof (both_settled quiet t1 t2 m1 m2 E1 E2) as St. destruct (tables_out quiet t1 t2 m1 m2 E1 E2 show dump) as [_ [T _]].
    assert (Ho : out = fst (run show dump quiet)) by (rewrite H; reflexivity). rewrite T in Ho, Hs. rewrite !goes_on_snd in Hs. destruct Hs as [_ [Hc Hx]].
    pose proof (proj1 (in_turn_snd _ _) Hc) as Hl. rewrite !goes_on_fst in Ho by (try reflexivity; exact Hc). rewrite in_turn_fst in Ho by exact Hc. cbn [fst] in Ho.
    destruct (table_kept index1 listing1 L [] L_NoDup (NoDup_nil _) Ob1 _ _ _ _ E1) as [_ [M1 _]], (table_kept index2 listing2 L [] L_NoDup (NoDup_nil _) Ob2 _ _ _ _ E2) as [_ [M2 _]].
    exists m1, m2, (flat_map ns L), (map fst (flat_map ds L)), (say t1 t2), (complete_output L [] t1), (fst (dump_lines lower t1)), (complete_output L [] t2), (fst (dump_lines lower t2)).
    assert (Abs : forall index m, m = absent index L -> NoDup m /\ forall l, In l m <-> In l gl /\ not_in_lgr index l).
    { intros index m ->. split; [apply NoDup_filter; exact L_NoDup|]. intro l. rewrite absent_In, L_gl. reflexivity. }
    assert (Lst : forall l, In l (map fst (flat_map ds L)) <-> in_both index1 index2 gl l).
    { intro l. unfold in_both. rewrite in_map_iff, <- L_gl. split.
      - intros [[x [i1 i2]] [<- Hx2]]. apply ds_In in Hx2. cbn [fst]. destruct Hx2 as [X1 [X2 X3]]. eauto 6.
      - intros [X1 [[i1 X2] [i2 X3]]]. exists (l, (i1, i2)). split; [reflexivity|]. apply ds_In. auto. }
    split; [|split; [apply Abs; exact M1|split; [apply Abs; exact M2|split; [|split; [|split]]]]].
    - rewrite Ho, start_is. unfold missing_lines, missing_part. repeat first [rewrite <- app_assoc | progress cbn [app]]. f_equal.
      assert (Eb : flat_map (fun x => fst (compare_lines t1 t2 x)) (flat_map ds L) = flat_map (block (say t1 t2)) (map fst (flat_map ds L))).
      { rewrite (flat_map_concat_map _ (flat_map ds L)), (flat_map_concat_map _ (map fst (flat_map ds L))). f_equal. rewrite map_map. apply map_ext_in. intros [l [i1 i2]] Hi. pose proof (Hl _ Hi) as Hk. apply ds_In in Hi. destruct Hi as [X1 [X2 X3]]. cbn [fst].
        exact (proj1 (label_block quiet t1 t2 m1 m2 E1 E2 l i1 i2 X1 X2 X3 Hk)). }
      assert (Ec : fst (if show then goes_on (collision_lines lower false dump L t1) (collision_lines lower true dump L t2) else ([], Ok tt)) =
        if show then collision_part false dump (complete_output L [] t1) (fst (dump_lines lower t1)) ++ collision_part true dump (complete_output L [] t2) (fst (dump_lines lower t2)) else []).
      { destruct show; [|reflexivity]. rewrite goes_on_snd in Hx. destruct Hx as [X1 X2]. rewrite goes_on_fst by exact X1.
        assert (Q : forall second t, snd (collision_lines lower second dump L t) = Ok tt -> fst (collision_lines lower second dump L t) = collision_part second dump (complete_output L [] t) (fst (dump_lines lower t))).
        { intros second t K. unfold collision_lines, collision_part in *. rewrite goes_on_fst by reflexivity. cbn [fst app]. destruct dump; reflexivity. }
        rewrite !Q by assumption. reflexivity. }
      rewrite Eb, Ec. destruct m1 as [|a m1], m2 as [|b m2]; cbn [length Nat.eqb andb app]; repeat first [rewrite <- app_assoc | progress cbn [app]]; reflexivity.
    - split; [exact ns_NoDup|]. intros b l. rewrite ns_In by exact St. rewrite L_gl. reflexivity.
    - split; [exact ds_NoDup|exact Lst].
    - intros l Hin. pose proof Hin as Hin2. apply Lst in Hin. destruct Hin as [X1 [[i1 X2] [i2 X3]]]. apply L_gl in X1. assert (X4 : In (l, (i1, i2)) (flat_map ds L)) by (apply ds_In; auto).
      apply (label_block quiet t1 t2 m1 m2 E1 E2 l i1 i2 X1 X2 X3 (Hl _ X4)).
    - intros ->. rewrite goes_on_snd in Hx. destruct Hx as [X1 X2]. rewrite collision_lines_ok in X1, X2.
      split; [exact (shown_pairs index1 listing1 L gl L_NoDup L_gl Ob1 quiet t1 m1 E1)|]. split; [exact (shown_pairs index2 listing2 L gl L_NoDup L_gl Ob2 quiet t2 m2 E2)|].
      split; [exact (alone quiet index1 listing1 t1 m1 E1 dump X1)|exact (alone quiet index2 listing2 t2 m2 E2 dump X2)].
  Qed.

  (** When it is complete. *)
  Lemma dumping : forall index listing quiet t m, generate_indexes index listing L [] true quiet [] = Ok (t, m) -> obedient listing -> shows_itself listing ->
    (snd (dump_lines lower t) = Ok tt <-> forall l, In l gl -> disposing gl index listing l).
  Proof.
    intros index listing quiet t m E Ob Self. set (ls' := rearranged decode L lines).
    assert (V : valid_labels (fst (read_labels decode false false ls')) = L) by (apply rearranged_labels; [exact L_NoDup|exact L_given]).
    assert (O : order [] = []) by (pose proof (Hor []) as P; apply Permutation_nil in P; exact P).
    assert (G : forall l, In l gl <-> given decode ls' l) by (intro l; rewrite <- L_gl, <- V; apply (labels_given decode ls')).
    assert (Ok1 : snd (collision lower decode index listing order ls' None true quiet) = Ok tt <-> snd (dump_lines lower t) = Ok tt).
    { rewrite (collision_ok lower decode index listing order ls' None). rewrite V. cbn [valid_labels filter map dedup dedup_aux]. change (valid_labels []) with (@nil cps). rewrite O. split.
      - intros [t' [m' [E' D]]]. assert (t' = t) by congruence. subst. apply D. reflexivity.
      - intro D. exists t, m. auto. }
    rewrite <- Ok1. rewrite (report_dump lower decode index listing order ls' None Hor Ob gl [] G (fun l => iff_refl False) Self quiet).
    destruct (table_kept index listing L [] L_NoDup (NoDup_nil _) Ob _ _ _ _ E) as [T1 _]. unfold disposing. split.
    - intros [_ [_ K]] l Hl i v Hi Hv. apply (K i l v Hl); [split; [left; exact Hl|exact Hi]|exact Hv].
    - intro K. split; [|split].
      + intros l [Hl|[]]. apply T1. left. apply L_gl. exact Hl.
      + intros i p [[Hp|[]] Hi]. apply L_gl in Hp. apply (table_has quiet index listing t m E Ob Self p i Hp Hi).
      + intros i p v Hp [_ Hi] Hv. exact (K p Hp i v Hi Hv).
  Qed.
  Theorem report_completes : forall show dump quiet, snd (run show dump quiet) = Ok tt <->
    (forall l, In l gl -> answers index1 listing1 l /\ answers index2 listing2 l) /\
    (forall l, in_both index1 index2 gl l -> agreeing gl index1 listing1 l /\ agreeing gl index2 listing2 l) /\
    (show = true -> dump = true -> forall l, In l gl -> disposing gl index1 listing1 l /\ disposing gl index2 listing2 l).
  Proof.
    intros show dump quiet.
    assert (Gen : forall index listing, obedient listing -> shows_itself listing -> ((exists t m, generate_indexes index listing L [] true quiet [] = Ok (t, m)) <-> forall l, In l gl -> answers index listing l)).
    { intros index listing Ob Self. split.
      - intros [t [m E]] l Hl. destruct (table_kept index listing L [] L_NoDup (NoDup_nil _) Ob _ _ _ _ E) as [T1 _]. apply L_gl in Hl. split; [apply T1; left; exact Hl|]. intros i Hi. apply (table_has quiet index listing t m E Ob Self l i Hl Hi).
      - intro H. destruct (generate_total index listing L [] L_NoDup (NoDup_nil _) true quiet) as [t [E _]].
        + intros l [Hl|[]]. apply H. apply L_gl. exact Hl.
        + intros i p _ [[Hp|[]] Hi]. apply L_gl in Hp. split; [exact (proj2 (H p Hp) i Hi)|apply Ob].
        + eauto. }
    destruct (generate_indexes index1 listing1 L [] true quiet []) as [[t1 m1]|e] eqn:E1.
    2:{ split.
        - intro K. exfalso. unfold diff in K. fold readings in K. fold L in K. rewrite E1 in K. discriminate.
        - intros [K _]. exfalso. destruct (proj2 (Gen index1 listing1 Ob1 Self1)) as [t [m E]]; [intros l Hl; apply K; exact Hl|]. congruence. }
    destruct (generate_indexes index2 listing2 L [] true quiet []) as [[t2 m2]|e] eqn:E2.
    2:{ split.
        - intro K. exfalso. unfold diff in K. fold readings in K. fold L in K. rewrite E1, E2 in K. discriminate.
        - intros [K _]. exfalso. destruct (proj2 (Gen index2 listing2 Ob2 Self2)) as [t [m E]]; [intros l Hl; apply K; exact Hl|]. congruence. }
    rewrite (made_ok quiet t1 t2 m1 m2 E1 E2 show dump). rewrite (dumping index1 listing1 quiet t1 m1 E1 Ob1 Self1), (dumping index2 listing2 quiet t2 m2 E2 Ob2 Self2).
    pose proof (proj1 (Gen index1 listing1 Ob1 Self1) ltac:(eauto)) as A1. pose proof (proj1 (Gen index2 listing2 Ob2 Self2) ltac:(eauto)) as A2. split.
    - intros [K1 K2]. split; [auto|]. split; [exact K1|]. intros S D l Hl. destruct (K2 S D) as [K3 K4]. auto.
    - intros [_ [K1 K2]]. split; [exact K1|]. intros S D. split; intros l Hl; apply (K2 S D l Hl).
  Qed.
End Diff.
