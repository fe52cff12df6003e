(** The short collision report. *)
From Coq Require Import Permutation Sorted.
From Verif Require Import Base BaseFacts CharModel ActionModel LabelModel RepSpec AnnotateModel CollisionModel CollisionSpec CollisionFinal CollideModel CollideSpec CollideFinal CollideReport BasicRepModel BasicRepSpec.
Open Scope list_scope.

Lemma simple_shape : forall order labels tlds t x, In x (simple_lines order labels tlds t) ->
  (exists p, x = WithLabel (fst p) (snd p) /\ In p (fst (simple_output order labels tlds t))) \/
  (exists p, x = WithTld (fst p) (snd p) /\ In p (snd (simple_output order labels tlds t))).
Proof.
  intros order labels tlds t x H. unfold simple_lines in H. apply in_flat_map in H. destruct H as [es [He H]]. unfold simple_group in H. cbv zeta in H. apply in_app_iff in H. unfold simple_output. cbn [fst snd].
  destruct H as [H|H].
  - left. destruct (Nat.ltb 1 _) eqn:E in H; [|destruct H]. apply in_map_iff in H. destruct H as [p [<- H]]. exists p. split; [reflexivity|]. apply in_flat_map. exists es. split; [exact He|]. cbv zeta. rewrite E. exact H.
  - right. destruct (order (filter _ tlds)) as [|y ts] eqn:E in H; [destruct H|]. apply in_map_iff in H. destruct H as [p [<- H]]. exists p. split; [reflexivity|]. apply in_flat_map. exists es. split; [exact He|]. rewrite E. exact H.
Qed.
Lemma against_none : forall l, dump_collisions l (Some []) = [].
Proof. induction l as [|x l IH]; [reflexivity|]. cbn. exact IH. Qed.
Lemma simple_labels : forall order labels tlds t a b, In (WithLabel a b) (simple_lines order labels tlds t) <-> In (a, b) (fst (simple_output order labels tlds t)).
Proof.
  intros order labels tlds t a b. split.
  - intro H. apply simple_shape in H. destruct H as [[[x y] [E H]]|[p [E _]]]; [|discriminate]. injection E as -> ->. exact H.
  - intro H. unfold simple_output in H. cbn [fst] in H. apply in_flat_map in H. destruct H as [es [He H]]. unfold simple_lines. apply in_flat_map. exists es. split; [exact He|].
    unfold simple_group. cbv zeta in *. apply in_app_iff. left. destruct (Nat.ltb 1 _); [|destruct H]. apply in_map_iff. exists (a, b). auto.
Qed.
Lemma simple_tlds : forall order labels tlds t a b, In (WithTld a b) (simple_lines order labels tlds t) <-> In (a, b) (snd (simple_output order labels tlds t)).
Proof.
  intros order labels tlds t a b. split.
  - intro H. apply simple_shape in H. destruct H as [[p [E _]]|[[x y] [E H]]]; [discriminate|]. injection E as -> ->. exact H.
  - intro H. unfold simple_output in H. cbn [snd] in H. apply in_flat_map in H. destruct H as [es [He H]]. unfold simple_lines. apply in_flat_map. exists es. split; [exact He|].
    unfold simple_group. cbv zeta in *. apply in_app_iff. right. destruct (order (filter _ tlds)) as [|y ts]; [rewrite against_none in H; destruct H|]. apply in_map_iff. exists (a, b). auto.
Qed.

(** What is picked from a list of lines that show none of it, or only it. *)
Lemma pick_none : forall (A : Type) (f : bline -> list A) l, (forall x, In x l -> f x = []) -> flat_map f l = [].
Proof. intros A f l H. induction l as [|x l IH]; [reflexivity|]. cbn. rewrite (H x) by (left; reflexivity). apply IH. intros y Hy. apply H. right. exact Hy. Qed.
Lemma pick_all : forall (A B : Type) (f : bline -> list A) (g : B -> bline) (h : B -> A) l, (forall x, f (g x) = [h x]) -> flat_map f (map g l) = map h l.
Proof. intros A B f g h l H. induction l as [|x l IH]; [reflexivity|]. cbn. rewrite H, IH. reflexivity. Qed.

Section Report.
  Variable decode : cps -> res cps.
  Variable index : cps -> res cps.
  Variable listing : cps -> list cps -> list (cps * option string) * res unit.
  Variable order : list cps -> list cps.
  Hypothesis Hor : reorders order.
  Hypothesis Hob : obedient listing.

  Section Body.
    Variables (lines f : list cps).
    Let readings := fst (read_labels decode false false lines).
    Let tld_readings := fst (read_labels decode false false f).
    Let labels := order (valid_labels readings).
    Let tlds := order (valid_labels tld_readings).
    Let both := isort cps_leb (filter (fun l => memb cps_eqb l tlds) labels).

    Lemma set_given : forall ls l, In l (order (valid_labels (fst (read_labels decode false false ls)))) <-> given decode ls l.
    Proof.
      intros ls l. rewrite <- (Permutation_in' eq_refl (Hor _)). unfold valid_labels, given. rewrite (dedup_In _ _ cps_eqb_eq), in_map_iff. split.
      - intros [x [E H]]. apply filter_In in H. exists x. tauto.
      - intros [x [H1 [H2 H3]]]. exists x. rewrite filter_In. auto.
    Qed.
    Lemma set_NoDup : forall ls, NoDup (order (valid_labels (fst (read_labels decode false false ls)))).
    Proof. intro ls. apply (Permutation_NoDup (Hor _)). apply (dedup_NoDup _ _ cps_eqb_eq). Qed.
    Lemma both_given : forall l, In l both <-> given decode lines l /\ given decode f l.
    Proof. intro l. unfold both. rewrite isort_in, filter_In, (memb_In _ _ cps_eqb_eq). unfold labels, tlds, readings, tld_readings. rewrite !set_given. reflexivity. Qed.
    Lemma both_ascending : ascending both.
    Proof. apply isort_ascending. apply NoDup_filter. apply set_NoDup. Qed.

    Definition body_lines (found : list bline) (missing : list cps) : list bline :=
      (map (fun x => TldError (rd_label x) (rd_error x)) (filter (fun x => negb (rd_valid x)) tld_readings) ++ CollisionsTitle :: map IsATld both) ++ found
        ++ (match map IsATld both ++ found with [] => [NoCollisionHere] | _ => [] end)
        ++ (match map (fun x => LabelError (rd_label x) (rd_error x)) (filter (fun x => negb (rd_valid x)) readings) ++ map LabelMissing (isort cps_leb missing) with [] => [] | l => ErrorsTitle :: l end).
    Lemma body_ok : forall out, basic_body index listing order readings tld_readings = (out, Ok tt) ->
      exists t missing, basic_collision index listing order labels tlds = Ok (simple_output order labels tlds t, missing) /\
        NoDup missing /\ out = body_lines (simple_lines order labels tlds t) missing.
    Proof.
      intros out H. unfold basic_body in H. cbv zeta in H. fold labels tlds in H.
      destruct (generate_indexes index listing labels tlds false true []) as [[t missing]|e] eqn:E; [|discriminate].
      exists t, missing. split; [unfold basic_collision; rewrite E; reflexivity|]. split.
      - destruct Hob as [O1 _]. destruct (generate_inv index listing labels tlds (set_NoDup lines) (set_NoDup f) false true t missing O1 E) as [_ [_ [-> _]]]. apply NoDup_filter. apply set_NoDup.
      - injection H as H. symmetry. exact H.
    Qed.

    Section Done.
      Variables (t : ctable) (missing : list cps).
      Let found := simple_lines order labels tlds t.
      Hypothesis B : basic_collision index listing order labels tlds = Ok (simple_output order labels tlds t, missing).
      Hypothesis N : NoDup missing.

      Lemma body_cases : forall x, In x (body_lines found missing) <->
        (exists y, In y tld_readings /\ rd_valid y = false /\ x = TldError (rd_label y) (rd_error y)) \/ x = CollisionsTitle \/ (exists l, In l both /\ x = IsATld l) \/ In x found \/
        (both = [] /\ found = [] /\ x = NoCollisionHere) \/
        (x = ErrorsTitle /\ (missing <> [] \/ exists y, In y readings /\ rd_valid y = false)) \/
        (exists y, In y readings /\ rd_valid y = false /\ x = LabelError (rd_label y) (rd_error y)) \/ (exists l, In l missing /\ x = LabelMissing l).
      Proof.
        intro x. unfold body_lines. fold readings tld_readings labels tlds both. rewrite !in_app_iff. cbn [In]. rewrite !in_map_iff.
        assert (P1 : (exists y, TldError (rd_label y) (rd_error y) = x /\ In y (filter (fun x => negb (rd_valid x)) tld_readings)) <-> (exists y, In y tld_readings /\ rd_valid y = false /\ x = TldError (rd_label y) (rd_error y))).
        { split; intros [y H]; exists y; rewrite filter_In, negb_true_iff in *; intuition. }
        assert (P2 : (exists l, IsATld l = x /\ In l both) <-> (exists l, In l both /\ x = IsATld l)) by (split; intros [l H]; exists l; intuition).
        assert (P3 : In x (match map IsATld both ++ found with [] => [NoCollisionHere] | _ => [] end) <-> both = [] /\ found = [] /\ x = NoCollisionHere).
        { destruct both as [|b bs]; [|cbn; split; [tauto|intros [X _]; discriminate]]. cbn [map app]. destruct found as [|c cs]; cbn; [intuition|]. split; [tauto|]. intros [_ [X _]]. discriminate. }
        assert (P4 : In x (match map (fun x => LabelError (rd_label x) (rd_error x)) (filter (fun x => negb (rd_valid x)) readings) ++ map LabelMissing (isort cps_leb missing) with [] => [] | l => ErrorsTitle :: l end) <->
          (x = ErrorsTitle /\ (missing <> [] \/ exists y, In y readings /\ rd_valid y = false)) \/
          (exists y, In y readings /\ rd_valid y = false /\ x = LabelError (rd_label y) (rd_error y)) \/ (exists l, In l missing /\ x = LabelMissing l)).
        { set (A := map (fun x => LabelError (rd_label x) (rd_error x)) (filter (fun x => negb (rd_valid x)) readings)). set (M := map LabelMissing (isort cps_leb missing)).
          assert (HA : forall z, In z A <-> exists y, In y readings /\ rd_valid y = false /\ z = LabelError (rd_label y) (rd_error y)).
          { intro z. unfold A. rewrite in_map_iff. split; intros [y H]; exists y; rewrite filter_In, negb_true_iff in *; intuition. }
          assert (HM : forall z, In z M <-> exists l, In l missing /\ z = LabelMissing l).
          { intro z. unfold M. rewrite in_map_iff. split; intros [l H]; exists l; rewrite isort_in in *; intuition. }
          assert (HN : A ++ M <> [] <-> missing <> [] \/ exists y, In y readings /\ rd_valid y = false).
          { split.
            - intro H. destruct A as [|a A'] eqn:EA.
              + left. intro Z. apply H. unfold M. rewrite Z. reflexivity.
              + right. destruct (proj1 (HA a)) as [y [Y1 [Y2 _]]]; [left; reflexivity|]. eauto.
            - intros [H|[y [Y1 Y2]]] Z; apply app_eq_nil in Z; destruct Z as [Z1 Z2].
              + apply H. destruct missing as [|m ms]; [reflexivity|]. assert (Q : In (LabelMissing m) M) by (apply HM; exists m; cbn; auto). rewrite Z2 in Q. destruct Q.
              + assert (Q : In (LabelError (rd_label y) (rd_error y)) A) by (apply HA; eauto). rewrite Z1 in Q. destruct Q. }
          rewrite <- HA, <- HM, <- HN, <- in_app_iff. destruct (A ++ M) as [|z zs] eqn:EZ; [cbn; tauto|]. cbn [In]. split.
          - intros [H|H]; [left; split; [auto|discriminate]|right; exact H].
          - intros [[H _]|H]; auto. }
        rewrite P1, P2, P3, P4. clear. intuition.
      Qed.
      Lemma found_kind : forall x, In x found -> section_of x = 6%nat.
      Proof. intros x H. apply simple_shape in H. destruct H as [[p [-> _]]|[p [-> _]]]; reflexivity. Qed.
      Ltac no_found := match goal with H : In _ found |- _ => apply found_kind in H; discriminate H end.

      Lemma shown_labels : forall a b, In (WithLabel a b) (body_lines found missing) \/ In (WithLabel b a) (body_lines found missing) <-> given decode lines a /\ given decode lines b /\ collide index a b.
      Proof.
        intros a b. assert (Q : forall a b, In (WithLabel a b) (body_lines found missing) <-> In (a, b) (fst (simple_output order labels tlds t))).
        { clear a b. intros a b. rewrite body_cases. split.
          - intros [[y [_ [_ X]]]|[X|[[l [_ X]]|[X|[[_ [_ X]]|[[X _]|[[y [_ [_ X]]]|[l [_ X]]]]]]]]]; try discriminate. apply simple_labels. exact X.
          - intro H. do 3 right. left. apply simple_labels. exact H. }
        rewrite !Q. destruct (simple_output order labels tlds t) as [pl pt] eqn:ES. destruct (basic_collisions index listing order Hor labels tlds pl pt missing (set_NoDup lines) (set_NoDup f) Hob B) as [_ [X _]].
        cbn [fst]. rewrite X. unfold labels, readings. rewrite !set_given. reflexivity.
      Qed.
      Lemma shown_tlds : forall a b, In (WithTld a b) (body_lines found missing) <-> given decode lines a /\ given decode f b /\ collide index a b.
      Proof.
        intros a b. assert (Q : In (WithTld a b) (body_lines found missing) <-> In (a, b) (snd (simple_output order labels tlds t))).
        { rewrite body_cases. split.
          - intros [[y [_ [_ X]]]|[X|[[l [_ X]]|[X|[[_ [_ X]]|[[X _]|[[y [_ [_ X]]]|[l [_ X]]]]]]]]]; try discriminate. apply simple_tlds. exact X.
          - intro H. do 3 right. left. apply simple_tlds. exact H. }
        rewrite Q. destruct (simple_output order labels tlds t) as [pl pt] eqn:ES. destruct (basic_collisions index listing order Hor labels tlds pl pt missing (set_NoDup lines) (set_NoDup f) Hob B) as [_ [_ [X _]]].
        cbn [snd]. rewrite X. unfold labels, readings, tlds, tld_readings. rewrite !set_given. reflexivity.
      Qed.
      Lemma shown_none : In NoCollisionHere (body_lines found missing) <->
        forall a, given decode lines a -> ~ given decode f a /\ forall b, given decode lines b \/ given decode f b -> ~ collide index a b.
      Proof.
        rewrite body_cases. split.
        - intros [[y [_ [_ X]]]|[X|[[l [_ X]]|[X|[[X1 [X2 _]]|[[X _]|[[y [_ [_ X]]]|[l [_ X]]]]]]]]]; try discriminate; [no_found|].
          intros a Ha. split; [intro Hb; assert (Q : In a both) by (apply both_given; auto); rewrite X1 in Q; destruct Q|].
          intros b [Hb|Hb] C.
          + assert (Q : In (WithLabel a b) (body_lines found missing) \/ In (WithLabel b a) (body_lines found missing)) by (apply shown_labels; auto).
            rewrite !body_cases, X1, X2 in Q. clear - Q. destruct Q as [Q|Q]; destruct Q as [[y [_ [_ X]]]|[X|[[l [[] _]]|[[]|[[_ [_ X]]|[[X _]|[[y [_ [_ X]]]|[l [_ X]]]]]]]]]; discriminate.
          + assert (Q : In (WithTld a b) (body_lines found missing)) by (apply shown_tlds; auto).
            rewrite !body_cases, X1, X2 in Q. clear - Q. destruct Q as [[y [_ [_ X]]]|[X|[[l [[] _]]|[[]|[[_ [_ X]]|[[X _]|[[y [_ [_ X]]]|[l [_ X]]]]]]]]]; discriminate.
        - intro H. do 4 right. left. assert (Eb : both = []).
          { destruct both as [|b bs] eqn:E; [reflexivity|]. assert (Q : In b both) by (rewrite E; left; reflexivity). apply both_given in Q. destruct Q as [Q1 Q2]. destruct (H b Q1) as [H1 _]. contradiction. }
          split; [exact Eb|]. split; [|reflexivity]. destruct found as [|x xs] eqn:E; [reflexivity|]. exfalso.
          assert (Q : In x found) by (rewrite E; left; reflexivity). pose proof Q as Q'. apply simple_shape in Q'. destruct Q' as [[[a b] [-> _]]|[[a b] [-> _]]]; cbn [fst snd] in Q.
          + assert (Z : In (WithLabel a b) (body_lines found missing)) by (apply body_cases; auto). destruct (proj1 (shown_labels a b) (or_introl Z)) as [Z1 [Z2 Z3]]. destruct (H a Z1) as [_ H2]. exact (H2 b (or_introl Z2) Z3).
          + assert (Z : In (WithTld a b) (body_lines found missing)) by (apply body_cases; auto). destruct (proj1 (shown_tlds a b) Z) as [Z1 [Z2 Z3]]. destruct (H a Z1) as [_ H2]. exact (H2 b (or_intror Z2) Z3).
      Qed.
      Lemma missing_given : forall l, In l missing <-> given decode lines l /\ not_in_lgr index l.
      Proof.
        intro l. destruct (simple_output order labels tlds t) as [pl pt] eqn:ES. destruct (basic_collisions index listing order Hor labels tlds pl pt missing (set_NoDup lines) (set_NoDup f) Hob B) as [X _].
        rewrite X. unfold labels, readings. rewrite set_given. reflexivity.
      Qed.
      (** What is picked from the whole report. *)
      Lemma picked : forall (A : Type) (g : bline -> list A), (forall x, In x found -> g x = []) -> g CollisionsTitle = [] -> g NoCollisionHere = [] -> g ErrorsTitle = [] ->
        flat_map g (body_lines found missing) =
          flat_map g (map (fun x => TldError (rd_label x) (rd_error x)) (filter (fun x => negb (rd_valid x)) tld_readings)) ++ flat_map g (map IsATld both) ++
          flat_map g (map (fun x => LabelError (rd_label x) (rd_error x)) (filter (fun x => negb (rd_valid x)) readings)) ++ flat_map g (map LabelMissing (isort cps_leb missing)).
      Proof.
        intros A g G0 G1 G2 G3. unfold body_lines. fold readings tld_readings labels tlds both. rewrite !flat_map_app. cbn [flat_map]. rewrite G1. cbn [app]. rewrite (pick_none _ g found G0). cbn [app].
        replace (flat_map g (match map IsATld both ++ found with [] => [NoCollisionHere] | _ => [] end)) with (@nil A); [|destruct (map IsATld both ++ found); cbn; [rewrite G2|]; reflexivity].
        rewrite <- app_assoc. f_equal. f_equal. cbn [app]. rewrite <- flat_map_app. destruct (_ ++ map LabelMissing _); [reflexivity|]. cbn [flat_map]. rewrite G3. reflexivity.
      Qed.
      Lemma picked_tlds : tlds_shown (body_lines found missing) = both.
      Proof.
        unfold tlds_shown. rewrite picked by (first [intros x Hx; apply found_kind in Hx; destruct x; try reflexivity; discriminate|reflexivity]).
        rewrite (pick_none _ _ (map (fun x => TldError _ _) _)) by (intros x Hx; apply in_map_iff in Hx; destruct Hx as [y [<- _]]; reflexivity).
        rewrite (pick_all _ _ _ IsATld (fun x => x)) by reflexivity.
        rewrite (pick_none _ _ (map (fun x => LabelError _ _) _)) by (intros x Hx; apply in_map_iff in Hx; destruct Hx as [y [<- _]]; reflexivity).
        rewrite (pick_none _ _ (map LabelMissing _)) by (intros x Hx; apply in_map_iff in Hx; destruct Hx as [y [<- _]]; reflexivity).
        cbn [app]. rewrite map_id, !app_nil_r. reflexivity.
      Qed.
      Lemma picked_missing : missing_shown (body_lines found missing) = isort cps_leb missing.
      Proof.
        unfold missing_shown. rewrite picked by (first [intros x Hx; apply found_kind in Hx; destruct x; try reflexivity; discriminate|reflexivity]).
        rewrite (pick_none _ _ (map (fun x => TldError _ _) _)) by (intros x Hx; apply in_map_iff in Hx; destruct Hx as [y [<- _]]; reflexivity).
        rewrite (pick_none _ _ (map IsATld _)) by (intros x Hx; apply in_map_iff in Hx; destruct Hx as [y [<- _]]; reflexivity).
        rewrite (pick_none _ _ (map (fun x => LabelError _ _) _)) by (intros x Hx; apply in_map_iff in Hx; destruct Hx as [y [<- _]]; reflexivity).
        rewrite (pick_all _ _ _ LabelMissing (fun x => x)) by reflexivity. cbn [app]. apply map_id.
      Qed.
      Lemma picked_errors : errors_shown (body_lines found missing) = refused_in decode lines.
      Proof.
        unfold errors_shown. rewrite picked by (first [intros x Hx; apply found_kind in Hx; destruct x; try reflexivity; discriminate|reflexivity]).
        rewrite (pick_none _ _ (map (fun x => TldError _ _) _)) by (intros x Hx; apply in_map_iff in Hx; destruct Hx as [y [<- _]]; reflexivity).
        rewrite (pick_none _ _ (map IsATld _)) by (intros x Hx; apply in_map_iff in Hx; destruct Hx as [y [<- _]]; reflexivity).
        rewrite (pick_none _ _ (map LabelMissing _)) by (intros x Hx; apply in_map_iff in Hx; destruct Hx as [y [<- _]]; reflexivity).
        rewrite (pick_all _ _ _ _ (fun x => (rd_label x, rd_error x))) by reflexivity. cbn [app]. apply app_nil_r.
      Qed.
      Lemma picked_tld_errors : tld_errors_shown (body_lines found missing) = refused_in decode f.
      Proof.
        unfold tld_errors_shown. rewrite picked by (first [intros x Hx; apply found_kind in Hx; destruct x; try reflexivity; discriminate|reflexivity]).
        rewrite (pick_all _ _ _ (fun x => TldError _ _) (fun x => (rd_label x, rd_error x))) by reflexivity.
        rewrite (pick_none _ _ (map IsATld _)) by (intros x Hx; apply in_map_iff in Hx; destruct Hx as [y [<- _]]; reflexivity).
        rewrite (pick_none _ _ (map (fun x => LabelError _ _) _)) by (intros x Hx; apply in_map_iff in Hx; destruct Hx as [y [<- _]]; reflexivity).
        rewrite (pick_none _ _ (map LabelMissing _)) by (intros x Hx; apply in_map_iff in Hx; destruct Hx as [y [<- _]]; reflexivity).
        apply app_nil_r.
      Qed.
      Lemma picked_notes : notes_shown (body_lines found missing) = [].
      Proof.
        apply pick_none. intros x Hx. apply body_cases in Hx. destruct Hx as [[y [_ [_ ->]]]|[->|[[l [_ ->]]|[X|[[_ [_ ->]]|[[-> _]|[[y [_ [_ ->]]]|[l [_ ->]]]]]]]]]; try reflexivity.
        apply found_kind in X. destruct x; try reflexivity. discriminate.
      Qed.
    End Done.
  End Body.
End Report.
