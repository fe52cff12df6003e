(** The short collision report, as a whole. *)
From Coq Require Import Permutation Sorted.
From Verif Require Import Base BaseFacts CharModel ActionModel LabelModel RepSpec AnnotateModel CollisionModel CollisionSpec CollisionFinal CollideModel CollideSpec CollideFinal CollideReport BasicRepModel BasicRepSpec BasicRepProofs.
Open Scope list_scope.

Lemma sections_app : forall a b, in_sections a -> in_sections b -> (forall x y, In x a -> In y b -> (section_of x <= section_of y)%nat) -> in_sections (a ++ b).
Proof.
  intros a b Ha Hb H. induction Ha as [|x a Sa IH F]; [exact Hb|]. cbn [app]. constructor.
  - apply IH. intros y z Hy Hz. apply H; [right; exact Hy|exact Hz].
  - apply Forall_app. split; [exact F|]. apply Forall_forall. intros y Hy. apply H; [left; reflexivity|exact Hy].
Qed.
Lemma sections_same : forall n l, (forall x, In x l -> section_of x = n) -> in_sections l.
Proof.
  intros n l H. induction l as [|x l IH]; [constructor|]. constructor; [apply IH; intros y Hy; apply H; right; exact Hy|].
  apply Forall_forall. intros y Hy. rewrite (H x), (H y); [lia|right; exact Hy|left; reflexivity].
Qed.
Lemma sections_map : forall (A : Type) (g : A -> bline) n l, (forall x, section_of (g x) = n) -> in_sections (map g l) /\ forall x, In x (map g l) -> section_of x = n.
Proof. intros A g n l H. assert (Q : forall x, In x (map g l) -> section_of x = n) by (intros x Hx; apply in_map_iff in Hx; destruct Hx as [y [<- _]]; apply H). split; [apply (sections_same n); exact Q|exact Q]. Qed.
Lemma sections_one : forall x, in_sections [x].
Proof. intro x. constructor; constructor. Qed.

Section Report.
  Variable decode : cps -> res cps.
  Variable rm : rule_oracle.
  Variable r : repertoire.
  Variable acts : list action.
  Variable index : cps -> res cps.
  Variable listing : cps -> list cps -> list (cps * option string) * res unit.
  Variable order : list cps -> list cps.
  Let report := basic_report decode rm r acts index listing order.

  Lemma start_sections : forall tr both, in_sections (map (fun x => TldError (rd_label x) (rd_error x)) tr ++ CollisionsTitle :: map IsATld both) /\
    forall x, In x (map (fun x => TldError (rd_label x) (rd_error x)) tr ++ CollisionsTitle :: map IsATld both) -> (3 <= section_of x <= 5)%nat.
  Proof.
    intros tr both. destruct (sections_map reading (fun x => TldError (rd_label x) (rd_error x)) 3 tr (fun _ => eq_refl)) as [A1 A2]. destruct (sections_map cps IsATld 5 both (fun _ => eq_refl)) as [B1 B2].
    change (CollisionsTitle :: map IsATld both) with ([CollisionsTitle] ++ map IsATld both). split.
    - apply sections_app; [exact A1| |].
      + apply sections_app; [apply sections_one|exact B1|]. intros x y [<-|[]] Hy. rewrite (B2 y Hy). cbn. lia.
      + intros x y Hx Hy. rewrite (A2 x Hx). apply in_app_iff in Hy. destruct Hy as [[<-|[]]|Hy]; [cbn; lia|rewrite (B2 y Hy); lia].
    - intros x Hx. apply in_app_iff in Hx. destruct Hx as [Hx|Hx]; [rewrite (A2 x Hx); lia|]. apply in_app_iff in Hx. destruct Hx as [[<-|[]]|Hx]; [cbn; lia|rewrite (B2 x Hx); lia].
  Qed.
  Lemma body_sections : forall rd tr out o, basic_body index listing order rd tr = (out, o) -> in_sections out /\ forall x, In x out -> (3 <= section_of x)%nat.
  Proof.
    intros rd tr out o H. unfold basic_body in H. cbv zeta in H. set (labels := order (valid_labels rd)) in *. set (tlds := order (valid_labels tr)) in *.
    set (both := isort cps_leb (filter (fun l => memb cps_eqb l tlds) labels)) in *. destruct (start_sections (filter (fun x => negb (rd_valid x)) tr) both) as [S1 S2].
    destruct (generate_indexes index listing labels tlds false true []) as [[t missing]|e]; [|injection H as <- _; split; [exact S1|intros x Hx; apply S2; exact Hx]].
    injection H as <- _. set (start := map _ _ ++ _ :: _) in *. set (found := simple_lines order labels tlds t).
    assert (F : forall x, In x found -> section_of x = 6%nat) by (intros x Hx; apply simple_shape in Hx; destruct Hx as [[p [-> _]]|[p [-> _]]]; reflexivity).
    set (mid := match map IsATld both ++ found with [] => [NoCollisionHere] | _ => [] end).
    assert (M : forall x, In x mid -> section_of x = 7%nat) by (unfold mid; destruct (map IsATld both ++ found); intros x Hx; [destruct Hx as [<-|[]]; reflexivity|destruct Hx]).
    destruct (sections_map reading (fun x => LabelError (rd_label x) (rd_error x)) 9 (filter (fun x => negb (rd_valid x)) rd) (fun _ => eq_refl)) as [A1 A2].
    destruct (sections_map cps LabelMissing 10 (isort cps_leb missing) (fun _ => eq_refl)) as [B1 B2].
    set (last := match _ ++ map LabelMissing _ with [] => [] | l => ErrorsTitle :: l end).
    assert (L : in_sections last /\ forall x, In x last -> (8 <= section_of x)%nat).
    { unfold last. set (e1 := map (fun x => LabelError (rd_label x) (rd_error x)) (filter (fun x => negb (rd_valid x)) rd)) in *. set (e2 := map LabelMissing (isort cps_leb missing)) in *.
      assert (Q : in_sections (e1 ++ e2)) by (apply sections_app; [exact A1|exact B1|]; intros x y Hx Hy; rewrite (A2 x Hx), (B2 y Hy); lia).
      assert (Q2 : forall x, In x (e1 ++ e2) -> (8 <= section_of x)%nat) by (intros x Hx; apply in_app_iff in Hx; destruct Hx as [Hx|Hx]; [rewrite (A2 x Hx)|rewrite (B2 x Hx)]; lia).
      destruct (e1 ++ e2) as [|z zs]; [split; [constructor|intros x []]|]. split.
      - constructor; [exact Q|]. apply Forall_forall. intros y Hy. apply Q2. exact Hy.
      - intros x [<-|Hx]; [cbn; lia|apply Q2; exact Hx]. }
    destruct L as [L1 L2]. change (in_sections (start ++ found ++ mid ++ last) /\ forall x, In x (start ++ found ++ mid ++ last) -> (3 <= section_of x)%nat). split.
    - apply sections_app; [exact S1| |].
      + apply sections_app; [apply (sections_same 6); exact F| |].
        * apply sections_app; [apply (sections_same 7); exact M|exact L1|]. intros x y Hx Hy. rewrite (M x Hx). specialize (L2 y Hy). lia.
        * intros x y Hx Hy. rewrite (F x Hx). apply in_app_iff in Hy. destruct Hy as [Hy|Hy]; [rewrite (M y Hy)|specialize (L2 y Hy)]; lia.
      + intros x y Hx Hy. destruct (S2 x Hx) as [_ X]. apply in_app_iff in Hy. destruct Hy as [Hy|Hy]; [rewrite (F y Hy); lia|].
        apply in_app_iff in Hy. destruct Hy as [Hy|Hy]; [rewrite (M y Hy)|specialize (L2 y Hy)]; lia.
    - intros x Hx. apply in_app_iff in Hx. destruct Hx as [Hx|Hx]; [apply S2; exact Hx|]. apply in_app_iff in Hx. destruct Hx as [Hx|Hx]; [rewrite (F x Hx); lia|].
      apply in_app_iff in Hx. destruct Hx as [Hx|Hx]; [rewrite (M x Hx)|specialize (L2 x Hx)]; lia.
  Qed.
  Theorem sections_kept : forall lines tld_lines w out o, report lines tld_lines w = (out, o) -> in_sections out.
  Proof.
    intros lines tld_lines w out o H. unfold report, basic_report in H. cbv zeta in H. set (rest := match tld_lines with None => _ | Some f => _ end) in H.
    assert (R : in_sections (fst rest) /\ forall x, In x (fst rest) -> (3 <= section_of x)%nat).
    { unfold rest. destruct tld_lines as [f|]; [|split; [constructor|intros x []]]. destruct (basic_body _ _ _ _ _) as [out' o'] eqn:E. apply (body_sections _ _ _ _ E). }
    destruct R as [R1 R2]. destruct w; [|rewrite H in R1; exact R1]. destruct (annotate decode rm r acts lines) as [ns [[]|e]] eqn:E.
    - injection H as <- _. destruct (sections_map note Annotation 1 ns (fun _ => eq_refl)) as [A1 A2].
      change (in_sections ([ValidityTitle] ++ map Annotation ns ++ [Gap] ++ fst rest)). apply sections_app; [apply sections_one| |].
      + apply sections_app; [exact A1| |].
        * apply sections_app; [apply sections_one|exact R1|]. intros x y [<-|[]] Hy. specialize (R2 y Hy). cbn. lia.
        * intros x y Hx Hy. rewrite (A2 x Hx). apply in_app_iff in Hy. destruct Hy as [[<-|[]]|Hy]; [cbn; lia|specialize (R2 y Hy); lia].
      + intros x y [<-|[]] _. cbn. lia.
    - injection H as <- _. destruct (sections_map note Annotation 1 ns (fun _ => eq_refl)) as [A1 A2].
      change (in_sections ([ValidityTitle] ++ map Annotation ns)). apply sections_app; [apply sections_one|exact A1|]. intros x y [<-|[]] _. cbn. lia.
  Qed.

  (** The report without the annotations. *)
  Lemma peeled : forall lines f w out, report lines (Some f) w = (out, Ok tt) ->
    exists pre body, out = pre ++ body /\ basic_body index listing order (fst (read_labels decode false false lines)) (fst (read_labels decode false false f)) = (body, Ok tt) /\
      (w = false /\ pre = [] \/ w = true /\ exists ns, annotate decode rm r acts lines = (ns, Ok tt) /\ pre = ValidityTitle :: map Annotation ns ++ [Gap]).
  Proof.
    intros lines f w out H. unfold report, basic_report in H. cbv zeta in H. destruct (basic_body _ _ _ _ _) as [body o] eqn:E. cbn [fst snd] in H. destruct w.
    - destruct (annotate decode rm r acts lines) as [ns [[]|e]] eqn:A; [|discriminate]. injection H as <- ->. exists (ValidityTitle :: map Annotation ns ++ [Gap]), body.
      split; [cbn [app]; rewrite <- app_assoc; reflexivity|]. split; [reflexivity|]. right. split; [reflexivity|]. exists ns. auto.
    - injection H as <- ->. exists [], body. auto.
  Qed.
  Hypothesis Hor : reorders order.
  Hypothesis Hob : obedient listing.
  Lemma pre_kind : forall ns x, In x (ValidityTitle :: map Annotation ns ++ [Gap]) -> (section_of x <= 2)%nat.
  Proof. intros ns x [<-|Hx]; [cbn; lia|]. apply in_app_iff in Hx. destruct Hx as [Hx|[<-|[]]]; [apply in_map_iff in Hx; destruct Hx as [n [<- _]]; cbn; lia|cbn; lia]. Qed.
  Lemma reported : forall lines f w out, report lines (Some f) w = (out, Ok tt) -> exists pre t missing,
    basic_collision index listing order (order (valid_labels (fst (read_labels decode false false lines)))) (order (valid_labels (fst (read_labels decode false false f)))) =
      Ok (simple_output order (order (valid_labels (fst (read_labels decode false false lines)))) (order (valid_labels (fst (read_labels decode false false f)))) t, missing) /\
    NoDup missing /\ out = pre ++ body_lines decode order lines f (simple_lines order (order (valid_labels (fst (read_labels decode false false lines)))) (order (valid_labels (fst (read_labels decode false false f)))) t) missing /\
    (forall x, In x pre -> (section_of x <= 2)%nat) /\ notes_shown pre = (if w then fst (annotate decode rm r acts lines) else []) /\ (w = true -> In ValidityTitle pre).
  Proof.
    intros lines f w out H. destruct (peeled _ _ _ _ H) as [pre [body [-> [E P]]]]. destruct (body_ok decode index listing order Hor Hob lines f body E) as [t [missing [B [N ->]]]].
    exists pre, t, missing. split; [exact B|]. split; [exact N|]. split; [reflexivity|].
    destruct P as [[-> ->]|[-> [ns [A ->]]]].
    - split; [intros x []|]. split; [reflexivity|discriminate].
    - split; [apply pre_kind|]. rewrite A. cbn [fst]. split; [|intros _; left; reflexivity]. unfold notes_shown. cbn [flat_map app]. rewrite flat_map_app. cbn [flat_map]. rewrite app_nil_r.
      rewrite (pick_all _ _ _ Annotation (fun n => n)) by reflexivity. apply map_id.
  Qed.
  Lemma skip_pre : forall pre body x, (forall y, In y pre -> (section_of y <= 2)%nat) -> (2 < section_of x)%nat -> (In x (pre ++ body) <-> In x body).
  Proof. intros pre body x P Hx. rewrite in_app_iff. split; [|tauto]. intros [H|H]; [apply P in H; lia|exact H]. Qed.
  Lemma skip_pick : forall (A : Type) (g : bline -> list A) pre body, (forall y, In y pre -> (section_of y <= 2)%nat) -> (forall x, (section_of x <= 2)%nat -> g x = []) -> flat_map g (pre ++ body) = flat_map g body.
  Proof. intros A g pre body P G. rewrite flat_map_app, (pick_none _ g pre); [reflexivity|]. intros x Hx. apply G, P, Hx. Qed.

  Theorem collisions_shown : forall lines f w out, report lines (Some f) w = (out, Ok tt) ->
    ascending (tlds_shown out) /\ (forall l, In l (tlds_shown out) <-> given decode lines l /\ given decode f l) /\
    (forall a b, In (WithLabel a b) out \/ In (WithLabel b a) out <-> given decode lines a /\ given decode lines b /\ collide index a b) /\
    (forall a b, In (WithTld a b) out <-> given decode lines a /\ given decode f b /\ collide index a b) /\
    (In NoCollisionHere out <-> forall a, given decode lines a -> ~ given decode f a /\ forall b, given decode lines b \/ given decode f b -> ~ collide index a b).
  Proof.
    intros lines f w out H. destruct (reported _ _ _ _ H) as [pre [t [missing [B [N [-> [P [_ _]]]]]]]].
    set (body := body_lines _ _ _ _ _ _).
    assert (T : tlds_shown (pre ++ body) = isort cps_leb (filter (fun l => memb cps_eqb l (order (valid_labels (fst (read_labels decode false false f))))) (order (valid_labels (fst (read_labels decode false false lines)))))).
    { unfold tlds_shown. rewrite skip_pick; [apply picked_tlds|exact P|]. intros x Hx. destruct x; try reflexivity. cbn in Hx. lia. }
    rewrite T. split; [apply (both_ascending decode order Hor lines f)|]. split; [apply (both_given decode index order Hor lines f)|].
    split; [intros a b; rewrite !skip_pre by (first [exact P|cbn; lia]); apply (shown_labels decode index listing order Hor Hob); assumption|].
    split; [intros a b; rewrite !skip_pre by (first [exact P|cbn; lia]); apply (shown_tlds decode index listing order Hor Hob); assumption|].
    rewrite !skip_pre by (first [exact P|cbn; lia]). apply (shown_none decode index listing order Hor Hob); assumption.
  Qed.
  Theorem errors_listed : forall lines f w out, report lines (Some f) w = (out, Ok tt) ->
    errors_shown out = refused_in decode lines /\ tld_errors_shown out = refused_in decode f /\
    ascending (missing_shown out) /\ (forall l, In l (missing_shown out) <-> given decode lines l /\ not_in_lgr index l) /\
    (In ErrorsTitle out <-> errors_shown out <> [] \/ missing_shown out <> []) /\
    In CollisionsTitle out /\ notes_shown out = (if w then fst (annotate decode rm r acts lines) else []) /\ (w = true <-> In ValidityTitle out).
  Proof.
    intros lines f w out H. destruct (reported _ _ _ _ H) as [pre [t [missing [B [N [-> [P [Q V]]]]]]]]. set (body := body_lines _ _ _ _ _ _).
    assert (E1 : errors_shown (pre ++ body) = refused_in decode lines).
    { unfold errors_shown. rewrite skip_pick; [apply picked_errors|exact P|]. intros x Hx. destruct x; try reflexivity. cbn in Hx. lia. }
    assert (E2 : tld_errors_shown (pre ++ body) = refused_in decode f).
    { unfold tld_errors_shown. rewrite skip_pick; [apply picked_tld_errors|exact P|]. intros x Hx. destruct x; try reflexivity. cbn in Hx. lia. }
    assert (E3 : missing_shown (pre ++ body) = isort cps_leb missing).
    { unfold missing_shown. rewrite skip_pick; [apply picked_missing|exact P|]. intros x Hx. destruct x; try reflexivity. cbn in Hx. lia. }
    split; [exact E1|]. split; [exact E2|]. rewrite E3. split; [apply isort_ascending; exact N|].
    split; [intro l; rewrite isort_in; apply (missing_given decode index listing order Hor Hob lines f t missing B)|].
    split; [|split; [|split]].
    - rewrite E1, skip_pre by (first [exact P|cbn; lia]). unfold body. rewrite (body_cases decode index listing order) by eassumption. split.
      + intros [[y [_ [_ X]]]|[X|[[l [_ X]]|[X|[[_ [_ X]]|[[_ [X|[y [Y1 Y2]]]]|[[y [_ [_ X]]]|[l [_ X]]]]]]]]]; try discriminate.
        * apply simple_shape in X. destruct X as [[p [X _]]|[p [X _]]]; discriminate.
        * right. intro Z. apply X. destruct missing as [|m ms]; [reflexivity|]. assert (W : In m (isort cps_leb (m :: ms))) by (apply isort_in; left; reflexivity). rewrite Z in W. destruct W.
        * left. unfold refused_in. intro Z. apply map_eq_nil in Z. assert (W : In y (filter (fun r => negb (rd_valid r)) (fst (read_labels decode false false lines)))) by (apply filter_In; rewrite Y2; auto). rewrite Z in W. destruct W.
      + intros X. do 5 right. left. split; [reflexivity|]. destruct X as [X|X].
        * right. unfold refused_in in X. destruct (filter (fun r => negb (rd_valid r)) (fst (read_labels decode false false lines))) as [|y ys] eqn:EY; [destruct X; reflexivity|].
          exists y. assert (W : In y (y :: ys)) by (left; reflexivity). rewrite <- EY in W. apply filter_In in W. rewrite negb_true_iff in W. exact W.
        * left. intro Z. rewrite Z in X. apply X. reflexivity.
    - apply in_app_iff. right. unfold body. apply (body_cases decode index listing order); [assumption..|]. right. left. reflexivity.
    - unfold notes_shown. rewrite flat_map_app. fold (notes_shown pre) (notes_shown body). rewrite Q. unfold body. rewrite (picked_notes decode index listing order) by assumption. apply app_nil_r.
    - split; [intro W; apply in_app_iff; left; apply V; exact W|]. intro W. destruct w; [reflexivity|]. exfalso. destruct (peeled _ _ _ _ H) as [pre' [body' [E [E' [[_ ->]|[X _]]]]]]; [|discriminate].
      fold body in E. rewrite E in W. cbn [app] in W. apply (body_sections _ _ _ _ E') in W. cbn in W. lia.
  Qed.
  Theorem report_completes : forall lines f w, (w = true -> snd (annotate decode rm r acts lines) = Ok tt) ->
    (forall l, given decode lines l \/ given decode f l -> settled index l) -> exists out, report lines (Some f) w = (out, Ok tt).
  Proof.
    intros lines f w A S1. assert (Q : exists body, basic_body index listing order (fst (read_labels decode false false lines)) (fst (read_labels decode false false f)) = (body, Ok tt)).
    { unfold basic_body. cbv zeta. destruct (generate_total index listing (order (valid_labels (fst (read_labels decode false false lines)))) (order (valid_labels (fst (read_labels decode false false f))))
        (set_NoDup decode order Hor lines) (set_NoDup decode order Hor f) false true) as [t [E _]]; [|discriminate|rewrite E; eexists; reflexivity].
      intros l [Hl|Hl]; apply (set_given decode index order Hor) in Hl; apply S1; auto. }
    destruct Q as [body E]. unfold report, basic_report. cbv zeta. rewrite E. cbn [fst snd]. destruct w; [|eauto]. specialize (A eq_refl). destruct (annotate decode rm r acts lines) as [ns o]. cbn [snd] in A. subst o. eauto.
  Qed.
  Theorem report_fails : forall lines w, exists e, snd (report lines None w) = Raise e.
  Proof. intros lines w. unfold report, basic_report. cbv zeta. destruct w; [destruct (annotate decode rm r acts lines) as [ns [[]|e]]|]; cbn [snd]; eexists; reflexivity. Qed.
End Report.
