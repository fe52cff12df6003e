From Coq Require Import Permutation Sorted.
From Verif Require Import Base BaseFacts AnnotateModel CollisionModel CollisionSpec CollisionProofs CollisionFinal CollideModel CollideSpec CollideProofs CollideFinal.
Open Scope string_scope.
Open Scope list_scope.
Open Scope nat_scope.

(** ** What depends only on the labels given *)
Section Same.
  Variable index : cps -> res cps.
  Variable listing : cps -> list cps -> list (cps * option string) * res unit.
  Variables l1 l2 t1 t2 : list cps.
  Hypothesis Hl : forall x, In x l1 <-> In x l2.
  Hypothesis Ht : forall x, In x t1 <-> In x t2.
  Lemma subject_same : forall x, subject l1 t1 x <-> subject l2 t2 x.
  Proof. intro x. unfold subject. rewrite Hl, Ht. reflexivity. Qed.
  Lemma has_same : forall i x, has_index index l1 t1 i x <-> has_index index l2 t2 i x.
  Proof. intros i x. unfold has_index. rewrite subject_same. reflexivity. Qed.
  Lemma belongs_same : forall k i x, belongs index listing l1 t1 k i x <-> belongs index listing l2 t2 k i x.
  Proof.
    intros k i x. unfold belongs. rewrite has_same. split; (intros [H|[Hk [p [d [H1 H2]]]]]; [left; exact H|right; split; [exact Hk|]; exists p, d; split; [apply has_same; exact H1|exact H2]]).
  Qed.
  Lemma shown_same : forall k i, shown index l1 t1 k i <-> shown index l2 t2 k i.
  Proof.
    intros k i. unfold shown. split; (intros [a [H1 H2]]; exists a; split; [apply has_same; exact H1|]; destruct H2 as [H2|[b [H2 H3]]]; [left; exact H2|right; exists b; split; [exact H2|apply has_same; exact H3]]).
  Qed.
  Lemma kind_same : forall i x c, kind_below index l1 t1 i x c <-> kind_below index l2 t2 i x c.
  Proof. intros i x c. unfold kind_below, kind_of_subject. rewrite has_same, Hl, Ht. reflexivity. Qed.
End Same.

Lemma flat_none : forall {A B} (f : A -> list B) l, (forall x, In x l -> f x = []) -> flat_map f l = [].
Proof. intros A B f l. induction l as [|x l IH]; intro H; [reflexivity|]. cbn [flat_map]. rewrite (H x (or_introl eq_refl)), IH; [reflexivity|]. intros y Hy. apply H. right. exact Hy. Qed.
Lemma flat_one : forall {A B} (f : A -> line) (g : line -> list B) (h : A -> B) l, (forall x, g (f x) = [h x]) -> flat_map g (map f l) = map h l.
Proof. intros A B f g h l H. induction l as [|x l IH]; [reflexivity|]. cbn [map flat_map]. rewrite H, IH. reflexivity. Qed.
Lemma flat_other : forall {A B} (f : A -> line) (g : line -> list B) l, (forall x, g (f x) = []) -> flat_map g (map f l) = [].
Proof. intros A B f g l H. apply flat_none. intros x Hx. apply in_map_iff in Hx. destruct Hx as [y [<- _]]. apply H. Qed.
Lemma perm_kept : forall {A} (f : A -> bool) l m, Permutation l m -> length (filter f l) = length (filter f m).
Proof. intros A f l m H. induction H; cbn [filter]; [reflexivity|destruct (f x); cbn [length]; congruence|destruct (f x), (f y); reflexivity|congruence]. Qed.
Lemma isort_ascending : forall l, NoDup l -> ascending (isort cps_leb l).
Proof.
  intros l H. split.
  - apply (isort_sorted cps_leb cps_leb_total cps_leb_trans).
  - apply (Permutation_NoDup (isort_perm cps_leb l)). exact H.
Qed.

Section Report.
  Variable lower : string -> string.
  Variable decode : cps -> res cps.
  Variable index : cps -> res cps.
  Variable listing : cps -> list cps -> list (cps * option string) * res unit.
  Variable order : list cps -> list cps.
  Variables (lines : list cps) (tld_lines : option (list cps)).
  Hypothesis Hor : reorders order.

  Let readings := fst (read_labels decode false false lines).
  Let labels := valid_labels readings.
  Let tld_readings := match tld_lines with Some l => fst (read_labels decode false false l) | None => [] end.
  Let tlds := order (valid_labels tld_readings).
  Let run := collision lower decode index listing order lines tld_lines.

  Lemma labels_given : forall l, In l labels <-> given decode lines l.
  Proof.
    intro l. unfold labels, valid_labels, given. rewrite (dedup_In _ _ cps_eqb_eq), in_map_iff. fold readings. split.
    - intros [r [E H]]. apply filter_In in H. exists r. tauto.
    - intros [r [H1 [H2 H3]]]. exists r. rewrite filter_In. auto.
  Qed.
  Lemma tlds_given : forall l, In l tlds <-> given_tld decode tld_lines l.
  Proof.
    intro l. unfold tlds. rewrite <- (Permutation_in' eq_refl (Hor _)). unfold valid_labels. rewrite (dedup_In _ _ cps_eqb_eq), in_map_iff. unfold given_tld, tld_readings. destruct tld_lines as [f|].
    - unfold given. split.
      + intros [r [E H]]. apply filter_In in H. exists r. tauto.
      + intros [r [H1 [H2 H3]]]. exists r. rewrite filter_In. auto.
    - split; [intros [r [_ []]]|intros []].
  Qed.
  Lemma labels_NoDup : NoDup labels.
  Proof. apply (dedup_NoDup _ _ cps_eqb_eq). Qed.
  Lemma tlds_NoDup : NoDup tlds.
  Proof. unfold tlds. eapply Permutation_NoDup; [apply Hor|]. apply (dedup_NoDup _ _ cps_eqb_eq). Qed.

  Definition start : list line := refused BadLabel readings ++ refused BadTld tld_readings
      ++ (match filter (fun l => memb cps_eqb l tlds) labels with [] => [] | _ => TldsHeader :: map IsTld (isort cps_leb (filter (fun l => memb cps_eqb l tlds) labels)) end).
  Definition left_out (missing : list cps) : list line := match missing with [] => [] | _ => MissingHeader :: map IsMissing (isort cps_leb missing) end.

  Lemma collision_ok : forall show quiet, snd (run show quiet) = Ok tt <->
    exists t missing, generate_indexes index listing labels tlds show quiet [] = Ok (t, missing) /\ (show = true -> snd (dump_lines lower t) = Ok tt).
  Proof.
    intros show quiet. unfold run, collision. fold readings tld_readings. fold labels. fold tlds. destruct (generate_indexes index listing labels tlds show quiet []) as [[t missing]|e].
    - rewrite continue_ok. destruct show; [rewrite continue_ok|]; cbn [snd]; split.
      + intros [_ [_ H]]. eauto.
      + intros [t' [m' [E H]]]. injection E as <- <-. auto.
      + intros _. exists t, missing. split; [reflexivity|discriminate].
      + auto.
    - cbn [snd]. split; [discriminate|intros [t [m [E _]]]; discriminate].
  Qed.
  Lemma collision_inv : forall show quiet out, run show quiet = (out, Ok tt) ->
    exists t missing tail, generate_indexes index listing labels tlds show quiet [] = Ok (t, missing) /\
      out = start ++ left_out missing ++ CollisionsHeader :: complete_output labels tlds t ++ tail /\
      (show = false /\ tail = [] \/ show = true /\ exists o, dump_lines lower t = (o, Ok tt) /\ tail = SummaryHeader :: o).
  Proof.
    intros show quiet out H. pose proof (proj1 (collision_ok show quiet) ltac:(rewrite H; reflexivity)) as [t [missing [E D]]]. exists t, missing.
    unfold run, collision in H. fold readings tld_readings in H. fold labels in H. fold tlds in H. rewrite E in H. destruct show.
    - specialize (D eq_refl). destruct (dump_lines lower t) as [o r] eqn:Ed. cbn [snd] in D. subst r. exists (SummaryHeader :: o). split; [exact E|]. split; [|right; eauto].
      apply (f_equal fst) in H. cbn [continue fst snd] in H. rewrite <- H. unfold start, left_out. rewrite <- !app_assoc. reflexivity.
    - exists []. split; [exact E|]. split; [|left; auto]. apply (f_equal fst) in H. cbn [continue fst snd] in H. rewrite <- H. unfold start, left_out. rewrite <- !app_assoc. reflexivity.
  Qed.
  Lemma start_always : forall show quiet out r, run show quiet = (out, r) -> exists rest, out = start ++ rest /\ (forall x, In x rest -> match x with BadLabel _ _ | BadTld _ _ | IsTld _ => False | _ => True end).
  Proof.
    intros show quiet out r H. unfold run, collision in H. fold readings tld_readings in H. fold labels in H. fold tlds in H. destruct (generate_indexes index listing labels tlds show quiet []) as [[t missing]|e].
    2:{ injection H as <- _. exists []. split; [rewrite app_nil_r; reflexivity|intros x []]. }
    apply (f_equal fst) in H. cbn [fst] in H. rewrite continue_fst in H by reflexivity. cbn [fst] in H.
    exists (left_out missing ++ CollisionsHeader :: complete_output labels tlds t ++ fst (if show then continue ([SummaryHeader], Ok tt) (dump_lines lower t) else ([], Ok tt))). split.
    { rewrite <- H. unfold start, left_out. rewrite <- !app_assoc. reflexivity. }
    intros x Hx. apply in_app_iff in Hx. destruct Hx as [Hx|[<-|Hx]]; [|exact I|].
    - unfold left_out in Hx. destruct missing as [|m missing]; [contradiction|]. destruct Hx as [<-|Hx]; [exact I|]. apply in_map_iff in Hx. destruct Hx as [y [<- _]]. exact I.
    - apply in_app_iff in Hx. destruct Hx as [Hx|Hx].
      + unfold complete_output in Hx. apply in_app_iff in Hx. destruct Hx as [Hx|Hx]; [|destruct (existsb _ t); [contradiction|destruct Hx as [<-|[]]; exact I]].
        destruct (body_only labels tlds t x Hx) as [[i ->]|K]; [exact I|]. destruct x; try contradiction. exact I.
      + destruct show; [|contradiction]. rewrite continue_fst in Hx by reflexivity. destruct Hx as [<-|Hx]; [exact I|]. cbn [fst app] in Hx.
        assert (Q : forall l, In x (fst (each (fun es => each (fun e => dump_label lower es (ce_cp e)) (filter (fun e => match ce_cat e with CPrimary => true | _ => false end) es)) l)) ->
                    match x with BadLabel _ _ | BadTld _ _ | IsTld _ => False | _ => True end).
        { assert (E : forall A (f : A -> list line * res unit) l, In x (fst (each f l)) -> exists y, In x (fst (f y))).
          { intros A f. induction l as [|y l IH]; intro K; [contradiction|]. cbn [each] in K. unfold continue in K. destruct (f y) as [a [u|e']] eqn:Ef; cbn [fst] in K.
            - apply in_app_iff in K. destruct K as [K|K]; [exists y; rewrite Ef; exact K|exact (IH K)].
            - exists y. rewrite Ef. exact K. }
          intros l K. apply E in K. destruct K as [es K]. apply E in K. destruct K as [e K]. unfold dump_label in K. rewrite continue_fst in K by reflexivity. destruct K as [<-|K]; [exact I|]. cbn [fst app] in K.
          assert (V : In x (fst (dump_variants es (ce_cp e))) -> match x with BadLabel _ _ | BadTld _ _ | IsTld _ => False | _ => True end).
          { unfold dump_variants. intro K'. apply E in K'. destruct K' as [e' K']. destruct (cps_eqb (ce_cp e') (ce_cp e)); [contradiction|]. destruct (dget cps_eqb (ce_cp e) (ce_disp e')); cbn [fst] in K'.
            - destruct K' as [<-|[<-|[]]]; exact I.
            - destruct K' as [<-|[]]; exact I. }
          unfold continue in K. destruct (dump_variants es (ce_cp e)) as [a [u|e']]; cbn [fst] in K, V; [|exact (V K)]. apply in_app_iff in K. destruct K as [K|K]; [exact (V K)|].
          unfold dump_counts in K. destruct (mapM_res _ es) as [ds|e']; cbn [fst] in K; [|destruct K as [<-|[]]; exact I]. destruct K as [<-|K]; [exact I|]. apply in_map_iff in K. destruct K as [y [<- _]]. exact I. }
        exact (Q _ Hx).
  Qed.

  (** What was read. *)
  Theorem reading_shown : forall show quiet out r, run show quiet = (out, r) ->
    refusals out = refused_in decode lines /\
    tld_refusals out = (match tld_lines with Some f => refused_in decode f | None => [] end) /\
    ascending (tld_labels out) /\ (forall l, In l (tld_labels out) <-> given decode lines l /\ given_tld decode tld_lines l).
  Proof.
    intros show quiet out r H. destruct (start_always _ _ _ _ H) as [rest [-> Hrest]]. set (both := filter (fun l => memb cps_eqb l tlds) labels).
    assert (B : forall l, In l both <-> given decode lines l /\ given_tld decode tld_lines l) by (intro l; unfold both; rewrite filter_In, (memb_In _ _ cps_eqb_eq), labels_given, tlds_given; reflexivity).
    assert (N : NoDup both) by (apply NoDup_filter; exact labels_NoDup).
    assert (R1 : refusals rest = []) by (apply flat_none; intros x Hx; specialize (Hrest x Hx); destruct x; try reflexivity; contradiction).
    assert (R2 : tld_refusals rest = []) by (apply flat_none; intros x Hx; specialize (Hrest x Hx); destruct x; try reflexivity; contradiction).
    assert (R3 : tld_labels rest = []) by (apply flat_none; intros x Hx; specialize (Hrest x Hx); destruct x; try reflexivity; contradiction).
    assert (T : tld_labels (start ++ rest) = isort cps_leb both).
    { unfold tld_labels. rewrite flat_map_app. fold (tld_labels rest). rewrite R3, app_nil_r. unfold start, refused. rewrite !flat_map_app, !flat_other by reflexivity. cbn [app]. fold both.
      destruct both as [|b both'] eqn:E; [reflexivity|]. cbn [flat_map]. rewrite (flat_one _ _ (fun x => x)) by reflexivity. rewrite map_id. reflexivity. }
    split; [|split; [|split]].
    - unfold refusals. rewrite flat_map_app. fold (refusals rest). rewrite R1, app_nil_r. unfold start, refused. rewrite !flat_map_app, (flat_other (fun x => BadTld _ _)) by reflexivity.
      rewrite (flat_one _ _ (fun x => (rd_label x, rd_error x))) by reflexivity. fold both. replace (flat_map _ (match both with [] => [] | _ => _ end)) with (@nil (cps * option exn)).
      + rewrite !app_nil_r. reflexivity.
      + destruct both; [reflexivity|]. cbn [flat_map]. rewrite flat_other by reflexivity. reflexivity.
    - unfold tld_refusals. rewrite flat_map_app. fold (tld_refusals rest). rewrite R2, app_nil_r. unfold start, refused. rewrite !flat_map_app, (flat_other (fun x => BadLabel _ _)) by reflexivity.
      rewrite (flat_one _ _ (fun x => (rd_label x, rd_error x))) by reflexivity. fold both. replace (flat_map _ (match both with [] => [] | _ => _ end)) with (@nil (cps * option exn)).
      + rewrite !app_nil_r. cbn [app]. unfold tld_readings, refused_in. case tld_lines; reflexivity.
      + destruct both; [reflexivity|]. cbn [flat_map]. rewrite flat_other by reflexivity. reflexivity.
    - rewrite T. apply isort_ascending. exact N.
    - intro l. rewrite T, isort_in. apply B.
  Qed.

  Hypothesis Hob : obedient listing.
  Variables gl gt : list cps.
  Hypothesis Hgl : forall l, In l gl <-> given decode lines l.
  Hypothesis Hgt : forall l, In l gt <-> given_tld decode tld_lines l.
  Lemma gl_same : forall l, In l labels <-> In l gl.
  Proof. intro l. rewrite labels_given, Hgl. reflexivity. Qed.
  Lemma gt_same : forall l, In l tlds <-> In l gt.
  Proof. intro l. rewrite tlds_given, Hgt. reflexivity. Qed.
  Notation has := (has_index index gl gt).
  Notation bel := (belongs index listing gl gt).

  Lemma table_given : forall show quiet t missing, generate_indexes index listing labels tlds show quiet [] = Ok (t, missing) ->
    (forall l, subject gl gt l -> settled index l) /\
    missing = absent index labels /\ NoDup (dkeys t) /\ (forall i, In i (dkeys t) <-> shown index gl gt show i) /\
    (forall i es, In (i, es) t -> NoDup (map ce_cp es) /\ (forall l, In l (map ce_cp es) <-> bel show i l) /\
       (forall l, kind_below index gl gt i l (category_in es l)) /\
       (show = true -> forall p, has i p -> snd (listing p []) = Ok tt /\ (shows_itself listing -> forall x, disp_in es x p = dget cps_eqb x (fst (listing p []))))).
  Proof.
    intros show quiet t missing H. pose proof labels_NoDup as NL. pose proof tlds_NoDup as NT. pose proof gl_same as SL. pose proof gt_same as ST.
    destruct (table_kept index listing labels tlds NL NT Hob show quiet t missing H) as [T1 [T2 [T3 [T4 T5]]]].
    split; [intros l Hl; apply T1; apply (subject_same _ _ _ _ SL ST); exact Hl|]. split; [exact T2|]. split; [exact T3|]. split; [intro i; rewrite T4; apply (shown_same _ _ _ _ _ SL ST)|].
    intros i es Hi. destruct (T5 i es Hi) as [U1 [U2 [U3 U4]]]. split; [exact U1|]. split; [intro l; rewrite U2; apply (belongs_same _ _ _ _ _ _ SL ST)|].
    split; [intro l; apply (kind_same _ _ _ _ _ SL ST); exact (U3 l)|]. intros Hs p Hp. apply (has_same _ _ _ _ _ SL ST) in Hp. destruct (U4 Hs p Hp) as [V1 V2]. split; [exact V1|].
    intros Hself x. rewrite V2. destruct (dget cps_eqb x (fst (listing p []))) as [d|] eqn:Ed; [reflexivity|]. destruct (cps_eq_dec x p) as [->|Ex].
    - exfalso. apply (dget_None _ cps_eqb_eq) in Ed. apply Ed. exact (Hself p [] V1).
    - destruct (in_dec cps_eq_dec x (map ce_cp (group (items index labels tlds) i))) as [Hv|Hv].
      + apply (group_cps index listing) in Hv. destruct (group_cat index listing labels tlds i x Hv) as [_ [_ G]]. apply G. congruence.
      + unfold disp_in. apply entry_for_none in Hv. rewrite Hv. reflexivity.
  Qed.

  Lemma start_plain : forall missing x, In x (start ++ left_out missing) -> match x with BadLabel _ _ | BadTld _ _ | TldsHeader | IsTld _ | MissingHeader | IsMissing _ => True | _ => False end.
  Proof.
    intros missing x H. apply in_app_iff in H. destruct H as [H|H].
    - unfold start, refused in H. rewrite !in_app_iff in H. destruct H as [H|[H|H]]; [apply in_map_iff in H; destruct H as [y [<- _]]; exact I|apply in_map_iff in H; destruct H as [y [<- _]]; exact I|].
      destruct (filter _ labels) as [|b l]; [contradiction|]. destruct H as [<-|H]; [exact I|]. apply in_map_iff in H. destruct H as [y [<- _]]. exact I.
    - unfold left_out in H. destruct missing as [|m l]; [contradiction|]. destruct H as [<-|H]; [exact I|]. apply in_map_iff in H. destruct H as [y [<- _]]. exact I.
  Qed.

  (** The labels left out, and the indexes shown. *)
  Theorem left_out_shown : forall show quiet out, run show quiet = (out, Ok tt) ->
    ascending (missing_labels out) /\ (forall l, In l (missing_labels out) <-> given decode lines l /\ not_in_lgr index l) /\
    NoDup (headers out) /\ (forall i, In i (headers out) <-> shown index gl gt show i).
  Proof.
    intros show quiet out H. destruct (collision_inv _ _ _ H) as [t [missing [tail [E [-> D]]]]]. destruct (table_given _ _ _ _ E) as [_ [-> [T3 [T4 _]]]].
    assert (Q : forall x, In x (CollisionsHeader :: complete_output labels tlds t ++ tail) -> match x with IsMissing _ => False | _ => True end).
    { intros x [<-|Hx]; [exact I|]. apply in_app_iff in Hx. destruct Hx as [Hx|Hx].
      - unfold complete_output in Hx. apply in_app_iff in Hx. destruct Hx as [Hx|Hx]; [|destruct (existsb _ t); [contradiction|destruct Hx as [<-|[]]; exact I]].
        destruct (body_only labels tlds t x Hx) as [[i ->]|K]; [exact I|]. destruct x; try contradiction. exact I.
      - destruct D as [[_ ->]|[_ [o [D ->]]]]; [contradiction|]. destruct Hx as [<-|Hx]; [exact I|]. pose proof (dump_only lower t o x D Hx). destruct x; try exact I. contradiction. }
    assert (M : missing_labels (start ++ left_out (absent index labels) ++ CollisionsHeader :: complete_output labels tlds t ++ tail) = isort cps_leb (absent index labels)).
    { unfold missing_labels. rewrite !flat_map_app. rewrite (flat_none _ start), (flat_none _ (CollisionsHeader :: _)), app_nil_r.
      - cbn [app]. unfold left_out. destruct (absent index labels) as [|m l]; [reflexivity|]. cbn [flat_map]. rewrite (flat_one _ _ (fun x => x)) by reflexivity. rewrite map_id. reflexivity.
      - intros x Hx. specialize (Q x Hx). destruct x; try reflexivity. contradiction.
      - intros x Hx. assert (P : In x (refused BadLabel readings ++ refused BadTld tld_readings ++ (match filter (fun l => memb cps_eqb l tlds) labels with [] => [] | _ => TldsHeader :: map IsTld (isort cps_leb (filter (fun l => memb cps_eqb l tlds) labels)) end))) by exact Hx.
        unfold refused in P. rewrite !in_app_iff in P. destruct P as [P|[P|P]]; [apply in_map_iff in P; destruct P as [y [<- _]]; reflexivity|apply in_map_iff in P; destruct P as [y [<- _]]; reflexivity|].
        destruct (filter _ labels) as [|b l]; [contradiction|]. destruct P as [<-|P]; [reflexivity|]. apply in_map_iff in P. destruct P as [y [<- _]]. reflexivity. }
    assert (K : headers (start ++ left_out (absent index labels) ++ CollisionsHeader :: complete_output labels tlds t ++ tail) = dkeys t).
    { unfold headers. rewrite app_assoc, flat_map_app. rewrite (flat_none _ (start ++ _)) by (intros x Hx; pose proof (start_plain _ x Hx); destruct x; try reflexivity; contradiction). cbn [app flat_map].
      rewrite flat_map_app. unfold complete_output. rewrite flat_map_app. fold (headers (flat_map (index_lines labels tlds) t)). rewrite body_headers.
      rewrite (flat_none _ (if existsb _ t then _ else _)) by (intros x Hx; destruct (existsb _ t); [contradiction|destruct Hx as [<-|[]]; reflexivity]). rewrite app_nil_r.
      rewrite (flat_none _ tail); [apply app_nil_r|]. intros x Hx. destruct D as [[_ ->]|[_ [o [D ->]]]]; [contradiction|]. destruct Hx as [<-|Hx]; [reflexivity|]. pose proof (dump_only lower t o x D Hx). destruct x; try reflexivity. contradiction. }
    rewrite M, K. split; [|split; [|split]].
    - apply isort_ascending. unfold absent. apply NoDup_filter. exact labels_NoDup.
    - intro l. rewrite isort_in, absent_In, labels_given. reflexivity.
    - exact T3.
    - exact T4.
  Qed.

  (** Every pair announced stands below an index its labels belong to. *)
  Theorem pairs_sound : forall show quiet out, run show quiet = (out, Ok tt) ->
    forall pre post f a ca b cb, out = pre ++ Pair f a ca b cb :: post ->
    exists i, last_index pre = Some i /\ a <> b /\ In a gl /\ (In b gl \/ In b gt) /\ bel show i a /\ bel show i b /\
      kind_below index gl gt i a ca /\ kind_below index gl gt i b cb /\ (f = true <-> ca = CTld \/ cb = CTld).
  Proof.
    intros show quiet out H pre post f a ca b cb Eo. destruct (collision_inv _ _ _ H) as [t [missing [tail [E [-> D]]]]]. destruct (table_given _ _ _ _ E) as [_ [_ [_ [_ T5]]]].
    rewrite app_assoc in Eo. apply split_left in Eo; [|intro Q; exact (start_plain _ _ Q)]. destruct Eo as [pre' [-> Eo]]. destruct pre' as [|y pre']; [discriminate|]. injection Eo as <- Eo.
    apply split_right in Eo.
    2:{ intro Q. destruct D as [[_ ->]|[_ [o [D ->]]]]; [contradiction|]. destruct Q as [Q|Q]; [discriminate|]. exact (dump_only lower t o _ D Q). }
    destruct Eo as [post' [Eo _]]. unfold complete_output in Eo. apply split_right in Eo; [|destruct (existsb _ t); [intros []|intros [Q|[]]; discriminate]]. destruct Eo as [post2 [Eo _]].
    destruct (body_pair labels tlds t _ _ _ _ _ _ _ Eo) as [i [es [ps [B1 [B2 [_ [_ [B3 [B4 [B5 B6]]]]]]]]]]. destruct (T5 i es B1) as [U1 [U2 [U3 _]]]. destruct (B6 U1) as [C1 [C2 [C3 [C4 C5]]]].
    exists i. split; [rewrite last_index_app; cbn [last_index]; rewrite B2; reflexivity|]. split; [exact C5|]. split; [apply gl_same; exact C1|]. split; [rewrite <- gl_same, <- gt_same; exact C4|].
    split; [apply U2; exact C2|]. split; [apply U2; exact C3|]. rewrite B3, B4. split; [apply U3|]. split; [apply U3|]. rewrite B5, B3, B4. rewrite Bool.orb_true_iff.
    destruct (category_in es a), (category_in es b); cbn; intuition discriminate.
  Qed.
  Lemma belongs_shown : forall show i a b, a <> b -> bel show i a -> bel show i b -> shown index gl gt show i.
  Proof.
    intros show i a b Hne [Ha|[Hk [p [d [Hp _]]]]] Hb.
    - exists a. split; [exact Ha|]. destruct Hb as [Hb|[Hk _]]; [right; exists b; split; [congruence|exact Hb]|left; exact Hk].
    - exists p. split; [exact Hp|left; exact Hk].
  Qed.
  (** Every two of them are announced, labels and TLDs in this order. *)
  Theorem pairs_complete : forall show quiet out, run show quiet = (out, Ok tt) ->
    forall i a b, a <> b -> bel show i a -> bel show i b -> In a gl ->
    (In b gl -> exists pre post f ca cb, last_index pre = Some i /\ (out = pre ++ Pair f a ca b cb :: post \/ out = pre ++ Pair f b ca a cb :: post)) /\
    (In b gt -> exists pre post f ca cb, last_index pre = Some i /\ out = pre ++ Pair f a ca b cb :: post).
  Proof.
    intros show quiet out H i a b Hne Ba Bb La. destruct (collision_inv _ _ _ H) as [t [missing [tail [E [-> D]]]]]. destruct (table_given _ _ _ _ E) as [_ [_ [_ [T4 T5]]]].
    pose proof (proj2 (T4 i) (belongs_shown _ _ _ _ Hne Ba Bb)) as Ki. unfold dkeys in Ki. apply in_map_iff in Ki. destruct Ki as [[j es] [Ej Hi]]. cbn [fst] in Ej. subst j.
    destruct (T5 i es Hi) as [U1 [U2 _]]. apply U2 in Ba, Bb. destruct (index_lines_pairs labels tlds (i, es)) as [ps [Ei [_ [P2 P3]]]]. cbn [fst snd] in *.
    assert (Ann : forall x y, In (x, y) ps -> exists pre post, last_index pre = Some i /\ start ++ left_out missing ++ CollisionsHeader :: complete_output labels tlds t ++ tail = pre ++ show_pair es (x, y) :: post).
    { intros x y Hxy. apply in_split in Hi. destruct Hi as [t1 [t2 Et]]. apply in_split in Hxy. destruct Hxy as [p1 [p2 Ep]].
      exists (start ++ left_out missing ++ CollisionsHeader :: flat_map (index_lines labels tlds) t1 ++ IndexHeader i :: map (show_pair es) p1). eexists. split.
      - rewrite !last_index_app. cbn [last_index]. rewrite last_index_app. cbn [last_index]. assert (Z : last_index (map (show_pair es) p1) = None) by (clear; induction p1 as [|z p1 IH]; [reflexivity|]; cbn [map last_index]; rewrite IH; reflexivity).
        rewrite Z. reflexivity.
      - unfold complete_output. rewrite Et at 1. rewrite flat_map_app. cbn [flat_map]. rewrite Ei, Ep, map_app. cbn [map]. repeat first [rewrite <- app_assoc | progress cbn [app]]. reflexivity. }
    split; intro Lb.
    - destruct (P2 U1 a b Hne) as [K|K]; [apply among_In; rewrite gl_same; auto|apply among_In; rewrite gl_same; auto| |];
        destruct (Ann _ _ K) as [pre [post [A1 A2]]]; exists pre, post; do 3 eexists; (split; [exact A1|]); [left|right]; exact A2.
    - destruct (Ann a b) as [pre [post [A1 A2]]]; [apply P3; [exact Hne|apply among_In; rewrite gl_same; auto|apply among_In; rewrite gt_same; auto]|].
      exists pre, post. do 3 eexists. split; [exact A1|exact A2].
  Qed.
  (** "No collisions" is reported when no two labels belong to one index. *)
  Theorem none_reported : forall show quiet out, run show quiet = (out, Ok tt) ->
    (In NoneHere out <-> ~ exists i a b, a <> b /\ In a gl /\ In b gl /\ bel show i a /\ bel show i b).
  Proof.
    intros show quiet out H. destruct (collision_inv _ _ _ H) as [t [missing [tail [E [-> D]]]]]. destruct (table_given _ _ _ _ E) as [_ [_ [_ [T4 T5]]]].
    assert (X : In NoneHere (start ++ left_out missing ++ CollisionsHeader :: complete_output labels tlds t ++ tail) <-> In NoneHere (complete_output labels tlds t)).
    { rewrite app_assoc, in_app_iff. cbn [In]. rewrite (in_app_iff (complete_output labels tlds t)). split; [|tauto]. intros [K|[K|[K|K]]]; [|discriminate|exact K|].
      - destruct (start_plain _ _ K).
      - destruct D as [[_ ->]|[_ [o [D ->]]]]; [contradiction|]. destruct K as [K|K]; [discriminate|]. destruct (dump_only lower t o _ D K). }
    rewrite X, none_iff. split; intros N [i K]; apply N.
    - destruct K as [a [b [Hne [La [Lb [Ba Bb]]]]]]. pose proof (proj2 (T4 i) (belongs_shown _ _ _ _ Hne Ba Bb)) as Ki. unfold dkeys in Ki. apply in_map_iff in Ki. destruct Ki as [[j es] [Ej Hi]]. cbn [fst] in Ej. subst j.
      exists i, es. split; [exact Hi|]. destruct (T5 i es Hi) as [_ [U2 _]]. apply U2 in Ba, Bb.
      assert (Ka : In a (among labels es)) by (apply among_In; rewrite gl_same; auto). assert (Kb : In b (among labels es)) by (apply among_In; rewrite gl_same; auto).
      destruct (among labels es) as [|x [|y l]]; cbn [length]; [contradiction| |lia]. destruct Ka as [<-|[]], Kb as [<-|[]]. congruence.
    - destruct K as [es [Hi L]]. destruct (T5 i es Hi) as [U1 [U2 _]]. assert (Na : NoDup (among labels es)) by (apply NoDup_filter; exact U1).
      pose proof (among_In labels es) as A. destruct (among labels es) as [|a [|b l]]; cbn [length] in L; [lia|lia|]. exists i, a, b. inversion Na as [|? ? N1 N2]; subst.
      pose proof (proj1 (A a) (or_introl eq_refl)) as [A1 A2]. pose proof (proj1 (A b) (or_intror (or_introl eq_refl))) as [B1 B2]. rewrite gl_same in A2, B2. rewrite U2 in A1, B1.
      split; [intros ->; apply N1; left; reflexivity|]. auto.
  Qed.
  (** Without a dump, the pairs are those that collide. *)
  Theorem pairs_collide : forall quiet out, run false quiet = (out, Ok tt) ->
    (forall a b, (exists f ca cb, In (Pair f a ca b cb) out \/ In (Pair f b ca a cb) out) <->
       collide index a b /\ (In a gl /\ subject gl gt b \/ In b gl /\ subject gl gt a)) /\
    (In NoneHere out <-> ~ exists a b, In a gl /\ In b gl /\ collide index a b).
  Proof.
    intros quiet out H. assert (Bh : forall i x, bel false i x <-> has i x) by (intros i x; unfold belongs; intuition discriminate). split.
    - intros a b. split.
      + assert (S : forall f a ca b cb, In (Pair f a ca b cb) out -> collide index a b /\ In a gl /\ subject gl gt b).
        { clear a b. intros f a ca b cb K. apply in_split in K. destruct K as [pre [post K]]. destruct (pairs_sound _ _ _ H _ _ _ _ _ _ _ K) as [i [_ [P1 [P2 [P3 [P4 [P5 _]]]]]]]. rewrite Bh in P4, P5. destruct P4, P5.
          split; [split; [exact P1|eauto]|auto]. }
        intros [f [ca [cb [K|K]]]]; apply S in K; [tauto|]. destruct K as [[K1 [i [K2 K3]]] [K4 K5]]. split; [split; [congruence|eauto]|tauto].
      + assert (S : forall a b, collide index a b -> In a gl -> subject gl gt b -> exists f ca cb, In (Pair f a ca b cb) out \/ In (Pair f b ca a cb) out).
        { clear a b. intros a b [Hne [i [Ia Ib]]] La Sb. destruct (pairs_complete _ _ _ H i a b Hne) as [C1 C2]; [apply Bh; split; [left; exact La|exact Ia]|apply Bh; split; [exact Sb|exact Ib]|exact La|].
          destruct Sb as [Lb|Lb]; [destruct (C1 Lb) as [pre [post [f [ca [cb [_ [K|K]]]]]]]|destruct (C2 Lb) as [pre [post [f [ca [cb [_ K]]]]]]]; exists f, ca, cb; rewrite K; [left|right|left]; apply in_elt. }
        intros [Hc [[La Sb]|[Lb Sa]]]; [exact (S a b Hc La Sb)|]. destruct (S b a) as [f [ca [cb K]]]; [destruct Hc as [K1 [i [K2 K3]]]; split; [congruence|eauto]|exact Lb|exact Sa|]. exists f, ca, cb. tauto.
    - rewrite (none_reported _ _ _ H). split; intros N K; apply N.
      + destruct K as [a [b [La [Lb [Hne [i [Ia Ib]]]]]]]. exists i, a, b. rewrite !Bh. unfold has_index, subject. auto 10.
      + destruct K as [i [a [b [Hne [La [Lb [Ba Bb]]]]]]]. rewrite Bh in Ba, Bb. destruct Ba, Bb. exists a, b. split; [exact La|]. split; [exact Lb|]. split; [exact Hne|eauto].
  Qed.

  (** ** The dump *)
  Hypothesis Hself : shows_itself listing.
  Section Table.
    Variables (quiet : bool) (t : ctable) (missing : list cps).
    Hypothesis E : generate_indexes index listing labels tlds true quiet [] = Ok (t, missing).
    Lemma dumped_iff : forall es p, In (es, p) (dumped t) <-> In p gl /\ exists i, index p = Ok i /\ In (i, es) t.
    Proof.
      intros es p. destruct (table_given _ _ _ _ E) as [_ [_ [T3 [T4 T5]]]]. rewrite dumped_In. split.
      - intros [[i Hi] [e [He [Hc <-]]]]. destruct (T5 i es Hi) as [U1 [_ [U3 _]]]. specialize (U3 (ce_cp e)).
        assert (Q : category_in es (ce_cp e) = ce_cat e).
        { rewrite category_cat. unfold cat_in. rewrite (entry_for_In es e U1 He). reflexivity. }
        rewrite Q, Hc in U3. destruct U3 as [[[_ K1] [[K2 _]|[_ [_ K2]]]]|[_ K]]; [|discriminate|discriminate]. split; [exact K2|]. exists i. auto.
      - intros [Hp [i [Ip Hi]]]. split; [eauto|]. destruct (T5 i es Hi) as [U1 [U2 [U3 _]]]. assert (Hh : has i p) by (split; [left; exact Hp|exact Ip]).
        assert (Kp : In p (map ce_cp es)) by (apply U2; left; exact Hh). apply in_map_iff in Kp. destruct Kp as [e [Ee He]]. exists e. split; [exact He|]. split; [|exact Ee].
        specialize (U3 p). assert (Q : category_in es p = ce_cat e). { rewrite category_cat. unfold cat_in. rewrite <- Ee. rewrite (entry_for_In es e U1 He). reflexivity. }
        rewrite Q in U3. destruct U3 as [[_ [[_ K]|[K _]]]|[K _]]; [exact K|contradiction|contradiction].
    Qed.
    Lemma disp_listed : forall i es p e, In (i, es) t -> has i p -> In e es -> disp_for p e = dget cps_eqb (ce_cp e) (fst (listing p [])).
    Proof.
      intros i es p e Hi Hp He. destruct (table_given _ _ _ _ E) as [_ [_ [_ [_ T5]]]]. destruct (T5 i es Hi) as [U1 [_ [_ U4]]]. destruct (U4 eq_refl p Hp) as [_ U5]. specialize (U5 Hself (ce_cp e)). rewrite <- U5.
      unfold disp_in, disp_for. rewrite (entry_for_In es e U1 He). reflexivity.
    Qed.
    Lemma key_of : forall i, shown index gl gt true i -> exists es, In (i, es) t.
    Proof.
      intros i Hi. destruct (table_given _ _ _ _ E) as [_ [_ [_ [T4 _]]]]. apply T4 in Hi. unfold dkeys in Hi. apply in_map_iff in Hi. destruct Hi as [[j es] [Ej Hi]]. cbn [fst] in Ej. subst j. eauto.
    Qed.
    Lemma entries_listed : forall es p, In (es, p) (dumped t) -> snd (dump_label lower es p) = Ok tt ->
      forall d, occurrences d (map (lowered lower p) es) = disposed lower listing p d.
    Proof.
      intros es p Hq Hok d. apply dumped_iff in Hq. destruct Hq as [Hp [i [Ip Hi]]]. assert (Hh : has i p) by (split; [left; exact Hp|exact Ip]).
      destruct (table_given _ _ _ _ E) as [_ [_ [_ [_ T5]]]]. destruct (T5 i es Hi) as [U1 [U2 _]]. rewrite label_ok in Hok. set (L := fst (listing p [])). assert (NL : NoDup (map fst L)) by (apply Hob).
      set (g := fun x => match dget cps_eqb x L with Some (Some s) => lower s | _ => "" end).
      assert (P : Permutation (map ce_cp es) (map fst L)).
      { apply NoDup_Permutation; [exact U1|exact NL|]. intro x. split.
        - intro Hx. apply in_map_iff in Hx. destruct Hx as [e [<- He]]. destruct (Hok e He) as [s Hs]. rewrite (disp_listed i es p e Hi Hh He) in Hs. apply (dget_Some_key _ cps_eqb_eq) in Hs. exact Hs.
        - intro Hx. apply in_map_iff in Hx. destruct Hx as [[x' s] [Ex Hx]]. cbn [fst] in Ex. subst x'. apply U2. right. split; [reflexivity|]. exists p, s. split; [exact Hh|exact Hx]. }
      assert (M : map (lowered lower p) es = map g (map ce_cp es)).
      { rewrite map_map. apply map_ext_in. intros e He. unfold lowered, g. rewrite (disp_listed i es p e Hi Hh He). reflexivity. }
      rewrite M. unfold occurrences. rewrite (perm_kept _ _ _ (Permutation_map g P)). unfold disposed. fold L.
      assert (Q : forall q, In q L -> exists s, snd q = Some s /\ g (fst q) = lower s).
      { intros [x s] Hx. cbn [fst snd]. assert (Kx : In x (map ce_cp es)) by (apply (Permutation_in x (Permutation_sym P)); change x with (fst (x, s)); apply in_map; exact Hx).
        apply in_map_iff in Kx. destruct Kx as [e [Ee He]]. destruct (Hok e He) as [s' Hs]. rewrite (disp_listed i es p e Hi Hh He), Ee in Hs. fold L in Hs. exists s'. unfold g. rewrite Hs. split; [|reflexivity].
        apply (In_dget _ cps_eqb_eq) in Hx; [|exact NL]. congruence. }
      clearbody g. clear - Q. clearbody L. induction L as [|[x s] l IH]; [reflexivity|]. cbn [map filter fst snd]. destruct (Q (x, s) (or_introl eq_refl)) as [s' [Es Eg]]. cbn [fst snd] in Es, Eg. subst s. rewrite Eg.
      destruct (String.eqb d (lower s')); cbn [length]; rewrite IH by (intros q Hq; apply Q; right; exact Hq); reflexivity.
    Qed.
  End Table.
  Lemma dump_part : forall quiet out, run true quiet = (out, Ok tt) ->
    exists t missing front o, generate_indexes index listing labels tlds true quiet [] = Ok (t, missing) /\ out = front ++ o /\ dump_lines lower t = (o, Ok tt) /\
      forall x, In x front -> match x with DumpHeader _ | DumpVariant _ _ | Count _ _ => False | _ => True end.
  Proof.
    intros quiet out H. destruct (collision_inv _ _ _ H) as [t [missing [tail [E [-> D]]]]]. destruct D as [[D _]|[_ [o [D ->]]]]; [discriminate|].
    exists t, missing, (start ++ left_out missing ++ CollisionsHeader :: complete_output labels tlds t ++ [SummaryHeader]), o. split; [exact E|]. split; [|split; [exact D|]].
    - repeat first [rewrite <- app_assoc | progress cbn [app]]. reflexivity.
    - intros x Hx. rewrite app_assoc in Hx. apply in_app_iff in Hx. destruct Hx as [Hx|[<-|Hx]]; [|exact I|].
      + pose proof (start_plain _ _ Hx). destruct x; try exact I; contradiction.
      + apply in_app_iff in Hx. destruct Hx as [Hx|[<-|[]]]; [|exact I]. unfold complete_output in Hx. apply in_app_iff in Hx. destruct Hx as [Hx|Hx]; [|destruct (existsb _ t); [contradiction|destruct Hx as [<-|[]]; exact I]].
        destruct (body_only labels tlds t x Hx) as [[i ->]|K]; [exact I|]. destruct x; try contradiction; exact I.
  Qed.
  Theorem dump_shown : forall quiet out, run true quiet = (out, Ok tt) ->
    (forall p, In (DumpHeader p) out <-> In p gl /\ exists i, index p = Ok i) /\
    (forall pre post c l, out = pre ++ DumpVariant c l :: post -> exists p i d post', last_dump pre = Some p /\ index p = Ok i /\
       post = DumpDisposition (Some d) :: post' /\ l <> p /\ listed_as listing [] p l (Some d) /\ kind_below index gl gt i l c) /\
    (forall p i l d, In p gl -> index p = Ok i -> l <> p -> listed_as listing [] p l d ->
       exists pre c post, out = pre ++ DumpVariant c l :: DumpDisposition d :: post /\ last_dump pre = Some p) /\
    (forall pre post d n, out = pre ++ Count d n :: post -> exists p, last_dump pre = Some p /\ n = disposed lower listing p d /\ 0 < n) /\
    (forall p i l d, In p gl -> index p = Ok i -> listed_as listing [] p l (Some d) ->
       exists pre post, out = pre ++ Count (lower d) (disposed lower listing p (lower d)) :: post /\ last_dump pre = Some p).
  Proof.
    intros quiet out H. destruct (dump_part _ _ H) as [t [missing [front [o [E [-> [D Hf]]]]]]]. pose proof (dumped_iff quiet t missing E) as DI. pose proof (proj1 (dump_ok lower t) ltac:(rewrite D; reflexivity)) as OK.
    destruct (table_given _ _ _ _ E) as [_ [_ [_ [T4 T5]]]].
    assert (Hkey : forall p i, In p gl -> index p = Ok i -> exists es, In (i, es) t /\ In (es, p) (dumped t)).
    { intros p i Hp Ip. destruct (key_of quiet t missing E i) as [es Hi]; [exists p; split; [split; [left; exact Hp|exact Ip]|left; reflexivity]|]. exists es. split; [exact Hi|]. apply DI. eauto. }
    assert (Hin : forall es i p l d, In (i, es) t -> has i p -> listed_as listing [] p l d -> exists e, In e es /\ ce_cp e = l /\ disp_for p e = Some d).
    { intros es i p l d Hi Hp Hl. destruct (T5 i es Hi) as [U1 [U2 _]]. assert (K : In l (map ce_cp es)) by (apply U2; right; split; [reflexivity|]; exists p, d; auto). apply in_map_iff in K. destruct K as [e [Ee He]].
      exists e. split; [exact He|]. split; [exact Ee|]. rewrite (disp_listed quiet t missing E i es p e Hi Hp He), Ee. apply (In_dget _ cps_eqb_eq); [apply Hob|exact Hl]. }
    split; [|split; [|split; [|split]]].
    - intro p. rewrite in_app_iff. rewrite (dump_headers lower t o p D). split.
      + intros [K|[es K]]; [destruct (Hf _ K)|]. apply DI in K. destruct K as [K1 [i [K2 _]]]. eauto.
      + intros [Hp [i Ip]]. right. destruct (Hkey p i Hp Ip) as [es [_ K]]. eauto.
    - intros pre post c l Eo. apply split_left in Eo; [|intro Q; exact (Hf _ Q)]. destruct Eo as [pre' [-> Eo]].
      destruct (dump_variant lower t o _ _ _ _ D Eo) as [es [p [e [d [post' [V1 [V2 [V3 [V4 [V5 [V6 [V7 V8]]]]]]]]]]]]. destruct (proj1 (label_ok lower es p) (OK _ V1) e V3) as [s Hs]. rewrite V7 in Hs. injection Hs as ->.
      pose proof (proj1 (DI es p) V1) as [Hp [i [Ip Hi]]]. exists p, i, s, post'. split; [rewrite last_dump_app, V2; reflexivity|]. split; [exact Ip|]. split; [exact V8|]. split; [exact V6|].
      assert (Hh : has i p) by (split; [left; exact Hp|exact Ip]). rewrite (disp_listed quiet t missing E i es p e Hi Hh V3), V4 in V7. split; [apply (dget_In _ cps_eqb_eq) in V7; exact V7|].
      destruct (T5 i es Hi) as [U1 [_ [U3 _]]]. specialize (U3 l). rewrite category_cat in U3. unfold cat_in in U3. rewrite <- V4 in U3 at 2. rewrite (entry_for_In es e U1 V3), V5 in U3. exact U3.
    - intros p i l d Hp Ip Hne Hl. destruct (Hkey p i Hp Ip) as [es [Hi Hq]]. destruct (Hin es i p l d Hi) as [e [He [Ee Hd]]]; [split; [left; exact Hp|exact Ip]|exact Hl|].
      destruct (dump_variants_all lower t o es p e d D Hq He) as [pre [post [F1 F2]]]; [congruence|exact Hd|]. exists (front ++ pre), (ce_cat e), post. rewrite F1, Ee. split; [rewrite <- app_assoc; reflexivity|]. rewrite last_dump_app, F2. reflexivity.
    - intros pre post d n Eo. apply split_left in Eo; [|intro Q; exact (Hf _ Q)]. destruct Eo as [pre' [-> Eo]]. destruct (dump_count lower t o _ _ _ _ D Eo) as [es [p [V1 [V2 [V3 V4]]]]].
      exists p. split; [rewrite last_dump_app, V2; reflexivity|]. split; [rewrite V4; apply (entries_listed quiet t missing E es p V1 (OK _ V1))|]. rewrite V4. unfold occurrences.
      assert (K : In d (filter (String.eqb d) (map (lowered lower p) es))) by (apply filter_In; split; [exact V3|apply String.eqb_refl]). destruct (filter (String.eqb d) (map (lowered lower p) es)); [contradiction|]. cbn [length]. lia.
    - intros p i l d Hp Ip Hl. destruct (Hkey p i Hp Ip) as [es [Hi Hq]]. destruct (Hin es i p l (Some d) Hi) as [e [He [Ee Hd]]]; [split; [left; exact Hp|exact Ip]|exact Hl|].
      destruct (dump_counted lower t o es p (lower d) D Hq) as [pre [post [F1 F2]]].
      { apply in_map_iff. exists e. split; [|exact He]. unfold lowered. rewrite Hd. reflexivity. }
      rewrite (entries_listed quiet t missing E es p Hq (OK _ Hq)) in F1. exists (front ++ pre), post. rewrite F1. split; [rewrite <- app_assoc; reflexivity|]. rewrite last_dump_app, F2. reflexivity.
  Qed.
  (** ** When the report is complete *)
  Theorem counts_shown : forall quiet out, run true quiet = (out, Ok tt) ->
    forall pre mid post d n d' m, out = pre ++ Count d n :: mid ++ Count d' m :: post -> last_dump mid = None -> m <= n /\ d <> d'.
  Proof.
    intros quiet out H pre mid post d n d' m Eo Nm. destruct (dump_part _ _ H) as [t [missing [front [o [E [-> [D Hf]]]]]]].
    apply split_left in Eo; [|intro Q; exact (Hf _ Q)]. destruct Eo as [pre' [_ Eo]]. exact (dump_order lower t o _ _ _ _ _ _ _ D Eo Nm).
  Qed.
  Theorem report_quiet : snd (run false true) = Ok tt <-> forall l, subject gl gt l -> settled index l.
  Proof.
    rewrite collision_ok. split.
    - intros [t [missing [E _]]]. exact (proj1 (table_given _ _ _ _ E)).
    - intro Hs. destruct (generate_total index listing labels tlds labels_NoDup tlds_NoDup false true) as [t [E _]].
      + intros l Hl. apply Hs. apply (subject_same _ _ _ _ gl_same gt_same). exact Hl.
      + discriminate.
      + exists t, (absent index labels). split; [exact E|discriminate].
  Qed.
  Theorem report_dump : forall quiet, snd (run true quiet) = Ok tt <->
    (forall l, subject gl gt l -> settled index l) /\ (forall i p, has i p -> snd (listing p []) = Ok tt) /\
    (forall i p v, In p gl -> has i p -> bel true i v -> exists d, listed_as listing [] p v (Some d)).
  Proof.
    intro quiet. rewrite collision_ok. split.
    - intros [t [missing [E D]]]. specialize (D eq_refl). pose proof (dumped_iff quiet t missing E) as DI. destruct (table_given _ _ _ _ E) as [T1 [_ [_ [_ T5]]]]. split; [exact T1|]. split.
      + intros i p Hp. destruct (key_of quiet t missing E i) as [es Hi]; [exists p; auto|]. destruct (T5 i es Hi) as [_ [_ [_ U4]]]. exact (proj1 (U4 eq_refl p Hp)).
      + intros i p v Lp Hp Hv. destruct (key_of quiet t missing E i) as [es Hi]; [exists p; auto|]. destruct (T5 i es Hi) as [_ [U2 _]]. apply U2 in Hv. apply in_map_iff in Hv. destruct Hv as [e [<- He]].
        pose proof (proj1 (dump_ok lower t) D (es, p) (proj2 (DI es p) ltac:(destruct Hp; eauto))) as K. cbn [fst snd] in K. destruct (proj1 (label_ok lower es p) K e He) as [d Hd].
        rewrite (disp_listed quiet t missing E i es p e Hi Hp He) in Hd. exists d. apply (dget_In _ cps_eqb_eq) in Hd. exact Hd.
    - intros [Hs [Hw Hd]]. destruct (generate_total index listing labels tlds labels_NoDup tlds_NoDup true quiet) as [t [E _]].
      + intros l Hl. apply Hs. apply (subject_same _ _ _ _ gl_same gt_same). exact Hl.
      + intros i p _ Hp. split; [|apply Hob]. apply (Hw i). apply (has_same _ _ _ _ _ gl_same gt_same). exact Hp.
      + exists t, (absent index labels). split; [exact E|]. intros _. apply dump_ok. intros [es p] Hq. cbn [fst snd]. apply label_ok. intros e He. apply (dumped_iff quiet t _ E) in Hq. destruct Hq as [Hp [i [Ip Hi]]].
        assert (Hh : has i p) by (split; [left; exact Hp|exact Ip]). rewrite (disp_listed quiet t _ E i es p e Hi Hh He). destruct (table_given _ _ _ _ E) as [_ [_ [_ [_ T5]]]]. destruct (T5 i es Hi) as [_ [U2 _]].
        destruct (Hd i p (ce_cp e) Hp Hh) as [d K]; [apply U2; apply in_map; exact He|]. exists d. apply (In_dget _ cps_eqb_eq); [apply Hob|exact K].
  Qed.
End Report.
