(** The elements of <data> refused when a document is read by force. *)
From Verif Require Import Base BaseFacts UtilsModel CharModel RepSpec RepProofs VariantProofs RefModel LgrModel LgrSpec LgrProofs LgrReach LgrRange LgrInv LgrTags LgrFinal.
From Verif Require Import Rfc7940Model Rfc7940Spec Rfc7940Proofs ValidateModel ValidateSpec ValidateProofs MetaModel SerialModel SerialSpec SerialProofs SerialTolerant ReportSpec ReportProofs.
From Verif Require Import ActionModel CompareModel ChecksModel ChecksSpec DocModel RfcToolModel RfcToolSpec.
Open Scope string_scope.
Open Scope list_scope.

Section Data.
  Variable u : ucd.
  Variable script : N -> string.
  Definition strictly (g : lgr) : Prop := lgr_reachable g /\ lg_db g = Some (tool_db u script) /\ lg_raise g = true.

  Lemma ok_iff : forall x, memb String.eqb (ucd_idna u x) valid_idna_values = true <-> idna_ok u x.
  Proof. intro x. rewrite (memb_In _ _ string_eqb_iff). unfold valid_idna_values, idna_ok. cbn [In]. intuition congruence. Qed.
  Lemma idna_ok_dec : forall x, idna_ok u x \/ ~ idna_ok u x.
  Proof. intro x. destruct (memb String.eqb (ucd_idna u x) valid_idna_values) eqn:E; [left; apply ok_iff; exact E|right; intro K; apply ok_iff in K; congruence]. Qed.
  Lemma invalid_iff : forall g x, lg_db g = Some (tool_db u script) -> (idna_invalid g x <-> ~ idna_ok u x).
  Proof.
    intros g x D. unfold idna_invalid. rewrite D, <- ok_iff. split.
    - intros [d [E K]]. injection E as <-. cbn [tool_db db_idna_valid] in K. congruence.
    - intro K. exists (tool_db u script). split; [reflexivity|]. cbn [tool_db db_idna_valid]. destruct (memb _ _ _); [contradiction|reflexivity].
  Qed.
  Lemma unenterable_dec : forall c, unenterable u c \/ (c <> [] /\ forall x, In x c -> idna_ok u x).
  Proof.
    intros [|a c]; [left; left; reflexivity|]. assert (Hl : a :: c <> []) by discriminate. revert Hl. generalize (a :: c). clear a c. intros l Hl.
    assert (K : (exists x, In x l /\ ~ idna_ok u x) \/ forall x, In x l -> idna_ok u x).
    { clear Hl. induction l as [|x l IH]; [right; intros x []|]. destruct (idna_ok_dec x) as [D|D]; [|left; exists x; split; [left; reflexivity|exact D]].
      destruct IH as [[y [I1 I2]]|I1]; [left; exists y; split; [right; exact I1|exact I2]|right]. intros y [<-|H]; auto. }
    destruct K as [K|K]; [left; right; exact K|right; auto].
  Qed.
  Lemma enterable_not : forall c, c <> [] -> (forall x, In x c -> idna_ok u x) -> ~ unenterable u c.
  Proof. intros c H K [E|[x [X1 X2]]]; [contradiction|]. exact (X2 (K x X1)). Qed.
  Lemma convert_strict : forall g c, strictly g ->
    (unenterable u c /\ exists e, check_convert g c = Raise e) \/ (~ unenterable u c /\ c <> [] /\ check_convert g c = Ok c).
  Proof.
    intros g c [R [D F]]. destruct (check_convert_cases g c) as [[e [H0 [[H1 _]|[H1 [_ [y [H2 _]]]]]]]|[H0 [H1 [_ H2]]]].
    - left. split; [left; apply H1|eauto].
    - left. split; [right|eauto]. exists y. apply first_such_In in H2. destruct H2 as [H2 H3]. split; [exact H2|]. apply (invalid_iff g y D). exact H3.
    - right. assert (K : ~ unenterable u c); [|auto]. intros [K|[x [K1 K2]]]; [contradiction|].
      apply (invalid_iff g x D) in K2. exact (convert_acc g c c H0 x K1 F K2).
  Qed.
  Lemma strict_grows : forall g g', strictly g -> grows g g' -> strictly g'.
  Proof. intros g g' [_ [D F]] [R [E1 [E2 _]]]. split; [exact R|]. split; congruence. Qed.

  Lemma add_cp_forced : forall g c cm rf tg w nw, strictly g ->
    let '(g', x) := lgr_add_cp g c cm rf tg w nw None false true in
    (x = Ok tt /\ ~ unenterable u c /\ ~ present g c /\ (forall d, present g' d <-> present g d \/ d = c) /\
      exists ch, lookup (lg_rep g') c = Some ch /\ is_range ch = false /\ get_variants ch = []) \/
    ((unenterable u c \/ present g c) /\ exists e, x = Raise e).
  Proof.
    intros g c cm rf tg w nw S. pose proof S as [R [D F]].
    destruct (add_cp_spec g c cm rf tg w nw None false true) as [r [A1 A2]].
    destruct (lgr_add_cp g c cm rf tg w nw None false true) as [g' x]. destruct r as [e|].
    - right. destruct A2 as [-> ->]. split; [|eauto]. unfold add_cp_checks in A1. cbn [first_failing] in A1.
      destruct A1 as [[e0 [[H1 H2] E]]|[_ A1]]; [left; left; exact H1|].
      destruct A1 as [[e0 [[H1 [y [H2 H3]]] E]]|[_ A1]].
      { left. right. exists y. apply first_such_In in H2. destruct H2 as [H2 H4]. split; [exact H2|]. apply (invalid_iff g y D). exact H4. }
      destruct A1 as [[e0 [[H _] _]]|[_ A1]]; [discriminate|].
      destruct A1 as [[e0 [[v [y [H _]]] _]]|[_ A1]]; [discriminate|].
      do 4 (destruct A1 as [[e0 [[H _] _]]|[_ A1]]; [discriminate|]).
      destruct A1 as [[e0 [[H1 H2] E]]|[_ A1]]; [|discriminate]. right. exact H1.
    - left. destruct A2 as [A2 [A3 [A4 _]]]. split; [exact A2|].
      assert (Hc : ~ unenterable u c /\ ~ present g c).
      { unfold add_cp_checks in A1. cbn [first_failing] in A1.
        destruct A1 as [[e0 [_ E]]|[N1 A1]]; [discriminate|]. destruct A1 as [[e0 [_ E]]|[N2 A1]]; [discriminate|].
        do 6 (destruct A1 as [[e0 [_ E]]|[_ A1]]; [discriminate|]). destruct A1 as [[e0 [_ E]]|[N3 A1]]; [discriminate|]. split.
        - destruct (convert_strict g c S) as [[K [e E]]|[K _]]; [|exact K]. exfalso.
          destruct (check_convert_cases g c) as [[e0 [H0 [[H1 H3]|[H1 [H3 [y [H2 H4]]]]]]]|[H0 _]]; [| |congruence].
          + apply (N1 e0). split; [exact H1|exact H3].
          + apply (N2 e0). split; [exact F|]. exists y. auto.
        - intro K. apply (N3 (CharAlreadyExists c)). split; [exact K|reflexivity]. }
      destruct Hc as [Hc Hp]. split; [exact Hc|]. split; [exact Hp|]. split.
      + intro d. unfold present. destruct (cps_eq_dec d c) as [->|E]; [rewrite A3; split; [auto|discriminate]|]. rewrite A4 by exact E. tauto.
      + eexists. split; [exact A3|]. split; [destruct c as [|? [|]]; reflexivity|reflexivity].
  Qed.

  (** What tells a variant. *)
  Definition name_of (v : var_elem) (c : cps) : cps * option string * option string := (c, ve_when v, ve_not_when v).
  Lemma add_variant_forced : forall g c ch v ty w nw cm rf, strictly g -> ~ unenterable u c -> lookup (lg_rep g) c = Some ch -> is_range ch = false ->
    let '(g', x) := lgr_add_variant g c v ty w nw cm rf None false true in
    (x = Ok tt /\ ~ unenterable u v /\ ~ In (v, w, nw) (map vkey (get_variants ch)) /\ (forall d, present g' d <-> present g d) /\
      exists ch', lookup (lg_rep g') c = Some ch' /\ is_range ch' = false /\ forall k, In k (map vkey (get_variants ch')) <-> k = (v, w, nw) \/ In k (map vkey (get_variants ch))) \/
    ((unenterable u v \/ In (v, w, nw) (map vkey (get_variants ch))) /\ exists e, x = Raise e).
  Proof.
    intros g c ch v ty w nw cm rf S Hc Hl Hr. pose proof S as [R [D F]]. pose proof (lgr_reachable_wf g R) as Hwf.
    destruct (lgr_add_variant g c v ty w nw cm rf None false true) as [g' x] eqn:E. unfold lgr_add_variant in E.
    destruct (convert_strict g c S) as [[K _]|[_ [Hc1 Ec]]]; [contradiction|]. rewrite Ec in E. cbn [bind] in E.
    destruct (convert_strict g v S) as [[K [e Ev]]|[Hv [Hv1 Ev]]]; rewrite Ev in E; cbn [bind negb andb check_validating] in E.
    { right. split; [left; exact K|]. injection E as _ <-. eauto. }
    destruct (collect_refs_cases g true rf) as [[e [H1 [H2 _]]]|[H1 _]]; [discriminate|].
    rewrite H1 in E. rewrite andb_false_r in E. unfold rep_add_variant in E. rewrite get_char_lk in E by exact Hc1.
    rewrite lookup_lk in Hl. rewrite Hl in E. set (vv := mkVariant v ty w nw cm _) in E.
    assert (Hk : vkey vv = (v, w, nw)) by reflexivity.
    destruct (add_variant_cases ch vv (lk_wf _ _ _ Hwf Hl) Hr Hv1) as [[A1 A2]|[A1 [ch' [A2 A3]]]]; rewrite A2 in E.
    - right. rewrite Hk in A1. split; [right; exact A1|]. injection E as _ <-. eauto.
    - left. rewrite Hk in A1. injection E as E1 <-. split; [reflexivity|]. split; [exact Hv|]. split; [exact A1|].
      assert (Er : lg_rep g' = rep_put (lg_rep g) c ch') by (subst g'; destruct ty; cbn; try destruct (memb _ _ _); reflexivity).
      destruct (char_add_variant_wf _ _ _ (lk_wf _ _ _ Hwf Hl) A2) as [_ Hcp]. rewrite (lk_cp _ _ _ Hl) in Hcp.
      split.
      + intro d. unfold present. rewrite !lookup_lk, Er. rewrite lk_put; [|exact Hcp|congruence].
        destruct (cps_eqb d c) eqn:Ed; [|tauto]. apply cps_eqb_eq in Ed. subst d. rewrite Hl. split; discriminate.
      + exists ch'. split; [rewrite lookup_lk, Er, lk_put; [rewrite cps_eqb_refl; reflexivity|exact Hcp|congruence]|]. split.
        * unfold char_add_variant in A2. rewrite Hr in A2. destruct (v_cp vv); [discriminate|].
          destruct (dget _ _ _); [destruct (memb _ _ _); [discriminate|]|]; injection A2 as <-; exact Hr.
        * intro k. rewrite !in_map_iff. split.
          -- intros [z [Z1 Z2]]. apply A3 in Z2. destruct Z2 as [->|Z2]; [left; rewrite <- Z1; exact Hk|right; eauto].
          -- intros [->|[z [Z1 Z2]]]; [exists vv; split; [exact Hk|apply A3; auto]|exists z; split; [exact Z1|apply A3; auto]].
  Qed.

  Lemma add_range_forced : forall g f l cm rf tg w nw, strictly g ->
    let '(g', x) := lgr_add_range g f l cm rf tg w nw None false true in
    (x = Ok tt /\ f <= l /\ forall d, present g' d <-> present g d \/ (exists y, d = [y] /\ f <= y <= l /\ idna_ok u y)) \/
    (l < f /\ exists e, x = Raise e /\ is_lgr_exception e = true) \/ (x = Raise IndexError).
  Proof.
    intros g f l cm rf tg w nw S. pose proof S as [R [D F]]. pose proof (lgr_reachable_wf g R) as Hwf.
    destruct (add_range_spec_reach g f l cm rf tg w nw None false true R) as [r [A1 A2]]. cbv zeta in A2.
    destruct (lgr_add_range g f l cm rf tg w nw None false true) as [g' x]. destruct r as [e|].
    - destruct A2 as [-> ->]. unfold add_range_checks in A1. cbn [first_failing] in A1.
      destruct A1 as [[e0 [[H1 H2] E]]|[N0 A1]]; [right; left; split; [exact H1|]; exists e; injection E as <-; rewrite H2; split; reflexivity|].
      destruct A1 as [[e0 [[H _] _]]|[_ A1]]; [discriminate|].
      destruct A1 as [[e0 [[y [H _]] _]]|[_ A1]].
      { apply first_such_In in H. destruct H as [_ [_ [v [H _]]]]. discriminate. }
      destruct A1 as [[e0 [[y [_ H]] _]]|[_ A1]]; [inversion H; discriminate|].
      do 3 (destruct A1 as [[e0 [[H _] _]]|[_ A1]]; [discriminate|]).
      destruct A1 as [[e0 [[H1 H2] E]]|[_ A1]]; [|discriminate]. right. right. congruence.
    - assert (Hfl : f <= l).
      { unfold add_range_checks in A1. cbn [first_failing] in A1. destruct A1 as [[e0 [_ E]]|[N0 A1]]; [discriminate|].
        destruct (N.le_gt_cases f l) as [K|K]; [exact K|]. exfalso. exact (N0 _ (conj K eq_refl)). }
      assert (Hin : forall y, to_insert g None false true y <-> idna_ok u y /\ ~ present g [y]).
      { intro y. unfold to_insert. split.
        - intros [H|[[H _]|[_ H]]]; [|inversion H; discriminate|congruence]. inversion H as [|? ? ?| |H1 _ H2]; subst.
          split; [|exact H2]. destruct (idna_ok_dec y) as [K|K]; [exact K|]. exfalso. apply H1. apply (invalid_iff g y D). exact K.
        - intros [H1 H2]. left. apply RSt_ok; [|intros v Hv; discriminate|exact H2]. intro K. apply (invalid_iff g y D) in K. contradiction. }
      destruct A2 as [[A2 [B1 [B2 B3]]]|[z [A2 [[_ B1] [B2 _]]]]]; [|apply Hin in B1; destruct B1; contradiction].
      left. split; [exact A2|]. split; [exact Hfl|]. intro d.
      assert (P : (exists y, d = [y] /\ (f <= y <= l /\ to_insert g None false true y)) \/ (forall y, d = [y] -> ~ (f <= y <= l /\ to_insert g None false true y))).
      { destruct d as [|y [|? ?]]; [right; discriminate| |right; discriminate].
        destruct (N.le_gt_cases f y) as [K1|K1]; [|right; intros z Ez; injection Ez as <-; lia].
        destruct (N.le_gt_cases y l) as [K2|K2]; [|right; intros z Ez; injection Ez as <-; lia].
        destruct (idna_ok_dec y) as [K3|K3]; [|right; intros z Ez [_ K]; injection Ez as <-; apply Hin in K; tauto].
        destruct (lookup (lg_rep g) [y]) eqn:K4; [right; intros z Ez [_ K]; injection Ez as <-; apply Hin in K; apply K; unfold present; congruence|].
        left. exists y. split; [reflexivity|]. split; [lia|]. apply Hin. split; [exact K3|]. unfold present. congruence. }
      destruct P as [[y [-> P]]|P].
      + destruct (B2 y P) as [k Hk]. unfold present at 1. rewrite Hk. split; [intros _; right; exists y; split; [reflexivity|]; split; [tauto|]; apply Hin; apply P|discriminate].
      + unfold present at 1. rewrite (B3 d P). split; [left; assumption|]. intros [H|[y [-> [H1 H2]]]]; [exact H|].
        specialize (P y eq_refl). unfold present. intro K. apply P. split; [exact H1|]. apply Hin. split; [exact H2|]. unfold present. intro Q. exact (Q K).
  Qed.

  (** ** Which elements are refused *)
  Definition cv : string := "codepoint_valid".
  Lemma attempt_raise : forall r g e g' r', attempt true r (g, Raise e) = (g', r', Ok tt) -> dget String.eqb cv r' = Some false.
  Proof.
    intros r g e g' r' H. cbn [attempt] in H. destruct (is_lgr_exception e); [|discriminate]. injection H as _ <-.
    unfold report_error. rewrite add_get. cbn. destruct (dget String.eqb cv _); [rewrite andb_false_r|]; reflexivity.
  Qed.
  Lemma vars_sticky : forall vs g r c g' r', process_vars true g r c vs = (g', r', Ok tt) -> dget String.eqb cv r = Some false -> dget String.eqb cv r' = Some false.
  Proof. intros vs g r c g' r' H K. apply vars_refusals in H. destruct H as [L [-> _]]. apply failure_sticky. exact K. Qed.
  Lemma loop_sticky : forall l g r prev g' r', process_data_loop true g r prev l = (g', r', Ok tt) -> dget String.eqb cv r = Some false -> dget String.eqb cv r' = Some false.
  Proof. intros l g r prev g' r' H K. apply data_reports in H. destruct H as [cs [L [_ [-> _]]]]. apply failure_sticky. exact K. Qed.

  Definition vars_refused (pv vs : list var_elem) : Prop :=
    (exists v c, In v vs /\ parse_cps (ve_cp v) = Ok c /\ unenterable u c) \/
    (exists p v q w, vs = p ++ v :: q /\ In w (pv ++ p) /\ same_variant v w).
  Definition named_by (pv : list var_elem) (k : cps * option string * option string) : Prop :=
    exists w c, In w pv /\ parse_cps (ve_cp w) = Ok c /\ k = name_of w c.
  Lemma vars_loop : forall vs pv g r c ch g' r', strictly g -> ~ unenterable u c -> lookup (lg_rep g) c = Some ch -> is_range ch = false ->
    (forall k, In k (map vkey (get_variants ch)) <-> named_by pv k) ->
    process_vars true g r c vs = (g', r', Ok tt) -> dget String.eqb cv r = None ->
    (dget String.eqb cv r' = None /\ (forall d, present g' d <-> present g d) /\ ~ vars_refused pv vs) \/ (dget String.eqb cv r' = Some false /\ vars_refused pv vs).
  Proof.
    induction vs as [|v vs IH]; intros pv g r c ch g' r' S Hc Hl Hr Hn H K; cbn [process_vars] in H.
    - injection H as <- <-. left. split; [exact K|]. split; [tauto|]. intros [[v [q [[] _]]]|[p [v [q [w [E _]]]]]]. destruct p; discriminate.
    - destruct (parse_cps (ve_cp v)) as [vc|e] eqn:Ev; [|discriminate].
      pose proof (add_variant_forced g c ch vc (ve_type v) (ve_when v) (ve_not_when v) (ve_comment v) (attr_words (ve_ref v)) S Hc Hl Hr) as A.
      pose proof (add_variant_tolerant g c vc (ve_type v) (ve_when v) (ve_not_when v) (ve_comment v) (attr_words (ve_ref v)) (proj1 S)) as T.
      destruct (lgr_add_variant _ _ _ _ _ _ _ _ _ _ _) as [g1 x]. destruct T as [T _].
      destruct A as [[-> [A1 [A2 [A3 [ch' [A4 [A5 A6]]]]]]]|[A1 [e ->]]].
      + cbn [attempt] in H.
        assert (Hn' : forall k, In k (map vkey (get_variants ch')) <-> named_by (pv ++ [v]) k).
        { intro k. rewrite A6, Hn. split.
          - intros [->|[w [c' [W1 W2]]]]; [exists v, vc; split; [apply in_elt|auto]|exists w, c'; split; [apply in_or_app; left; exact W1|exact W2]].
          - intros [w [c' [W1 [W2 W3]]]]. apply in_app_or in W1. destruct W1 as [W1|[<-|[]]]; [right; exists w, c'; auto|left]. rewrite Ev in W2. injection W2 as <-. exact W3. }
        destruct (IH (pv ++ [v]) g1 r c ch' g' r' (strict_grows _ _ S T) Hc A4 A5 Hn' H K) as [[B1 [B2 B3]]|[B1 B2]].
        * left. split; [exact B1|]. split; [intro d; rewrite B2; apply A3|]. intros [[v' [q [[<-|V1] [V2 V3]]]]|[p [v' [q [w [E [V1 V2]]]]]]].
          -- rewrite Ev in V2. injection V2 as <-. contradiction.
          -- apply B3. left. eauto.
          -- destruct p as [|v0 p]; cbn [app] in E.
             ++ injection E as <- <-. rewrite app_nil_r in V1. destruct V2 as [[c' [V2 V3]] [V4 V5]]. rewrite Ev in V2. injection V2 as <-. apply A2, Hn.
                exists w, vc. split; [exact V1|]. split; [exact V3|]. unfold name_of. congruence.
             ++ injection E as <- ->. apply B3. right. exists p, v', q, w. split; [reflexivity|]. split; [|exact V2]. rewrite <- app_assoc. exact V1.
        * right. split; [exact B1|]. destruct B2 as [[v' [q [V1 V2]]]|[p [v' [q [w [E [V1 V2]]]]]]].
          -- left. exists v', q. split; [right; exact V1|exact V2].
          -- right. exists (v :: p), v', q, w. subst vs. split; [reflexivity|]. split; [|exact V2]. rewrite <- app_assoc in V1. exact V1.
      + right. destruct (attempt true r (g1, Raise e)) as [[g2 r2] [[]|e2]] eqn:E2; [|discriminate]. split.
        * apply (vars_sticky _ _ _ _ _ _ H). exact (attempt_raise _ _ _ _ _ E2).
        * destruct A1 as [A1|A1]; [left; exists v, vc; split; [left; reflexivity|auto]|right]. apply Hn in A1. destruct A1 as [w [c' [W1 [W2 W3]]]]. unfold name_of in W3. injection W3 as <- W4 W5.
          exists [], v, vs, w. split; [reflexivity|]. split; [rewrite app_nil_r; exact W1|]. split; [eauto|auto].
  Qed.

  Definition listed (pre : list data_elem) (c : cps) : Prop := exists e, In e pre /\ stands_for e c.
  Definition refused_after (pre l : list data_elem) : Prop := exists p e q, l = p ++ e :: q /\ refuses u (pre ++ p) e.
  Lemma refused_cons : forall pre e l, refused_after pre (e :: l) <-> refuses u pre e \/ refused_after (pre ++ [e]) l.
  Proof.
    intros pre e l. split.
    - intros [p [e' [q [E H]]]]. destruct p as [|x p]; cbn [app] in E; [injection E as <- <-; left; rewrite app_nil_r in H; exact H|].
      injection E as <- ->. right. exists p, e', q. split; [reflexivity|]. rewrite <- app_assoc. exact H.
    - intros [H|[p [e' [q [-> H]]]]]; [exists [], e, l; split; [reflexivity|]; rewrite app_nil_r; exact H|].
      exists (e :: p), e', q. split; [reflexivity|]. rewrite <- app_assoc in H. exact H.
  Qed.
  Lemma data_loop : forall l pre g r prev g' r', strictly g ->
    (forall c, present g c <-> listed pre c /\ ~ unenterable u c) ->
    process_data_loop true g r prev l = (g', r', Ok tt) -> dget String.eqb cv r = None ->
    (dget String.eqb cv r' = None /\ ~ refused_after pre l) \/ (dget String.eqb cv r' = Some false /\ refused_after pre l).
  Proof.
    induction l as [|e l IH]; intros pre g r prev g' r' S Hp H K; cbn [process_data_loop] in H.
    - injection H as <- <-. left. split; [exact K|]. intros [p [e [q [E _]]]]. destruct p; discriminate.
    - rewrite refused_cons. destruct e as [s a vs|f la a vs|].
      + destruct (parse_cps s) as [c|x] eqn:Ec; [|discriminate].
        pose proof (add_cp_forced g c (at_comment a) (attr_words (at_ref a)) (attr_words (at_tag a)) (at_when a) (at_not_when a) S) as A.
        pose proof (add_cp_tolerant g c (at_comment a) (attr_words (at_ref a)) (attr_words (at_tag a)) (at_when a) (at_not_when a) (proj1 S)) as T.
        destruct (lgr_add_cp _ _ _ _ _ _ _ _ _ _) as [g1 x]. destruct T as [T _].
        assert (Ko : dget String.eqb cv (check_order prev c r) = None).
        { rewrite check_order_is, apply_get, K. destruct (filter _ (order_reports prev c)) as [|[t b] fs] eqn:E; [reflexivity|]. exfalso.
          assert (I : In (t, b) (filter (fun p : report => String.eqb cv (fst p)) (order_reports prev c))) by (rewrite E; left; reflexivity).
          apply filter_In in I. destruct I as [I1 I2]. apply order_labels in I1. cbn [fst] in I2. apply String.eqb_eq in I2. subst t. destruct I1 as [_ [I1|I1]]; discriminate. }
        destruct A as [[-> [A1 [A2 [A3 [ch [A4 [A5 A6]]]]]]]|[A1 [e ->]]].
        * cbn [attempt] in H. destruct (process_vars true g1 _ c vs) as [[g2 r2] [[]|x]] eqn:E2; [|discriminate].
          assert (T2 : strictly g2).
          { apply (strict_grows g1); [exact (strict_grows _ _ S T)|]. clear - E2 T. revert E2. generalize (check_order prev c r). revert g2 r2.
            assert (R1 := proj1 T). clear T. revert g1 R1. induction vs as [|v vs IHv]; intros g1 R1 g2 r2 r0 E2; cbn [process_vars] in E2.
            - injection E2 as <- <-. apply grows_refl. exact R1.
            - destruct (parse_cps (ve_cp v)) as [vc|]; [|discriminate].
              pose proof (add_variant_tolerant g1 c vc (ve_type v) (ve_when v) (ve_not_when v) (ve_comment v) (attr_words (ve_ref v)) R1) as T.
              destruct (lgr_add_variant _ _ _ _ _ _ _ _ _ _ _) as [g3 x]. destruct T as [T Hx]. destruct x as [[]|e].
              + cbn [attempt] in E2. exact (grows_trans _ _ _ T (IHv g3 (proj1 T) _ _ _ E2)).
              + cbn [attempt] in E2. rewrite (Hx e eq_refl) in E2. exact (grows_trans _ _ _ T (IHv g3 (proj1 T) _ _ _ E2)). }
          assert (Hn : forall k, In k (map vkey (get_variants ch)) <-> named_by [] k).
          { intro k. rewrite A6. split; [intros []|intros [w [q [[] _]]]]. }
          destruct (vars_loop vs [] g1 _ c ch g2 r2 (strict_grows _ _ S T) A1 A4 A5 Hn E2 Ko) as [[B1 [B2 B3]]|[B1 B2]].
          -- assert (Hp' : forall d, present g2 d <-> listed (pre ++ [DChar s a vs]) d /\ ~ unenterable u d).
             { intro d. rewrite B2, A3, Hp. unfold listed. split.
               - intros [[[e [D1 D2]] D3]| ->]; [split; [exists e; split; [apply in_or_app; left; exact D1|exact D2]|exact D3]|].
                 split; [exists (DChar s a vs); split; [apply in_elt|exact Ec]|exact A1].
               - intros [[e [D1 D2]] D3]. apply in_app_or in D1. destruct D1 as [D1|[<-|[]]]; [left; split; [eauto|exact D3]|right]. cbn [stands_for] in D2. congruence. }
             assert (N : ~ refuses u pre (DChar s a vs)).
             { intro Q. inversion Q as [s0 a0 vs0 c0 Q1 Q2|s0 a0 vs0 c0 e Q1 Q2 Q3|s0 a0 vs0 v c0 Q1 Q2 Q3|s0 a0 pv v qv w Q1 Q2|]; subst.
               - rewrite Ec in Q1. injection Q1 as <-. contradiction.
               - rewrite Ec in Q1. injection Q1 as <-. apply A2, Hp. split; [exists e; auto|exact A1].
               - apply B3. left. eauto.
               - apply B3. right. exists pv, v, qv, w. auto. }
             destruct (IH _ _ _ _ _ _ T2 Hp' H B1) as [[C1 C2]|[C1 C2]]; [left; tauto|right; tauto].
          -- right. split; [exact (loop_sticky _ _ _ _ _ _ H B1)|]. left. destruct B2 as [[v [q [V1 [V2 V3]]]]|[p [v [q [w [-> [V1 V2]]]]]]].
             ++ exact (rf_variant u pre s a vs v q V1 V2 V3).
             ++ exact (rf_variant_again u pre s a p v q w V1 V2).
        * destruct (attempt true _ (g1, Raise e)) as [[g2 r2] [[]|e2]] eqn:E2; [|discriminate]. destruct (process_vars true g2 r2 c vs) as [[g3 r3] [[]|e3]] eqn:E3; [|discriminate].
          right. split; [apply (loop_sticky _ _ _ _ _ _ H), (vars_sticky _ _ _ _ _ _ E3); exact (attempt_raise _ _ _ _ _ E2)|].
          left. destruct (unenterable_dec c) as [D|[D1 D2]]; [exact (rf_char u pre s a vs c Ec D)|].
          destruct A1 as [A1|A1]; [exact (rf_char u pre s a vs c Ec A1)|]. apply Hp in A1. destruct A1 as [[e' [F1 F2]] _]. exact (rf_again u pre s a vs c e' Ec F1 F2).
      + destruct (parse_cp f) as [x|z] eqn:Ex; [|discriminate]. destruct (parse_cp la) as [y|z] eqn:Ey; [|discriminate].
        pose proof (add_range_forced g x y (at_comment a) (attr_words (at_ref a)) (attr_words (at_tag a)) (at_when a) (at_not_when a) S) as A.
        pose proof (add_range_tolerant g x y (at_comment a) (attr_words (at_ref a)) (attr_words (at_tag a)) (at_when a) (at_not_when a) (proj1 S)) as T.
        destruct (lgr_add_range _ _ _ _ _ _ _ _ _ _ _) as [g1 o]. destruct T as [T _].
        destruct A as [[-> [A1 A2]]|[[A1 [e [-> A2]]]| ->]].
        * cbn [attempt] in H.
          assert (Hp' : forall d, present g1 d <-> listed (pre ++ [DRange f la a vs]) d /\ ~ unenterable u d).
          { intro d. rewrite A2, Hp. unfold listed. split.
            - intros [[[e [D1 D2]] D3]|[z [-> [D1 D2]]]]; [split; [exists e; split; [apply in_or_app; left; exact D1|exact D2]|exact D3]|].
              split; [exists (DRange f la a vs); split; [apply in_elt|]; cbn [stands_for]; exists x, y, z; auto|].
              intros [Q|[q [[<-|[]] Q]]]; [discriminate|contradiction].
            - intros [[e [D1 D2]] D3]. apply in_app_or in D1. destruct D1 as [D1|[<-|[]]]; [left; split; [eauto|exact D3]|right].
              cbn [stands_for] in D2. destruct D2 as [x' [y' [z [D4 [D5 [D6 ->]]]]]]. rewrite Ex in D4. rewrite Ey in D5. injection D4 as <-. injection D5 as <-.
              exists z. split; [reflexivity|]. split; [exact D6|]. destruct (idna_ok_dec z) as [Q|Q]; [exact Q|]. exfalso. apply D3. right. exists z. split; [left; reflexivity|exact Q]. }
          assert (N : ~ refuses u pre (DRange f la a vs)).
          { intro Q. inversion Q as [| | | |f0 la0 a0 vs0 x' y' Q1 Q2 Q3]; subst. rewrite Ex in Q1. rewrite Ey in Q2. injection Q1 as <-. injection Q2 as <-. lia. }
          destruct (IH _ _ _ _ _ _ (strict_grows _ _ S T) Hp' H K) as [[C1 C2]|[C1 C2]]; [left; tauto|right; tauto].
        * destruct (attempt true r (g1, Raise e)) as [[g2 r2] [[]|e2]] eqn:E2; [|discriminate].
          right. split; [apply (loop_sticky _ _ _ _ _ _ H); exact (attempt_raise _ _ _ _ _ E2)|]. left. exact (rf_range u pre f la a vs x y Ex Ey A1).
        * discriminate.
      + assert (Hp' : forall d, present g d <-> listed (pre ++ [DOther]) d /\ ~ unenterable u d).
        { intro d. rewrite Hp. unfold listed. split; intros [[e [D1 D2]] D3]; (split; [|exact D3]).
          - exists e. split; [apply in_or_app; left; exact D1|exact D2].
          - apply in_app_or in D1. destruct D1 as [D1|[<-|[]]]; [eauto|destruct D2]. }
        assert (N : ~ refuses u pre DOther) by (intro Q; inversion Q).
        destruct (IH _ _ _ _ _ _ S Hp' H K) as [[C1 C2]|[C1 C2]]; [left; tauto|right; tauto].
  Qed.
  Theorem data_refusals : forall l g r prev g' r', strictly g -> (forall c, ~ present g c) ->
    process_data_loop true g r prev l = (g', r', Ok tt) -> dget String.eqb cv r = None ->
    (dget String.eqb cv r' = None /\ ~ rejected u l) \/ (dget String.eqb cv r' = Some false /\ rejected u l).
  Proof.
    intros l g r prev g' r' S Hp H K. apply (data_loop l [] g r prev g' r' S); [|exact H|exact K].
    intro c. split; [intro Q; exfalso; exact (Hp c Q)|intros [[e [[] _]] _]].
  Qed.

  (** ** The repertoire that results *)
  Lemma op_step : forall g o g' x, lgr_step g o = (g', x) -> tidy g -> tidy_op g o -> tidy g'.
  Proof. intros g o g' x H T O. pose proof (tidy_step g o T O) as K. rewrite H in K. exact K. Qed.
  Lemma attempt_fst : forall force r p g' r' x, attempt force r p = (g', r', x) -> g' = fst p.
  Proof. intros force r [g [[]|e]] g' r' x H; cbn [attempt fst] in *; [congruence|]. destruct (is_lgr_exception e); [destruct force|]; congruence. Qed.
  Lemma vars_tidy : forall vs g r c g' r', process_vars true g r c vs = (g', r', Ok tt) -> strictly g -> tidy g -> strictly g' /\ tidy g'.
  Proof.
    induction vs as [|v vs IH]; intros g r c g' r' H S T; cbn [process_vars] in H; [injection H as <- _; auto|].
    destruct (parse_cps (ve_cp v)) as [vc|]; [|discriminate]. destruct (attempt true r _) as [[g1 r1] [[]|e]] eqn:A; [|discriminate]. apply attempt_fst in A.
    pose proof (add_variant_tolerant g c vc (ve_type v) (ve_when v) (ve_not_when v) (ve_comment v) (attr_words (ve_ref v)) (proj1 S)) as Q.
    pose proof (tidy_step g (LAddVariant c vc (ve_type v) (ve_when v) (ve_not_when v) (ve_comment v) (attr_words (ve_ref v)) None false true) T I) as T1. cbn [lgr_step] in T1.
    destruct (lgr_add_variant _ _ _ _ _ _ _ _ _ _ _) as [g2 x]. cbn [fst] in *. subst g2. apply (IH _ _ _ _ _ H); [exact (strict_grows _ _ S (proj1 Q))|exact T1].
  Qed.
  Theorem data_tidy : forall l g r prev g' r', process_data_loop true g r prev l = (g', r', Ok tt) -> strictly g -> tidy g -> strictly g' /\ tidy g'.
  Proof.
    induction l as [|e l IH]; intros g r prev g' r' H S T; cbn [process_data_loop] in H; [injection H as <- _; auto|]. destruct e as [s a vs|f la a vs|].
    - destruct (parse_cps s) as [c|]; [|discriminate]. destruct (attempt true _ _) as [[g1 r1] [[]|e]] eqn:A; [|discriminate]. apply attempt_fst in A.
      destruct (process_vars true g1 r1 c vs) as [[g2 r2] [[]|e]] eqn:V; [|discriminate].
      pose proof (add_cp_tolerant g c (at_comment a) (attr_words (at_ref a)) (attr_words (at_tag a)) (at_when a) (at_not_when a) (proj1 S)) as Q.
      pose proof (tidy_step g (LAddCp c (at_comment a) (attr_words (at_ref a)) (attr_words (at_tag a)) (at_when a) (at_not_when a) None false true) T I) as T1. cbn [lgr_step] in T1.
      destruct (lgr_add_cp _ _ _ _ _ _ _ _ _ _) as [g3 x]. cbn [fst] in *. subst g3.
      destruct (vars_tidy _ _ _ _ _ _ V (strict_grows _ _ S (proj1 Q)) T1) as [S2 T2]. exact (IH _ _ _ _ _ H S2 T2).
    - destruct (parse_cp f) as [x|]; [|discriminate]. destruct (parse_cp la) as [y|]; [|discriminate]. destruct (attempt true _ _) as [[g1 r1] [[]|e]] eqn:A; [|discriminate]. apply attempt_fst in A.
      pose proof (add_range_tolerant g x y (at_comment a) (attr_words (at_ref a)) (attr_words (at_tag a)) (at_when a) (at_not_when a) (proj1 S)) as Q.
      pose proof (tidy_step g (LAddRange x y (at_comment a) (attr_words (at_ref a)) (attr_words (at_tag a)) (at_when a) (at_not_when a) None false true) T) as T1.
      pose proof (add_range_atomic_reach g x y (at_comment a) (attr_words (at_ref a)) (attr_words (at_tag a)) (at_when a) (at_not_when a) None false true) as At.
      cbn [tidy_op lgr_step] in T1. destruct (lgr_add_range _ _ _ _ _ _ _ _ _ _ _) as [g3 o]. cbn [fst snd] in *. subst g3.
      assert (T2 : tidy g1).
      { destruct o as [[]|e]; [apply T1; left; reflexivity|]. rewrite (At e g1 (proj1 S) (or_introl eq_refl) (or_introl (proj2 (proj2 S))) eq_refl). exact T. }
      exact (IH _ _ _ _ _ H (strict_grows _ _ S (proj1 Q)) T2).
    - exact (IH _ _ _ _ _ H S T).
  Qed.
  Theorem strict_code_points : forall g, strictly g -> code_points_ok u g.
  Proof.
    intros g [R [D F]] x H. destruct (idna_ok_dec x) as [K|K]; [exact K|]. exfalso. apply (invalid_iff g x D) in K. destruct H as [[c [H1 H2]]|[a [b [v [H1 H2]]]]].
    - rewrite lookup_lk in H1. exact (reachable_accepting g R F c x H1 H2 K).
    - destruct H1 as [ch [H3 [H4 H5]]]. subst b. rewrite lookup_lk in H3. exact (reachable_vacc g R a ch H3 v x H4 H2 F K).
  Qed.
End Data.
