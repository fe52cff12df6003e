From Verif Require Import Base BaseFacts CharModel RepSpec RepProofs VariantProofs IterProofs VarSetSpec VarSetProofs.
From Verif Require Import RefModel LgrModel LgrSpec LgrProofs LgrReach LgrInv LgrRefs Rfc7940Model.
From Verif Require Import ValidateModel ValidateSpec ValidateProofs PopulateModel PopulateSpec PopulateProofs PopulateSteps.
Open Scope string_scope.
Open Scope list_scope.

Lemma truthy_none : forall s, truthy s = true -> s <> None.
Proof. intros s H. apply truthy_some. exact H. Qed.

(** ** One mapping of the symmetry pass *)
Lemma symmetry_step_spec : forall g0 gs g a v, isym g0 gs g -> has_target (lg_rep g) a (v_cp v) -> (populatable g0 -> one_context v) ->
  (neat g0 -> visible v) ->
  outcome g0 (isym g0 gs) g (symmetry_step g a v) (fun g' => has_target (lg_rep g') (v_cp v) a).
Proof.
  intros g0 gs g a v HS Ht Hctx Hblank. set (b := v_cp v) in *. pose proof HS as [HI [Hc [Hks Hup]]]. pose proof (i_re _ _ HI) as Hre.
  unfold symmetry_step. fold b. destruct (lk (lg_rep g) b) as [chb|] eqn:Eb; [|exfalso; apply (Hc _ _ Ht); exact Eb].
  rewrite (get_variants_present g Hre b chb Eb).
  set (reverse := filter (fun u => cps_eqb a (v_cp u)) (get_variants chb)).
  assert (Hrev : forall u, In u reverse <-> In u (get_variants chb) /\ v_cp u = a).
  { intro u. unfold reverse. rewrite filter_In, cps_eqb_eq. intuition congruence. }
  assert (Hwfb : wf_char chb) by (eapply lk_wf; [apply (lgr_reachable_wf g Hre)|exact Eb]).
  assert (Hkeyin : forall w nw, In (a, w, nw) (map vkey (get_variants chb)) -> exists u, In u reverse /\ v_when u = w /\ v_not_when u = nw).
  { intros w nw H. apply in_map_iff in H. destruct H as [u [H1 H2]]. exists u. unfold vkey in H1. split; [apply Hrev; split; [exact H2|congruence]|split; congruence]. }
  assert (Hmr : forall u, In u reverse -> mapping (lg_rep g) b a u).
  { intros u H. apply Hrev in H. apply mapping_lk. exists chb. split; [exact Eb|exact H]. }
  destruct reverse as [|r0 rs] eqn:Erev.
  { apply (put_reverse g0 gs g a b chb); auto. intro Hp. split; [exact (Hctx Hp)|]. intro H. destruct (Hkeyin _ _ H) as [u [[] _]]. }
  rewrite <- Erev in *. assert (Hr0 : In r0 reverse) by (rewrite Erev; left; reflexivity).
  assert (Hr0cp : v_cp r0 = a) by (apply Hrev; exact Hr0).
  assert (Hback : has_target (lg_rep g) b a) by (exists r0; apply Hmr; exact Hr0).
  assert (Hmay : may_have g0 b a r0) by (apply (i_var _ _ HI); apply Hmr; exact Hr0).
  assert (Hrefs : populatable g0 -> NoDup (v_refs r0) /\ forall x, In x (v_refs r0) -> defined_ref g x).
  { intro Hp. destruct (i_good _ _ HI Hp) as [_ P2]. destruct (P2 _ _ _ (Hmr _ Hr0)) as [_ P3]. exact P3. }
  assert (Halike : truthy (last_rule v_when reverse) = false -> truthy (last_rule v_not_when reverse) = false ->
    neat g0 -> forall u, In u (get_variants chb) -> vkey u = (a, None, None) -> alike u r0).
  { intros Hw Hnw Hn u Hu Hku. pose proof (i_neat _ _ HI Hn _ _ _ (Hmr _ Hr0)) as [N1 N2].
    assert (Hk0 : vkey r0 = (a, None, None)).
    { unfold vkey. rewrite Hr0cp. rewrite (falsy_nonblank _ (last_rule_none _ _ _ Hw Hr0) N1). rewrite (falsy_nonblank _ (last_rule_none _ _ _ Hnw Hr0) N2). reflexivity. }
    assert (u = r0); [|subst; apply alike_refl].
    pose proof (get_variants_NoDup chb Hwfb) as Hnd. apply Hrev in Hr0. destruct Hr0 as [Hr0 _].
    clear - Hu Hku Hk0 Hnd Hr0. rewrite <- Hk0 in Hku. clear Hk0. induction (get_variants chb) as [|x l IH]; [contradiction|].
    cbn [map] in Hnd. apply NoDup_cons_iff in Hnd. destruct Hnd as [Hn1 Hn2].
    destruct Hu as [Hu|Hu], Hr0 as [Hr0|Hr0]; try congruence.
    - subst x. exfalso. apply Hn1. rewrite Hku. apply in_map. exact Hr0.
    - subst x. exfalso. apply Hn1. rewrite <- Hku. apply in_map. exact Hu.
    - apply IH; auto. }
  (* the not-when part, on the same state *)
  assert (Hpart2 : outcome g0 (isym g0 gs) g (symmetry_not_when g a v reverse) (fun g' => has_target (lg_rep g') b a)).
  { unfold symmetry_not_when. fold b. destruct (truthy (v_not_when v)) eqn:Ev; cbn [andb]; [|apply outcome_here; [intros x Hx; apply Hx|exact HS|exact Hback]].
    destruct (truthy (last_rule v_not_when reverse)) eqn:Enw; cbn [negb]; [apply outcome_here; [intros x Hx; apply Hx|exact HS|exact Hback]|].
    assert (Hnk : ~ In (a, None, v_not_when v) (map vkey (get_variants chb))).
    { intro H. destruct (Hkeyin _ _ H) as [u [U1 [_ U2]]]. pose proof (last_rule_none _ _ _ Enw U1) as H1. congruence. }
    destruct (truthy (last_rule v_when reverse)) eqn:Ew.
    - apply (put_reverse g0 gs g a b chb); auto. intros _. split; [discriminate|apply truthy_some; exact Ev].
    - rewrite Erev. eapply outcome_weak; [|apply (replace_reverse g0 gs g a b chb r0); auto].
      + intros g' _ _ [H _]. exact H.
      + intro Hp. destruct (Hrefs Hp) as [R1 R2]. auto.
      + intros _. split; [discriminate|apply truthy_some; exact Ev].
      + right. apply truthy_none. exact Ev. }
  unfold symmetry_when. fold b. destruct (truthy (v_when v)) eqn:Ev; cbn [andb]; [|cbn [andthen]; exact Hpart2].
  destruct (truthy (last_rule v_when reverse)) eqn:Ew; cbn [negb]; [cbn [andthen]; exact Hpart2|].
  clear Hpart2.
  assert (Hnk : ~ In (a, v_when v, None) (map vkey (get_variants chb))).
  { intro H. destruct (Hkeyin _ _ H) as [u [U1 [U2 _]]]. pose proof (last_rule_none _ _ _ Ew U1) as H1. congruence. }
  destruct (truthy (last_rule v_not_when reverse)) eqn:Enw.
  - (* added: the second part does nothing *)
    pose proof (put_reverse g0 gs g a b chb (v_when v) None HS Ht Eb) as Hp.
    assert (Hp' : outcome g0 (isym g0 gs) g (put_variant g b a blocked (v_when v) None None []) (fun g' => has_target (lg_rep g') b a)).
    { apply Hp; [intro; auto|]. intro. split; [apply truthy_some; exact Ev|discriminate]. }
    clear Hp. destruct (put_variant g b a blocked (v_when v) None None []) as [g1 o]. destruct o as [u|e]; cbn [andthen]; [|exact Hp'].
    unfold symmetry_not_when. rewrite Enw. cbn [negb]. rewrite andb_false_r. destruct u. exact Hp'.
  - assert (Hp : outcome g0 (isym g0 gs) g (replace_variant g b r0 (v_when v) None)
      (fun g' => has_target (lg_rep g') b a /\ forall u, mapping (lg_rep g') b a u -> vkey u <> (a, None, None))).
    { apply (replace_reverse g0 gs g a b chb r0); auto.
      + intro Hp. destruct (Hrefs Hp) as [R1 R2]. auto.
      + intros _. split; [apply truthy_some; exact Ev|discriminate].
      + left. apply truthy_none. exact Ev. }
    rewrite Erev at 1. destruct (replace_variant g b r0 (v_when v) None) as [g1 o]. destruct Hp as [P1 [P2 P3]]. cbn [fst snd] in *.
    destruct o as [u|e]; cbn [andthen]; [|split; [exact P1|split; [exact P2|exact P3]]].
    destruct P3 as [P3 [P4 [P5 P6]]]. eapply outcome_seq; [exact P4|].
    unfold symmetry_not_when. fold b. destruct (truthy (v_not_when v)) eqn:Ev2; cbn [andb]; [|apply outcome_here; [intros x Hx; apply Hx|exact P3|exact P5]].
    rewrite Enw, Ew. cbn [negb]. rewrite Erev.
    assert (Hnp : ~ populatable g0).
    { intro Hp. destruct (Hctx Hp) as [H|H]; [rewrite H in Ev|rewrite H in Ev2]; discriminate. }
    destruct (lk (lg_rep g1) b) as [ch1|] eqn:Eb1; [|exfalso; eapply keeps_lk in Eb1; [contradiction|exact P2|congruence]].
    eapply outcome_weak; [|apply (replace_reverse g0 gs g1 a b ch1 r0); auto].
    + intros g' _ _ [H _]. exact H.
    + apply (kept_target g0 g g1); [exact P4|exact Ht].
    + intros Hn w Hw Hkw. exfalso. apply (P6 w); [|exact Hkw]. apply mapping_lk. exists ch1. split; [exact Eb1|]. split; [exact Hw|]. unfold vkey in Hkw. congruence.
    + intro; contradiction.
    + intros _. split; [discriminate|apply truthy_some; exact Ev2].
    + right. apply truthy_none. exact Ev2.
Qed.

(** ** One mapping of the transitivity pass *)
Definition itrans (g0 gs g : lgr) : Prop := inv g0 g /\ closed g /\ kept g0 gs g.

Lemma transitivity_targets_spec : forall g0 gs a b cs g, itrans g0 gs g -> has_target (lg_rep g) a b ->
  (forall c, In c cs -> has_target (lg_rep g) b (v_cp c) /\ v_cp c <> a) ->
  outcome g0 (itrans g0 gs) g (transitivity_targets g a cs) (fun g' => forall c, In c cs -> has_target (lg_rep g') a (v_cp c)).
Proof.
  intros g0 gs a b cs. induction cs as [|c cs IH]; intros g HT Hab Hcs; cbn [transitivity_targets].
  - apply outcome_here; [intros x Hx; apply Hx|exact HT|intros c []].
  - destruct (source_lk _ _ _ Hab) as [cha Ha]. assert (Hane : a <> []) by (intro H; subst a; discriminate).
    pose proof HT as [HI [Hcl Hks]]. pose proof (i_re _ _ HI) as Hre.
    rewrite get_char_lk by exact Hane. rewrite Ha.
    destruct (Hcs c (or_introl eq_refl)) as [Hbc Hca].
    destruct (memb cps_eqb (v_cp c) (map v_cp (get_variants cha))) eqn:Em.
    + apply (memb_In _ _ cps_eqb_eq), in_map_iff in Em. destruct Em as [u [U1 U2]].
      assert (Hac : has_target (lg_rep g) a (v_cp c)) by (exists u; apply mapping_lk; exists cha; auto).
      eapply outcome_weak; [|apply (IH g HT Hab)].
      * intros g' Hg' Hk Hq d [Hd|Hd]; [subst d; eapply kept_target; eauto|auto].
      * intros d Hd. apply Hcs. right. exact Hd.
    + apply (memb_false _ _ cps_eqb_eq) in Em.
      pose proof (target_accepted g b (v_cp c) Hre Hbc) as Hcc.
      pose proof (put_variant_spec g a cha (v_cp c) blocked None None None [] Hre Ha Hcc) as Hp.
      destruct (put_variant g a (v_cp c) blocked None None None []) as [g1 o]. destruct Hp as [Hre1 Hp].
      destruct Hp as [[Ho [_ [ch' [Hu [Hse Hv]]]]]|[e [Ho [Hg [He Hbad]]]]].
      * subst o. cbn [andthen].
        destruct (inv_put g0 g g1 a cha ch' (mkVariant (v_cp c) blocked None None None []) HI Hre1 Ha Hu Hse Hv) as [HI1 [Hk1 [Hnew Hbound]]].
        -- cbn [v_cp]. right. split; [congruence|]. eapply linked_trans; [apply (inv_linked _ _ _ _ HI Hab)|apply (inv_linked _ _ _ _ HI Hbc)].
        -- right. unfold plain_blocked, blocked. cbn. auto.
        -- intro Hp. cbn [v_cp v_when v_not_when v_refs]. split; [|split; [auto|split; [constructor|intros x []]]].
           intros x Hx. destruct (i_good _ _ HI Hp) as [P1 _]. apply (P1 b (v_cp c) x Hbc). rewrite lookup_lk. exact Hx.
        -- intros _. cbn. split; discriminate.
        -- cbn [v_cp] in Hnew, Hbound. eapply outcome_seq; [exact Hk1|]. eapply outcome_weak; [|apply (IH g1)].
           ++ intros g' Hg' Hk Hq d [Hd|Hd]; [subst d; eapply kept_target; eauto|auto].
           ++ split; [exact HI1|]. split; [|eapply kept_trans; eauto]. intros x y Hxy. destruct (Hbound x y Hxy) as [H|[H1 H2]].
              ** eapply keeps_lk; [apply Hk1|]. apply (Hcl x). exact H.
              ** subst y. eapply keeps_lk; [apply Hk1|]. apply (Hcl b). exact Hbc.
           ++ eapply kept_target; eauto.
           ++ intros d Hd. destruct (Hcs d (or_intror Hd)) as [H1 H2]. split; [eapply kept_target; eauto|exact H2].
      * subst o g1. cbn [andthen]. split; [exact HI|]. split; [apply keeps_refl|]. cbn [fst snd]. split; [exact He|]. intro Hp.
        destruct Hbad as [H|[[H1 H2]|[H|[[x [[] _]]|H]]]].
        -- rewrite (source_not_range g a b cha Hre Hab Ha) in H. discriminate.
        -- apply H1. reflexivity.
        -- apply H. constructor.
        -- apply in_map_iff in H. destruct H as [u [U1 U2]]. apply Em. apply in_map_iff. exists u. unfold vkey in U1. split; [congruence|exact U2].
Qed.

Definition post_trans (gs g : lgr) (a b : cps) : Prop := forall c, has_target (lg_rep gs) b c -> c <> a -> has_target (lg_rep g) a c.
Lemma transitivity_step_spec : forall g0 gs g a v, itrans g0 gs g -> has_target (lg_rep g) a (v_cp v) -> (populatable g0 -> one_context v) ->
  (neat g0 -> visible v) ->
  outcome g0 (itrans g0 gs) g (transitivity_step g a v) (fun g' => post_trans gs g' a (v_cp v)).
Proof.
  intros g0 gs g a v HT Hab _ _. set (b := v_cp v) in *. pose proof HT as [HI [Hcl Hks]]. pose proof (i_re _ _ HI) as Hre.
  unfold transitivity_step. fold b. destruct (lk (lg_rep g) b) as [chb|] eqn:Eb; [|exfalso; apply (Hcl _ _ Hab); exact Eb].
  rewrite (get_variants_present g Hre b chb Eb).
  eapply outcome_weak; [|apply (transitivity_targets_spec g0 gs a b _ g HT Hab)].
  - intros g' Hg' Hk Hq c Hbc Hca. pose proof (kept_target _ _ _ _ _ Hks Hbc) as [u Hu]. apply mapping_lk in Hu. destruct Hu as [x [H1 [H2 H3]]].
    rewrite Eb in H1. injection H1 as H1. subst x c. apply Hq. apply filter_In. split; [exact H2|]. apply negb_true_iff. apply cps_eqb_neq. exact Hca.
  - intros c Hc. apply filter_In in Hc. destruct Hc as [H1 H2]. apply negb_true_iff in H2. apply cps_eqb_neq in H2. split; [|exact H2].
    exists c. apply mapping_lk. exists chb. auto.
Qed.

(** ** The passes *)
Lemma isym_start : forall g0 g, inv g0 g -> closed g -> isym g0 g g.
Proof. intros g0 g H1 H2. split; [exact H1|]. split; [exact H2|]. split; [apply kept_refl|auto]. Qed.

Lemma add_symmetry_spec : forall g0 g, inv g0 g -> closed g ->
  outcome g0 (fun g' => inv g0 g' /\ closed g') g (add_symmetry g)
    (fun g' => (forall a b, has_target (lg_rep g) a b -> has_target (lg_rep g') b a) /\
               (forall a b, has_target (lg_rep g') a b -> has_target (lg_rep g) a b \/ has_target (lg_rep g) b a)).
Proof.
  intros g0 g HI Hc.
  pose proof (each_mapping_spec g0 (isym g0 g) (fun g' a b => has_target (lg_rep g') b a) symmetry_step) as H.
  specialize (H (fun x Hx => proj1 Hx)).
  specialize (H (fun x x' a b H1 H2 => kept_target g0 x x' b a H2 H1)).
  specialize (H (symmetry_step_spec g0 g) g (isym_start g0 g HI Hc)).
  unfold add_symmetry. destruct (each_mapping symmetry_step g) as [g' o]. destruct H as [H1 [H2 H3]]. cbn [fst snd] in *.
  split; [exact H1|]. split; [exact H2|]. cbn [fst snd]. destruct o as [u|e]; [|exact H3].
  destruct H3 as [[S1 [S2 [S3 S4]]] [H4 H5]]. split; [auto|]. split; [exact H4|]. split; [exact H5|exact S4].
Qed.
Lemma add_transitivity_spec : forall g0 g, inv g0 g -> closed g ->
  outcome g0 (fun g' => inv g0 g' /\ closed g') g (add_transitivity g)
    (fun g' => forall a b c, has_target (lg_rep g) a b -> has_target (lg_rep g) b c -> c <> a -> has_target (lg_rep g') a c).
Proof.
  intros g0 g HI Hc.
  pose proof (each_mapping_spec g0 (itrans g0 g) (post_trans g) transitivity_step) as H.
  specialize (H (fun x Hx => proj1 Hx)).
  specialize (H (fun x x' a b H1 H2 c H3 H4 => kept_target g0 x x' a c H2 (H1 c H3 H4))).
  specialize (H (transitivity_step_spec g0 g) g (conj HI (conj Hc (kept_refl g0 g)))).
  unfold add_transitivity. destruct (each_mapping transitivity_step g) as [g' o]. destruct H as [H1 [H2 H3]]. cbn [fst snd] in *.
  split; [exact H1|]. split; [exact H2|]. cbn [fst snd]. destruct o as [u|e]; [|exact H3].
  destruct H3 as [[S1 [S2 S3]] [H4 H5]]. split; [auto|]. split; [exact H4|].
  intros a b c Hab Hbc Hca. apply (H5 a b Hab c Hbc Hca).
Qed.

Lemma phase1_spec : forall g, lgr_reachable g ->
  exists g1, each_mapping add_missing g = (g1, Ok tt) /\ inv g g1 /\ closed g1 /\ kept g g g1 \/
  (exists e, each_mapping add_missing g = (g1, Raise e) /\ inv g g1 /\ is_lgr_exception e = true /\ ~ populatable g).
Proof.
  intros g Hre.
  pose proof (each_mapping_spec g (inv1 g) post_missing add_missing) as H.
  specialize (H (fun x Hx => proj1 Hx)).
  specialize (H (post_missing_kept g)).
  specialize (H (add_missing_step g) g).
  destruct (each_mapping add_missing g) as [g1 o]. exists g1.
  destruct H as [H1 [H2 H3]]; [split; [apply inv_start; exact Hre|auto]|]. cbn [fst snd] in *. destruct o as [u|e].
  - left. destruct u. split; [reflexivity|]. split; [exact H1|]. destruct H3 as [[_ Hb] [H4 H5]]. split; [|exact H4].
    intros a b Hab. destruct (Hb a b Hab) as [H|H]; [apply (H5 a b H)|exact H].
  - right. exists e. split; [reflexivity|]. split; [exact H1|exact H3].
Qed.
