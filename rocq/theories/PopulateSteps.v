From Verif Require Import Base BaseFacts CharModel RepSpec RepProofs VariantProofs IterProofs VarSetSpec VarSetProofs.
From Verif Require Import RefModel LgrModel LgrSpec LgrProofs LgrReach LgrInv LgrRefs Rfc7940Model.
From Verif Require Import ValidateModel ValidateSpec ValidateProofs PopulateModel PopulateSpec PopulateProofs.
Open Scope string_scope.
Open Scope list_scope.

(** ** Links *)
Lemma linked_trans : forall r a b c, linked r a b -> linked r b c -> linked r a c.
Proof. intros r a b c H. induction H as [a|a x b H1 H2 IH|a x b H1 H2 IH]; intro H; [exact H|eapply linked_forth|eapply linked_back]; eauto. Qed.
Lemma linked_sym : forall r a b, linked r a b -> linked r b a.
Proof.
  intros r a b H. induction H as [a|a x b H1 H2 IH|a x b H1 H2 IH]; [constructor| |].
  - eapply linked_trans; [exact IH|]. eapply linked_back; [exact H1|constructor].
  - eapply linked_trans; [exact IH|]. eapply linked_forth; [exact H1|constructor].
Qed.
Lemma target_linked : forall r a b, has_target r a b -> linked r a b.
Proof. intros r a b H. eapply linked_forth; [exact H|constructor]. Qed.
Lemma target_source : forall r a b, has_target r a b -> lookup r a <> None.
Proof. intros r a b [v [ch [H _]]]. congruence. Qed.
Lemma linked_mentioned : forall r a b, linked r a b -> mentioned r a -> mentioned r b.
Proof.
  intros r a b H. induction H as [a|a x b H1 H2 IH|a x b H1 H2 IH]; intro H; [exact H| |]; apply IH.
  - right. exists a. exact H1.
  - left. eapply target_source. exact H1.
Qed.
Lemma inv_linked : forall g0 g a b, inv g0 g -> has_target (lg_rep g) a b -> linked (lg_rep g0) a b.
Proof. intros g0 g a b HI H. destruct (i_tgt _ _ HI a b H) as [H1|[_ H1]]; [apply target_linked; exact H1|exact H1]. Qed.
Lemma source_lk : forall r a b, has_target r a b -> exists ch, lk r a = Some ch.
Proof. intros r a b [v H]. apply mapping_lk in H. destruct H as [ch [H _]]. eauto. Qed.
Lemma inv_mentioned : forall g0 g a, inv g0 g -> lk (lg_rep g) a <> None -> mentioned (lg_rep g0) a.
Proof.
  intros g0 g a HI H. destruct (lk (lg_rep g) a) as [ch|] eqn:E; [|congruence]. destruct (lk (lg_rep g0) a) as [c0|] eqn:E0.
  - left. rewrite lookup_lk. congruence.
  - apply (i_new _ _ HI a ch E E0).
Qed.
Lemma target_accepted : forall g a b, lgr_reachable g -> has_target (lg_rep g) a b -> check_convert g b = Ok b.
Proof.
  intros g a b Hre [v H]. apply mapping_lk in H. destruct H as [ch [H1 [H2 H3]]]. subst b. eapply target_convert; eauto.
Qed.
Lemma entry_accepted : forall g a, lgr_reachable g -> lk (lg_rep g) a <> None -> check_convert g a = Ok a.
Proof. intros g a Hre H. apply accepting_convert; [apply reachable_accepting; exact Hre| |exact H]. intro E. subst. apply H. reflexivity. Qed.
Lemma source_not_range : forall g a b ch, lgr_reachable g -> has_target (lg_rep g) a b -> lk (lg_rep g) a = Some ch -> is_range ch = false.
Proof.
  intros g a b ch Hre [v H] Hl. apply mapping_lk in H. destruct H as [x [H1 [H2 H3]]]. rewrite Hl in H1. injection H1 as H1. subst x.
  destruct (is_range ch) eqn:E; [|reflexivity]. rewrite (range_get_variants ch) in H2; [contradiction| |exact E].
  eapply lk_wf; [apply (lgr_reachable_wf g Hre)|exact Hl].
Qed.
Lemma get_variants_absent : forall g b, check_convert g b = Ok b -> lk (lg_rep g) b = None -> lgr_get_variants g b = Raise (NotInLGR b).
Proof.
  intros g b Hc H. unfold lgr_get_variants. rewrite Hc. cbn [bind]. unfold rep_get_variants. 
  rewrite get_char_lk by (apply (check_convert_id g b b Hc)). rewrite H. reflexivity.
Qed.

(** ** Missing code points *)
Lemma add_bare_spec : forall g b, lgr_reachable g -> check_convert g b = Ok b -> lk (lg_rep g) b = None ->
  exists g', lgr_add_cp g b None [] [] None None None false false = (g', Ok tt) /\ lgr_reachable g' /\ same_rest g g' /\
    forall x, lk (lg_rep g') x = if cps_eqb x b then Some (bare b) else lk (lg_rep g) x.
Proof.
  intros g b Hre Hc Hl. pose proof (check_convert_id g b b Hc) as [_ Hne].
  pose proof (lgr_reachable_step g (LAddCp b None [] [] None None None false false) Hre) as Hre'. unfold lgr_step in Hre'.
  unfold lgr_add_cp in *. rewrite Hc in *. cbn [negb andb is_some check_validating collect_refs] in *.
  assert (Hd : has_dup [] = false) by reflexivity. rewrite !Hd in *. cbn [andb] in *.
  assert (Hz : (Nat.ltb 1 (length b) && Nat.ltb 0 (length (@nil string)) && true)%bool = false) by (rewrite andb_false_r; reflexivity).
  rewrite Hz in *. rewrite rep_add_char_lk in * by exact Hne. rewrite Hl in *.
  eexists. split; [reflexivity|]. cbn [fst] in Hre'. split; [exact Hre'|]. split.
  - unfold same_rest, add_cp_to_tag_classes, set_tags, set_rep, ins. cbn. destruct b; [congruence|]. auto.
  - intro x. cbn [add_cp_to_tag_classes set_tags set_rep lg_rep]. rewrite lk_ins; [reflexivity|exact Hne|exact Hl].
Qed.

Lemma inv_bare : forall g0 g g' b, inv g0 g -> lgr_reachable g' -> same_rest g g' -> lk (lg_rep g) b = None -> mentioned (lg_rep g0) b -> b <> [] ->
  (forall x, lk (lg_rep g') x = if cps_eqb x b then Some (bare b) else lk (lg_rep g) x) ->
  inv g0 g' /\ kept g0 g g' /\ (forall a c w, mapping (lg_rep g') a c w <-> mapping (lg_rep g) a c w).
Proof.
  intros g0 g g' b HI Hre Hs Hl Hm Hne Hx.
  assert (Hother : forall x ch, lk (lg_rep g) x = Some ch -> lk (lg_rep g') x = Some ch).
  { intros x ch H. rewrite Hx. destruct (cps_eqb x b) eqn:E; [|exact H]. apply cps_eqb_eq in E. congruence. }
  assert (Hmap : forall a c w, mapping (lg_rep g') a c w <-> mapping (lg_rep g) a c w).
  { intros a c w. rewrite !mapping_lk. split.
    - intros [ch [H1 H2]]. rewrite Hx in H1. destruct (cps_eqb a b); [|eauto]. injection H1 as H1. subst ch. destruct H2 as [[] _].
    - intros [ch [H1 H2]]. exists ch. split; [auto|exact H2]. }
  assert (Hk : keeps g g').
  { split; [exact Hs|]. intros a ch H. exists ch. split; [auto|apply same_entry_refl]. }
  assert (Ht : forall a c, has_target (lg_rep g') a c <-> has_target (lg_rep g) a c).
  { intros a c. split; intros [w H]; exists w; apply Hmap; exact H. }
  split; [|split; [|exact Hmap]].
  - constructor; auto.
    + eapply keeps_trans; [apply HI|exact Hk].
    + intros a ch H H0. rewrite Hx in H. destruct (cps_eqb a b) eqn:E; [|apply (i_new _ _ HI a ch H H0)].
      apply cps_eqb_eq in E. subst a. injection H as H. subst ch. split; [apply same_entry_refl|exact Hm].
    + intros a c H. apply (i_tgt _ _ HI). apply Ht. exact H.
    + intros a c w H. apply (i_var _ _ HI). apply Hmap. exact H.
    + intro Hp. destruct (i_good _ _ HI Hp) as [P1 P2]. split.
      * intros a c x H H1. apply Ht in H. rewrite lookup_lk, Hx in H1. destruct (cps_eqb c b).
        -- injection H1 as H1. subst x. unfold bare, is_range, kind_of. cbn. destruct b as [|y [|z t]]; reflexivity.
        -- eapply P1; [exact H|]. rewrite lookup_lk. exact H1.
      * intros a c v H. apply Hmap in H. destruct (P2 _ _ _ H) as [R1 [R2 R3]]. split; [exact R1|]. split; [exact R2|].
        intros y Hy. apply (defined_same g g' y Hs). auto.
    + intros Hp a c v H. apply Hmap in H. apply (i_neat _ _ HI Hp _ _ _ H).
  - split; [exact Hk|]. split; [intros; apply Ht; auto|]. intros _ a c v H. exists v. split; [apply Hmap; exact H|]. split; [apply alike_refl|auto].
Qed.

Section Steps.
  Variable g0 : lgr.

  Definition post_missing (g : lgr) (a b : cps) : Prop := lk (lg_rep g) b <> None.
  Definition inv1 (g : lgr) : Prop :=
    inv g0 g /\ forall a b, has_target (lg_rep g) a b -> has_target (lg_rep g0) a b \/ lk (lg_rep g) b <> None.
  Lemma add_missing_step : forall g a v, inv1 g -> has_target (lg_rep g) a (v_cp v) -> (populatable g0 -> one_context v) -> (neat g0 -> visible v) ->
    outcome g0 inv1 g (add_missing g a v) (fun g' => post_missing g' a (v_cp v)).
  Proof.
    intros g a v [HI Hb0] Ht _ _. set (b := v_cp v) in *. pose proof (i_re _ _ HI) as Hre. unfold add_missing. fold b.
    pose proof (target_accepted g a b Hre Ht) as Hcb. destruct (source_lk _ _ _ Ht) as [cha Ha].
    destruct (lk (lg_rep g) b) as [chb|] eqn:Eb.
    - rewrite (get_variants_present g Hre b chb Eb). apply outcome_here; [intros x Hx; apply Hx|split; [exact HI|exact Hb0]|]. unfold post_missing. congruence.
    - rewrite (get_variants_absent g b Hcb Eb).
      assert (Hab : b <> a) by congruence.
      pose proof (check_convert_id g b b Hcb) as [_ Hne].
      assert (Hment : mentioned (lg_rep g0) b).
      { eapply linked_mentioned; [apply (inv_linked _ _ _ _ HI Ht)|]. eapply inv_mentioned; [exact HI|]. congruence. }
      destruct (add_bare_spec g b Hre Hcb Eb) as [g1 [E1 [Hre1 [Hs1 Hx1]]]]. rewrite E1. cbn [andthen].
      destruct (inv_bare g0 g g1 b HI Hre1 Hs1 Eb Hment Hne Hx1) as [HI1 [Hk1 Hm1]].
      assert (Hb1 : lk (lg_rep g1) b = Some (bare b)) by (rewrite Hx1, cps_eqb_refl; reflexivity).
      assert (Ha1 : lk (lg_rep g1) a = Some cha) by (rewrite Hx1, (proj2 (cps_eqb_neq a b)) by congruence; exact Ha).
      assert (Hca1 : check_convert g1 a = Ok a) by (apply entry_accepted; [exact Hre1|congruence]).
      pose proof (put_variant_spec g1 b (bare b) a blocked None None None [] Hre1 Hb1 Hca1) as Hp.
      destruct (put_variant g1 b a blocked None None None []) as [g2 o]. destruct Hp as [Hre2 Hp].
      eapply outcome_seq; [exact Hk1|].
      destruct Hp as [[Ho [_ [ch' [Hu [Hse Hv]]]]]|[e [_ [_ [_ Hbad]]]]].
      + subst o. 
        destruct (inv_put g0 g1 g2 b (bare b) ch' (mkVariant a blocked None None None []) HI1 Hre2 Hb1 Hu Hse Hv) as [HI2 [Hk2 [_ Hup]]].
        * right. split; [exact Hab|]. cbn [v_cp]. apply linked_sym. apply (inv_linked _ _ _ _ HI Ht).
        * right. unfold plain_blocked, blocked. cbn. auto.
        * intros Hpop. cbn [v_cp v_when v_not_when v_refs]. split; [|split; [auto|split; [constructor|intros x []]]].
          intros x Hx. rewrite Ha1 in Hx. injection Hx as Hx. subst x. apply (source_not_range g a b cha Hre Ht Ha).
        * intros _. cbn. split; discriminate.
        * split; [exact HI2|]. split; [apply Hk2|]. cbn [fst snd]. split; [split; [exact HI2|]|].
          { intros x y Hxy. destruct (Hup x y Hxy) as [H|[_ H]].
            - destruct H as [w H]. apply Hm1 in H. destruct (Hb0 x y (target_of _ _ _ _ H)) as [H1|H1]; [auto|]. right.
              eapply keeps_lk; [apply Hk2|]. eapply keeps_lk; [apply Hk1|exact H1].
            - right. subst y. cbn [v_cp]. eapply keeps_lk; [apply Hk2|]. congruence. }
          split; [exact Hk2|].
          unfold post_missing. rewrite (updated_lk_c _ _ _ _ Hu). discriminate.
      + exfalso. destruct Hbad as [H|[[H _]|[H|[[x [[] _]]|[]]]]].
        * unfold bare, is_range, kind_of in H. cbn in H. destruct b as [|y [|z t]]; discriminate.
        * apply H. reflexivity.
        * apply H. constructor.
  Qed.
  Lemma post_missing_kept : forall g g' a b, post_missing g a b -> kept g0 g g' -> post_missing g' a b.
  Proof. intros g g' a b H [Hk _]. eapply keeps_lk; eauto. Qed.

  Definition closed (g : lgr) : Prop := forall a b, has_target (lg_rep g) a b -> lk (lg_rep g) b <> None.
  (** ** Symmetry *)
  Variable gs : lgr.
  Definition isym (g : lgr) : Prop :=
    inv g0 g /\ closed g /\ kept g0 gs g /\
    forall a b, has_target (lg_rep g) a b -> has_target (lg_rep gs) a b \/ has_target (lg_rep gs) b a.
  Definition may_have (b a : cps) (r : variant) : Prop :=
    (exists v, mapping (lg_rep g0) b a v /\ alike v r) \/ plain_blocked r.
  Definition nonblank (s : option string) : Prop := s <> Some "".

  Lemma reverse_allowed : forall g a b, inv g0 g -> has_target (lg_rep g) a b ->
    has_target (lg_rep g0) b a \/ (b <> a /\ linked (lg_rep g0) b a).
  Proof.
    intros g a b HI Ht. destruct (cps_eq_dec b a) as [E|E].
    - subst b. destruct (i_tgt _ _ HI a a Ht) as [H|[H _]]; [auto|congruence].
    - right. split; [exact E|]. apply linked_sym. eapply inv_linked; eauto.
  Qed.

  Lemma isym_put : forall g a b chb nv g', isym g -> has_target (lg_rep g) a b -> lk (lg_rep g) b = Some chb -> v_cp nv = a ->
    forall g1 ch1 ch', inv g0 g1 -> keeps g g1 -> lk (lg_rep g1) b = Some ch1 ->
    (forall x y w, mapping (lg_rep g1) x y w -> mapping (lg_rep g) x y w) ->
    (forall x y w, mapping (lg_rep g) x y w -> mapping (lg_rep g1) x y w \/ (x = b /\ vkey w = (a, None, None) /\ (neat g0 -> alike w nv))) ->
    lgr_reachable g' -> updated g1 g' b ch' -> same_entry ch1 ch' ->
    (forall u, In u (get_variants ch') <-> u = nv \/ In u (get_variants ch1)) ->
    may_have b a nv ->
    (populatable g0 -> one_context nv /\ NoDup (v_refs nv) /\ forall x, In x (v_refs nv) -> defined_ref g x) ->
    (neat g0 -> nonblank (v_when nv) /\ nonblank (v_not_when nv)) ->
    inv g0 g' /\ keeps g g' /\ isym g' /\ kept g0 g g' /\ has_target (lg_rep g') b a /\
    (forall w, mapping (lg_rep g') b a w -> w = nv \/ mapping (lg_rep g1) b a w).
  Proof.
    intros g a b chb nv g' [HI [Hc [Hks Hup]]] Ht Hb Hnv g1 ch1 ch' HI1 Hk1 Hb1 Hm1 Hm2 Hre' Hu Hse Hv Hmay Hpop Hneat.
    assert (Ha : lk (lg_rep g) a <> None) by (destruct (source_lk _ _ _ Ht) as [cha Ha]; congruence).
    destruct (inv_put g0 g1 g' b ch1 ch' nv HI1 Hre' Hb1 Hu Hse Hv) as [HI' [Hk' [Hnew Hbound]]].
    - rewrite Hnv. apply (reverse_allowed g a b HI Ht).
    - rewrite Hnv. exact Hmay.
    - intro Hp. destruct (Hpop Hp) as [P1 [P2 P3]]. split; [|split; [exact P1|split; [exact P2|]]].
      + rewrite Hnv. intros x Hx. destruct (lk (lg_rep g) a) as [cha|] eqn:Ea; [|congruence].
        destruct (proj2 Hk1 a cha Ea) as [y [Hy1 Hy2]]. rewrite Hx in Hy1. injection Hy1 as Hy1. subst y.
        rewrite (same_entry_range _ _ Hy2). apply (source_not_range g a b cha (i_re _ _ HI) Ht Ea).
      + intros x Hx. apply (defined_same g g1 x); [apply Hk1|]. auto.
    - exact Hneat.
    - rewrite Hnv in Hnew, Hbound.
      assert (Hkk : keeps g g') by (eapply keeps_trans; [exact Hk1|apply Hk']).
      assert (Htgt : forall x y, has_target (lg_rep g) x y -> has_target (lg_rep g') x y).
      { intros x y [w H]. destruct (Hm2 x y w H) as [H1|[H1 [H2 _]]].
        - apply (kept_target g0 g1 g' x y Hk'). exists w. exact H1.
        - subst x. assert (y = a); [|subst y; exact Hnew]. destruct H as [c [_ [_ H]]]. unfold vkey in H2. congruence. }
      assert (Hkept : kept g0 g g').
      { split; [exact Hkk|]. split; [exact Htgt|]. intros Hn x y w H. destruct (Hm2 x y w H) as [H1|[H1 [H2 H3]]].
        - destruct Hk' as [_ [_ Hk']]. apply (Hk' Hn). exact H1.
        - exists nv. subst x. assert (y = a) by (destruct H as [c [_ [_ H]]]; unfold vkey in H2; congruence). subst y. split.
          + apply (updated_mapping _ _ _ _ _ _ _ Hu). left. split; [reflexivity|]. split; [apply Hv; auto|exact Hnv].
          + split; [apply (H3 Hn)|]. right. unfold vkey in H2. split; congruence. }
      split; [exact HI'|]. split; [exact Hkk|]. split.
      { split; [exact HI'|]. split; [|split].
        - intros x y Hxy. destruct (Hbound x y Hxy) as [[w H]|[H1 H2]].
          + eapply keeps_lk; [exact Hkk|]. apply (Hc x). exists w. apply Hm1. exact H.
          + subst. eapply keeps_lk; [exact Hkk|exact Ha].
        - eapply kept_trans; eauto.
        - intros x y Hxy. destruct (Hbound x y Hxy) as [[w H]|[H1 H2]].
          + apply Hup. exists w. apply Hm1. exact H.
          + subst x y. destruct (Hup _ _ Ht); auto. }
      split; [exact Hkept|]. split; [exact Hnew|].
      intros w Hw. apply (updated_mapping _ _ _ _ _ _ _ Hu) in Hw. destruct Hw as [[_ [H1 H2]]|[H1 _]]; [|congruence].
      apply Hv in H1. destruct H1 as [H1|H1]; [auto|]. right. apply mapping_lk. exists ch1. auto.
  Qed.

  Lemma put_reverse : forall g a b chb w nw, isym g -> has_target (lg_rep g) a b -> lk (lg_rep g) b = Some chb ->
    (populatable g0 -> (w = None \/ nw = None) /\ ~ In (a, w, nw) (map vkey (get_variants chb))) ->
    (neat g0 -> nonblank w /\ nonblank nw) ->
    outcome g0 isym g (put_variant g b a blocked w nw None []) (fun g' => has_target (lg_rep g') b a).
  Proof.
    intros g a b chb w nw HS Ht Hb Hpop Hneat. pose proof HS as [HI [Hc [Hks Hup]]]. pose proof (i_re _ _ HI) as Hre.
    destruct (source_lk _ _ _ Ht) as [cha Ha].
    assert (Hca : check_convert g a = Ok a) by (apply entry_accepted; [exact Hre|congruence]).
    pose proof (put_variant_spec g b chb a blocked w nw None [] Hre Hb Hca) as Hp.
    destruct (put_variant g b a blocked w nw None []) as [g' o]. destruct Hp as [Hre' Hp].
    destruct Hp as [[Ho [_ [ch' [Hu [Hse Hv]]]]]|[e [Ho [Hg [He Hbad]]]]].
    - subst o. destruct (isym_put g a b chb (mkVariant a blocked w nw None []) g' HS Ht Hb eq_refl g chb ch' HI (keeps_refl g) Hb) as [R1 [R2 [R3 [R4 [R5 _]]]]]; auto.
      + right. unfold plain_blocked, blocked. cbn. auto.
      + intro H. split; [exact (proj1 (Hpop H))|]. cbn. split; [constructor|intros x []].
      + split; [exact R1|]. split; [exact R2|]. cbn [fst snd]. auto.
    - subst o g'. split; [exact HI|]. split; [apply keeps_refl|]. cbn [fst snd]. split; [exact He|]. intro Hp. destruct (Hpop Hp) as [Q1 Q2].
      destruct Hbad as [H|[[H1 H2]|[H|[[x [[] _]]|H]]]].
      + destruct (i_good _ _ HI Hp) as [P1 _]. assert (is_range chb = false); [|congruence]. apply (P1 a b chb Ht). rewrite lookup_lk. exact Hb.
      + destruct Q1; congruence.
      + apply H. constructor.
      + exact (Q2 H).
  Qed.

  Lemma replace_reverse : forall g a b chb r w nw, isym g -> has_target (lg_rep g) a b -> lk (lg_rep g) b = Some chb ->
    v_cp r = a -> may_have b a r ->
    (neat g0 -> forall u, In u (get_variants chb) -> vkey u = (a, None, None) -> alike u r) ->
    (populatable g0 -> NoDup (v_refs r) /\ (forall x, In x (v_refs r) -> defined_ref g x) /\
       (w = None \/ nw = None) /\ ~ In (a, w, nw) (map vkey (get_variants chb))) ->
    (neat g0 -> nonblank w /\ nonblank nw) ->
    (w <> None \/ nw <> None) ->
    outcome g0 isym g (replace_variant g b r w nw)
      (fun g' => has_target (lg_rep g') b a /\ forall u, mapping (lg_rep g') b a u -> vkey u <> (a, None, None)).
  Proof.
    intros g a b chb r w nw HS Ht Hb Hr Hmay Hal Hpop Hneat Hctx. pose proof HS as [HI [Hc [Hks Hup]]]. pose proof (i_re _ _ HI) as Hre.
    destruct (source_lk _ _ _ Ht) as [cha Ha].
    assert (Hane : a <> []) by (intro; subst a; rewrite H in Ha; discriminate).
    unfold replace_variant. rewrite Hr.
    pose proof (del_variant_spec g b chb a Hre Hb Hane) as Hd.
    destruct (lgr_del_variant g b a None None) as [g1 o1]. destruct Hd as [Hre1 Hd].
    destruct Hd as [[_ [bb [Ho [ch1 [Hu1 [Hse1 Hv1]]]]]]|[e [Ho [Hg [He Hrng]]]]].
    - subst o1. destruct (inv_del g0 g g1 b chb ch1 a HI Hre1 Hb Hu1 Hse1 Hv1) as [HI1 [Hk1 [Hm1 Hm2]]].
      pose proof (updated_lk_c _ _ _ _ Hu1) as Hb1.
      assert (Hca : check_convert g1 a = Ok a).
      { apply entry_accepted; [exact Hre1|]. eapply keeps_lk; [exact Hk1|]. congruence. }
      pose proof (put_variant_spec g1 b ch1 a (v_type r) w nw (v_comment r) (v_refs r) Hre1 Hb1 Hca) as Hp.
      destruct (put_variant g1 b a (v_type r) w nw (v_comment r) (v_refs r)) as [g' o]. destruct Hp as [Hre' Hp].
      set (nv := mkVariant a (v_type r) w nw (v_comment r) (v_refs r)) in *.
      destruct Hp as [[Ho [_ [ch' [Hu [Hse Hv]]]]]|[e [Ho [Hg [He Hbad]]]]].
      + subst o. destruct (isym_put g a b chb nv g' HS Ht Hb eq_refl g1 ch1 ch' HI1 Hk1 Hb1 Hm1) as [R1 [R2 [R3 [R4 [R5 R6]]]]]; auto.
        * intros x y u Hu0. destruct (Hm2 x y u Hu0) as [H|[H1 H2]]; [auto|]. right. subst x. split; [reflexivity|]. split; [exact H2|].
          intro Hn. assert (Hal' : alike u r); [|exact Hal']. apply (Hal Hn); [|exact H2].
          apply mapping_lk in Hu0. destruct Hu0 as [c [C1 [C2 _]]]. rewrite Hb in C1. injection C1 as C1. subst c. exact C2.
        * intro H. destruct (Hpop H) as [Q1 [Q2 [Q3 Q4]]]. auto.
        * split; [exact R1|]. split; [exact R2|]. cbn [fst snd]. split; [exact R3|]. split; [exact R4|]. split; [exact R5|].
          intros u Hu0. destruct (R6 u Hu0) as [H|H].
          -- subst u. unfold nv, vkey. cbn. destruct Hctx; congruence.
          -- apply mapping_lk in H. destruct H as [c [C1 [C2 _]]]. rewrite Hb1 in C1. injection C1 as C1. subst c. apply Hv1 in C2. tauto.
      + subst o g'. split; [exact HI1|]. split; [exact Hk1|]. cbn [fst snd]. split; [exact He|]. intro Hp. destruct (Hpop Hp) as [Q1 [Q2 [Q3 Q4]]].
        destruct Hbad as [H|[[H1 H2]|[H|[[x [Hx1 Hx2]]|H]]]].
        * destruct (i_good _ _ HI Hp) as [P1 _]. rewrite (same_entry_range _ _ Hse1) in H. assert (is_range chb = false); [|congruence].
          apply (P1 a b chb Ht). rewrite lookup_lk. exact Hb.
        * destruct Q3; congruence.
        * exact (H Q1).
        * apply Hx2. apply (defined_same g g1 x); [apply Hk1|]. auto.
        * apply Q4. apply in_map_iff in H. destruct H as [u [E1 E2]]. rewrite <- E1. apply in_map. apply Hv1 in E2. tauto.
    - subst o1 g1. split; [exact HI|]. split; [apply keeps_refl|]. cbn [fst snd]. split; [exact He|]. intro Hp.
      destruct (i_good _ _ HI Hp) as [P1 _]. assert (is_range chb = false); [|congruence]. apply (P1 a b chb Ht). rewrite lookup_lk. exact Hb.
  Qed.

  Lemma last_rule_truthy : forall get l, truthy (last_rule get l) = existsb (fun r => truthy (get r)) l.
  Proof.
    intros get l. unfold last_rule.
    assert (H : forall l acc, truthy (fold_left (fun acc r => if truthy (get r) then get r else acc) l acc) = truthy acc || existsb (fun r => truthy (get r)) l).
    { clear l. induction l as [|r l IH]; intro acc; cbn [fold_left existsb]; [rewrite orb_false_r; reflexivity|]. rewrite IH.
      destruct (truthy (get r)) eqn:E; [rewrite E, orb_true_r; reflexivity|]. reflexivity. }
    rewrite H. reflexivity.
  Qed.
  Lemma last_rule_none : forall get l r, truthy (last_rule get l) = false -> In r l -> truthy (get r) = false.
  Proof.
    intros get l r H Hr. rewrite last_rule_truthy in H. destruct (truthy (get r)) eqn:E; [|reflexivity].
    assert (existsb (fun r => truthy (get r)) l = true); [|congruence]. apply existsb_exists. eauto.
  Qed.
  Lemma truthy_some : forall s, truthy s = true -> s <> None /\ nonblank s.
  Proof. intros [s|] H; [|discriminate]. split; [discriminate|]. intro E. injection E as E. subst s. discriminate. Qed.
  Lemma falsy_nonblank : forall s, truthy s = false -> nonblank s -> s = None.
  Proof. intros [[|c s]|] H1 H2; [exfalso; apply H2; reflexivity|discriminate|reflexivity]. Qed.
End Steps.
