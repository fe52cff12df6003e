(** What the review says on the symmetry and transitivity of a variant set. *)
From Coq Require Import Lia.
From Verif Require Import Base BaseFacts CharModel RepSpec RepProofs VarSetProofs ActionModel LgrModel LgrSpec LgrProofs LgrReach CompareModel.
From Verif Require Import ValidateModel ValidateSpec ValidateProofs PopulateModel PopulateSpec PopulateProofs ReviewModel WholeModel WholeSpec.
Open Scope list_scope.

(** An LGR with the entries [D] and the targets [T], without rules. *)
Record copied (g : lgr) (D : cps -> Prop) (T : cps -> cps -> Prop) : Prop := mkCopied {
  cy_reach : lgr_reachable g; cy_db : lg_db g = None;
  cy_dom : forall x, lookup (lg_rep g) x <> None <-> D x;
  cy_plain : forall x ch, lk (lg_rep g) x = Some ch -> is_range ch = false;
  cy_targets : forall a b, has_target (lg_rep g) a b <-> T a b;
  cy_rules : forall a b v, mapping (lg_rep g) a b v -> v_when v = None /\ v_not_when v = None }.
Lemma convert_free : forall g c, lg_db g = None -> c <> [] -> check_convert g c = Ok c.
Proof. intros g [|x c] H Hc; [contradiction|]. unfold check_convert, check_convert_with. rewrite H. reflexivity. Qed.
Lemma copied_start : copied (new_lgr None false) (fun _ => False) (fun _ _ => False).
Proof.
  constructor.
  - exists None, false, []. reflexivity.
  - reflexivity.
  - intros x. rewrite lookup_lk. split; [|intros []]. intros H. apply H. destruct x; reflexivity.
  - intros x ch H. destruct x; discriminate H.
  - intros a b. split; [|intros []]. intros (v & ch & H & _). rewrite lookup_lk in H. destruct a; discriminate H.
  - intros a b v (ch & H & _). rewrite lookup_lk in H. destruct a; discriminate H.
Qed.
Lemma copied_add : forall g D T c, copied g D T -> c <> [] -> ~ D c ->
  exists g', lgr_add_cp g c None [] [] None None None false false = (g', Ok tt) /\ copied g' (fun x => D x \/ x = c) T.
Proof.
  intros g D T c H Hc Hn. destruct (add_cp_spec g c None [] [] None None None false false) as (r & F & K).
  pose proof (lgr_reachable_step g (LAddCp c None [] [] None None None false false) (cy_reach _ _ _ H)) as Hre. cbn [lgr_step] in Hre.
  destruct (lgr_add_cp g c None [] [] None None None false false) as [g' o] eqn:E. cbn [fst] in Hre.
  assert (R : r = None).
  { unfold add_cp_checks in F. cbn [first_failing] in F.
    destruct F as [[e [[A _] _]]|[_ F]]; [contradiction|]. destruct F as [[e [[_ [y [Y _]]] _]]|[_ F]].
    { exfalso. destruct Y as [? [? [_ [Y _]]]]. unfold idna_invalid in Y. rewrite (cy_db _ _ _ H) in Y. destruct Y as (d & Y & _). discriminate Y. }
    destruct F as [[e [[_ [A _]] _]]|[_ F]]; [contradiction|]. destruct F as [[e [[v [y [A _]]] _]]|[_ F]]; [discriminate|].
    destruct F as [[e [[_ [y [[a [b [A _]]] _]]] _]]|[_ F]]; [destruct a; discriminate|]. destruct F as [[e [[_ [A _]] _]]|[_ F]]; [exfalso; apply A; constructor|].
    destruct F as [[e [[_ [_ [A _]]] _]]|[_ F]]; [contradiction|]. destruct F as [[e [[_ [A _]] _]]|[_ F]]; [exfalso; apply A; constructor|].
    destruct F as [[e [[A _] _]]|[_ F]]; [|exact F]. exfalso. apply Hn, (cy_dom _ _ _ H). exact A. }
  subst r. destruct K as (-> & K1 & K2 & _ & K4 & _). exists g'. split; [reflexivity|].
  assert (Nk : lookup (lg_rep g) c = None) by (destruct (lookup (lg_rep g) c) eqn:E'; [|reflexivity]; exfalso; apply Hn, (cy_dom _ _ _ H); congruence).
  assert (M : forall a b v, mapping (lg_rep g') a b v <-> mapping (lg_rep g) a b v).
  { intros a b v. unfold mapping. destruct (list_eq_dec N.eq_dec a c) as [-> | Ha]; [|rewrite (K2 a Ha); tauto].
    rewrite K1, Nk. split; intros (ch & L & Hv & _); [injection L as <-; destruct Hv | discriminate L]. }
  constructor.
  - exact Hre.
  - rewrite K4. apply (cy_db _ _ _ H).
  - intros x. destruct (list_eq_dec N.eq_dec x c) as [-> | Hx]; [rewrite K1; split; [auto | intros _; discriminate]|].
    rewrite (K2 x Hx), (cy_dom _ _ _ H). tauto.
  - intros x ch L. destruct (list_eq_dec N.eq_dec x c) as [-> | Hx].
    + rewrite <- lookup_lk, K1 in L. injection L as <-. unfold is_range. cbn. destruct c as [|? [|? ?]]; reflexivity.
    + rewrite <- lookup_lk, (K2 x Hx), lookup_lk in L. exact (cy_plain _ _ _ H _ _ L).
  - intros a b. rewrite <- (cy_targets _ _ _ H). unfold has_target. setoid_rewrite M. tauto.
  - intros a b v Hv. apply M in Hv. exact (cy_rules _ _ _ H _ _ _ Hv).
Qed.
Lemma copied_variant : forall g D T c b, copied g D T -> D c -> b <> [] ->
  exists g' o, lgr_add_variant g c b None None None None [] None false false = (g', o) /\
    (o = Ok tt \/ exists x y, o = Raise (VariantAlreadyExists x y)) /\ copied g' D (fun x y => T x y \/ (x = c /\ y = b)).
Proof.
  intros g D T c b H Hc Hb. pose proof (proj2 (cy_dom _ _ _ H c) Hc) as L. rewrite lookup_lk in L.
  destruct (lk (lg_rep g) c) as [ch|] eqn:E; [clear L | contradiction].
  pose proof (put_variant_spec g c ch b None None None None [] (cy_reach _ _ _ H) E (convert_free g b (cy_db _ _ _ H) Hb)) as P.
  assert (Hcn : c <> []) by (intros ->; discriminate E). pose proof (cy_plain _ _ _ H _ _ E) as Pl.
  unfold put_variant in P. destruct (lgr_add_variant g c b None None None None [] None false false) as [g' o] eqn:Ea. exists g', o. split; [reflexivity|].
  destruct P as (Hre & [(-> & _ & ch' & [(Rd & _) U] & Se & V) | (e & -> & -> & _ & W)]).
  - split; [left; reflexivity|].
    assert (M : forall x y v, mapping (lg_rep g') x y v <-> mapping (lg_rep g) x y v \/ (x = c /\ y = b /\ v = mkVariant b None None None None [])).
    { intros x y v. rewrite !mapping_lk, U. destruct (cps_eqb x c) eqn:Ex.
      - apply cps_eqb_eq in Ex. subst x. split.
        + intros (z & Ez & Hz & Cz). injection Ez as <-. apply V in Hz. destruct Hz as [-> | Hz]; [right; cbn in Cz; auto | left; exists ch; auto].
        + intros [(z & Ez & Hz & Cz) | (_ & -> & ->)]; [rewrite E in Ez; injection Ez as <-; exists ch'; split; [reflexivity|]; split; [apply V; right; exact Hz | exact Cz]|].
          exists ch'. split; [reflexivity|]. split; [apply V; left; reflexivity | reflexivity].
      - apply cps_eqb_neq in Ex. split; [intros Q; left; exact Q | intros [Q | (Q & _)]; [exact Q | contradiction]]. }
    constructor.
    + exact Hre.
    + rewrite Rd. apply (cy_db _ _ _ H).
    + intros x. rewrite lookup_lk, U. destruct (cps_eqb x c) eqn:Ex; [apply cps_eqb_eq in Ex; subst x; split; [auto | intros _; discriminate]|].
      rewrite <- lookup_lk. apply (cy_dom _ _ _ H).
    + intros x z L. rewrite U in L. destruct (cps_eqb x c); [injection L as <-; rewrite (same_entry_range _ _ Se); exact Pl | exact (cy_plain _ _ _ H _ _ L)].
    + intros x y. rewrite <- (cy_targets _ _ _ H). unfold has_target. split.
      * intros (v & Hv). apply M in Hv. destruct Hv as [Hv | (-> & -> & _)]; [left; exists v; exact Hv | right; auto].
      * intros [(v & Hv) | (-> & ->)]; [exists v; apply M; left; exact Hv | eexists; apply M; right; split; [reflexivity|]; split; reflexivity].
    + intros x y v Hv. apply M in Hv. destruct Hv as [Hv | (_ & _ & ->)]; [exact (cy_rules _ _ _ H _ _ _ Hv) | split; reflexivity].
  - assert (Ex : In (b, None, None) (map vkey (get_variants ch))).
    { destruct W as [W | [[W _] | [W | [(x & [] & _) | W]]]]; [congruence | contradiction | exfalso; apply W; constructor | exact W]. }
    split.
    + right. unfold lgr_add_variant in Ea. rewrite (convert_free g c (cy_db _ _ _ H) Hcn), (convert_free g b (cy_db _ _ _ H) Hb) in Ea. cbn [bind negb is_some andb check_validating collect_refs has_dup] in Ea.
      unfold rep_add_variant in Ea. rewrite get_char_lk in Ea by exact Hcn. rewrite E in Ea. unfold char_add_variant in Ea. rewrite Pl in Ea. cbn [v_cp] in Ea.
      destruct b as [|b0 b]; [contradiction|]. destruct (dget cps_eqb (b0 :: b) (ch_variants ch)) as [vs|]; [destruct (memb variant_eqb _ vs)|]; cbn in Ea; try discriminate Ea.
      injection Ea as _ <-. eauto.
    + assert (T' : has_target (lg_rep g) c b).
      { apply in_map_iff in Ex. destruct Ex as (v & Kv & Hv). exists v. apply mapping_lk. exists ch. unfold vkey in Kv. injection Kv as <- _ _. auto. }
      destruct H as [h1 h2 h3 h4 h5 h6]. constructor; auto. intros x y. rewrite h5. split; [auto|]. intros [Q | (-> & ->)]; [exact Q | apply h5; exact T'].
Qed.
Lemma copied_ext : forall g D T D' T', copied g D T -> (forall x, D x <-> D' x) -> (forall x y, T x y <-> T' x y) -> copied g D' T'.
Proof. intros g D T D' T' [h1 h2 h3 h4 h5 h6] Hd Ht. constructor; auto; [intros x; rewrite <- Hd; apply h3 | intros a b; rewrite <- Ht; apply h5]. Qed.
Lemma copied_variants : forall vs g D T c, copied g D T -> D c -> (forall v, In v vs -> v_cp v <> []) ->
  exists g', copy_variants g c vs = Ok g' /\ copied g' D (fun x y => T x y \/ (x = c /\ exists v, In v vs /\ v_cp v = y)).
Proof.
  induction vs as [|v vs IH]; intros g D T c H Hc Hv; cbn [copy_variants].
  - exists g. split; [reflexivity|]. eapply copied_ext; [exact H | tauto|]. intros x y. split; [auto|]. intros [Q | (_ & v & [] & _)]. exact Q.
  - destruct (copied_variant g D T c (v_cp v) H Hc (Hv v (or_introl eq_refl))) as (g' & o & -> & Ho & H').
    destruct (IH g' D _ c H' Hc (fun w Hw => Hv w (or_intror Hw))) as (g2 & E & H2).
    exists g2. split; [destruct Ho as [-> | (x & y & ->)]; exact E|]. eapply copied_ext; [exact H2 | tauto|]. intros x y. cbn beta. split.
    + intros [[Q | (-> & ->)] | (-> & w & Hw & <-)]; [left; exact Q | right; split; [reflexivity|]; exists v; split; [left; reflexivity | reflexivity] | right; split; [reflexivity|]; exists w; split; [right; exact Hw | reflexivity]].
    + intros [Q | (-> & w & [-> | Hw] & <-)]; [left; left; exact Q | left; right; auto | right; split; [reflexivity|]; exists w; auto].
Qed.
Lemma copied_set : forall s g D T r, copied g D T -> wf_rep r -> NoDup s -> (forall c, In c s -> c <> [] /\ ~ D c) ->
  exists o, copy_set g r s = Ok o /\
    match o with
    | None => exists c, In c s /\ lookup r c = None
    | Some g' => (forall c, In c s -> lookup r c <> None) /\ copied g' (fun x => D x \/ In x s) (fun x y => T x y \/ (In x s /\ has_target r x y))
    end.
Proof.
  induction s as [|c s IH]; intros g D T r H Wr Hnd Hs; cbn [copy_set].
  - exists (Some g). split; [reflexivity|]. split; [intros ? []|]. eapply copied_ext; [exact H | intros x; cbn [In]; tauto | intros x y; cbn [In]; tauto].
  - apply NoDup_cons_iff in Hnd. destruct Hnd as [Hc Hnd]. destruct (Hs c (or_introl eq_refl)) as [Nc Dc].
    destruct (copied_add g D T c H Nc Dc) as (g1 & -> & H1). rewrite get_char_lk by exact Nc. destruct (lk r c) as [ch|] eqn:L.
    + destruct (copied_variants (get_variants ch) g1 _ T c H1 (or_intror eq_refl)) as (g2 & -> & H2).
      { intros v Hv. apply (variant_cp_nonempty ch); [apply (lk_wf _ _ _ Wr L) | exact Hv]. }
      cbn [bind]. destruct (IH g2 _ _ r H2 Wr Hnd) as (o & E & Ho).
      { intros x Hx. split; [exact (proj1 (Hs x (or_intror Hx)))|]. intros [Q | ->]; [exact (proj2 (Hs x (or_intror Hx)) Q) | contradiction]. }
      exists o. split; [exact E|]. destruct o as [g'|].
      * destruct Ho as (Hk & Hg). split; [intros x [<- | Hx]; [rewrite lookup_lk; congruence | exact (Hk x Hx)]|].
        eapply copied_ext; [exact Hg | intros x; cbn; intuition congruence|]. intros x y. cbn beta.
        assert (Q : (exists v, In v (get_variants ch) /\ v_cp v = y) <-> has_target r c y).
        { unfold has_target. setoid_rewrite mapping_lk. split; [intros (v & Hv & Cv); exists v, ch; auto | intros (v & ch' & L' & Hv & Cv)].
          rewrite L in L'. injection L' as <-. exists v. auto. }
        split.
        -- intros [[Q1 | (-> & Q1)] | (Q1 & Q2)]; [left; exact Q1 | right; split; [left; reflexivity | apply Q; exact Q1] | right; split; [right; exact Q1 | exact Q2]].
        -- intros [Q1 | ([-> | Q1] & Q2)]; [left; left; exact Q1 | left; right; split; [reflexivity | apply Q; exact Q2] | right; auto].
      * destruct Ho as (x & Hx & Lx). exists x. split; [right; exact Hx | exact Lx].
    + exists None. split; [reflexivity|]. exists c. split; [left; reflexivity | rewrite lookup_lk; exact L].
Qed.
(** The two answers, for a set without repetitions. *)
Theorem checks_say : forall r s, wf_rep r -> NoDup s -> s <> [] -> (forall c, In c s -> c <> []) ->
  exists x y, set_checks r s = Ok (Some (x, y)) /\
    (x = true <-> (forall c, In c s -> lookup r c <> None) /\ set_symmetric r s) /\
    (y = true <-> (forall c, In c s -> lookup r c <> None) /\ set_transitive r s).
Proof.
  intros r s Wr Hnd Hs Hne. unfold set_checks. destruct s as [|c0 s0] eqn:Es; [contradiction|]. rewrite <- Es in *. clear Es c0 s0 Hs.
  destruct (copied_set s (new_lgr None false) _ _ r copied_start Wr Hnd (fun c Hc => conj (Hne c Hc) (fun F => F))) as (o & -> & Ho). cbn [bind].
  destruct o as [g|].
  - destruct Ho as (Hk & H). pose proof (cy_reach _ _ _ H) as Re.
    destruct (check_symmetry_issues g Re false) as (rs & ok & issues & Ec & _). destruct (check_transitivity_spec g Re) as (rs' & ok' & issues' & Et & Ht & _).
    rewrite Ec, Et. cbn [bind snd fst]. exists ok, ok'. split; [reflexivity|].
    assert (D : forall x, lookup (lg_rep g) x <> None <-> In x s) by (intros x; rewrite (cy_dom _ _ _ H); tauto).
    assert (T : forall a b, has_target (lg_rep g) a b <-> In a s /\ has_target r a b) by (intros a b; rewrite (cy_targets _ _ _ H); tauto).
    split.
    + pose proof (check_symmetry_decides_rules g Re) as Q. assert (Q' : ok = true <-> symmetric (lg_rep g) /\ rules_mirrored (lg_rep g)).
      { rewrite <- Q. split; [intros ->; exists rs, issues; exact Ec | intros (rs2 & is2 & E2); rewrite Ec in E2; injection E2 as _ -> _; reflexivity]. }
      rewrite Q'. split.
      * intros (Sy & _). split; [exact Hk|]. intros a b Ha Ht'. destruct (Sy a b (proj2 (T a b) (conj Ha Ht'))) as (Hb & Hba). split; [apply D; exact Hb | apply T; exact Hba].
      * intros (_ & Sy). split.
        -- intros a b Hab. apply T in Hab. destruct Hab as [Ha Hab]. destruct (Sy a b Ha Hab) as (Hb & Hba). split; [apply D; exact Hb | apply T; auto].
        -- intros a b v Hv. destruct (cy_rules _ _ _ H _ _ _ Hv) as (-> & ->). split; intros X; discriminate X.
    + rewrite Ht. split.
      * intros Tr. split; [exact Hk|]. intros a b Ha Hab. destruct (Tr a b (proj2 (T a b) (conj Ha Hab))) as (Hb & Hc). apply D in Hb. split; [exact Hb|].
        intros c Hbc Hca. apply (T a c), Hc; [apply T; auto | exact Hca].
      * intros (_ & Tr) a b Hab. apply T in Hab. destruct Hab as [Ha Hab]. destruct (Tr a b Ha Hab) as (Hb & Hc). split; [apply D; exact Hb|].
        intros c Hbc Hca. apply T in Hbc. apply T. split; [exact Ha | exact (Hc c (proj2 Hbc) Hca)].
  - destruct Ho as (c & Hc & L). exists false, false. split; [reflexivity|]. split; (split; [intros X; discriminate X | intros (Q & _); exfalso; exact (Q c Hc L)]).
Qed.
