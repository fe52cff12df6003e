(** The rows of the report on variants cover all variants of both LGRs. *)
From Coq Require Import Permutation Lia.
From Verif Require Import Base BaseFacts CharModel RepSpec RepProofs VariantProofs VarSetSpec VarSetProofs ActionModel LgrModel CompareModel CompareProofs.
From Verif Require Import ValidateSpec ValidateProofs ReviewModel ReviewSpec ReviewRepertoire ReviewSets ReviewVariants ReviewSelf ReviewPairing ReviewWitness WholeModel WholeSpec.
Open Scope list_scope.

(** ** Sets of variants *)
Definition distinct (l : list variant) : Prop := NoDup (map vkey l).
Lemma vset_add_In : forall l v x, In x (vset_add l v) -> In x l \/ x = v.
Proof. intros l v x. unfold vset_add. destruct (memb variant_eqb v l); [auto|]. rewrite in_app_iff. intros [H | [-> | []]]; auto. Qed.
Lemma vset_add_distinct : forall l v, distinct l -> distinct (vset_add l v).
Proof.
  intros l v H. unfold vset_add. destruct (memb variant_eqb v l) eqn:E; [exact H|]. unfold distinct. rewrite map_app. cbn [map].
  apply (Permutation_NoDup (l := vkey v :: map vkey l)); [apply Permutation_cons_append|]. constructor; [|exact H].
  intros Hin. apply memb_vkey in Hin. congruence.
Qed.
Lemma vset_fold_In : forall rev l x, In x (fold_left vset_add rev l) -> In x l \/ In x rev.
Proof.
  induction rev as [|v rev IH]; intros l x H; [left; exact H|]. cbn [fold_left] in H. apply IH in H. destruct H as [H | H]; [|right; right; exact H].
  apply vset_add_In in H. destruct H as [H | ->]; [left; exact H | right; left; reflexivity].
Qed.
Lemma vset_fold_distinct : forall rev l, distinct l -> distinct (fold_left vset_add rev l).
Proof. induction rev as [|v rev IH]; intros l H; [exact H|]. apply IH, vset_add_distinct, H. Qed.
Lemma vset_fold_nonempty : forall rev l, l <> [] \/ rev <> [] -> fold_left vset_add rev l <> [].
Proof.
  induction rev as [|v rev IH]; intros l H; [destruct H as [H | H]; [exact H | contradiction]|]. cbn [fold_left]. apply IH. left. apply vset_add_nonempty.
Qed.
Lemma single_of : forall l v, distinct l -> l <> [] -> (forall x, In x l -> x = v) -> l = [v].
Proof.
  intros [|a [|b l]] v Hd Hn H; [contradiction | rewrite (H a (or_introl eq_refl)); reflexivity|].
  exfalso. apply NoDup_cons_iff in Hd. destruct Hd as [Hd _]. apply Hd. left.
  rewrite (H a (or_introl eq_refl)), (H b (or_intror (or_introl eq_refl))). reflexivity.
Qed.

(** ** The data of a code point *)
Lemma get_variant_In : forall r c k ch v, wf_rep r -> lk r k = Some ch ->
  (In v (match get_variant ch c with Some l => l | None => [] end) <-> mapping r k c v).
Proof.
  intros r c k ch v Hr L. pose proof (lk_wf _ _ _ Hr L) as Hw. rewrite mapping_lk. unfold get_variant. split.
  - intros H. destruct (dget cps_eqb c (ch_variants ch)) as [l|] eqn:E; [|destruct H]. apply (dget_In _ cps_eqb_eq) in E.
    destruct Hw as [[_ Hv] _]. pose proof (proj1 (proj2 (proj2 (Hv _ _ E))) v H) as Hc. exists ch. split; [exact L|]. split; [|exact Hc].
    apply get_variants_In; [apply (lk_wf _ _ _ Hr L)|]. exists l. rewrite Hc. auto.
  - intros (ch' & L' & H & Hc). rewrite L in L'. injection L' as <-. apply get_variants_In in H; [|exact Hw]. destruct H as (l & Hl & Hin). rewrite Hc in Hl.
    rewrite (In_dget _ cps_eqb_eq _ _ _ (proj1 (proj1 Hw)) Hl). exact Hin.
Qed.
(** What the data at [k] holds, after a part of the variants of [c]. *)
Record told (r : repertoire) (c k : cps) (x : vdata) : Prop := mkTold {
  td_fwd : vd_fwd x <> []; td_fwd_in : forall v, In v (vd_fwd x) -> mapping r c k v; td_fwd_once : distinct (vd_fwd x);
  td_rev : has_target r k c -> vd_rev x <> []; td_rev_in : forall v, In v (vd_rev x) -> mapping r k c v; td_rev_once : distinct (vd_rev x) }.
Definition all_told (r : repertoire) (c : cps) (d : dict cps vdata) : Prop := forall k x, dget cps_eqb k d = Some x -> told r c k x.
Lemma dget_key : forall {V} k (d : dict cps V), In k (dkeys d) <-> exists x, dget cps_eqb k d = Some x.
Proof.
  intros V k d. split.
  - intros H. destruct (dget cps_eqb k d) as [x|] eqn:E; [exists x; reflexivity|]. exfalso. apply (dget_None _ cps_eqb_eq _ _) in E. exact (E H).
  - intros (x & E). apply (dget_In _ cps_eqb_eq) in E. apply in_map_iff. exists (k, x). auto.
Qed.
Lemma seen_of_dset : forall seen k l x, seen_of (dset cps_eqb k l seen) x = if cps_eqb x k then l else seen_of seen x.
Proof. intros seen k l x. unfold seen_of. rewrite (dget_dset _ cps_eqb_eq). destruct (cps_eqb x k); reflexivity. Qed.

Lemma variant_data_told : forall r c vs seen d seen' d', wf_rep r -> c <> [] ->
  (forall v, In v vs -> v_cp v <> [] /\ mapping r c (v_cp v) v) -> all_told r c d ->
  variant_data r c vs seen d = Ok (seen', d') ->
  all_told r c d' /\ (forall k, In k (dkeys d) -> In k (dkeys d')) /\
  (forall x y, In y (seen_of seen x) -> In y (seen_of seen' x)) /\
  (forall x y, In y (seen_of seen' x) -> In y (seen_of seen x) \/ (y = c /\ In x (dkeys d'))) /\
  (forall v, In v vs -> In (v_cp v) (seen_of seen' c) \/ In (v_cp v) (dkeys d')).
Proof.
  intros r c vs. induction vs as [|v vs IH]; intros seen d seen' d' Hr Hc Hv Hd E.
  - cbn [variant_data] in E. injection E as <- <-. split; [exact Hd|]. split; [auto|]. split; [auto|]. split; [auto|]. intros ? [].
  - assert (Hv' : forall w, In w vs -> v_cp w <> [] /\ mapping r c (v_cp w) w) by (intros w Hw; apply Hv; right; exact Hw).
    destruct (Hv v (or_introl eq_refl)) as [Nv Mv]. cbn [variant_data] in E.
    destruct (memb cps_eqb (v_cp v) (seen_of seen c)) eqn:M.
    + destruct (IH _ _ _ _ Hr Hc Hv' Hd E) as (A & B & C & D & F). split; [exact A|]. split; [exact B|]. split; [exact C|]. split; [exact D|].
      intros w [<- | Hw]; [|apply F; exact Hw]. left. apply C. apply (memb_In _ _ cps_eqb_eq _ _). exact M.
    + cbv zeta in E.
      assert (T : forall b l, (forall w, In w l <-> mapping r (v_cp v) c w) ->
        all_told r c (dset cps_eqb (v_cp v) (vdata_add (match dget cps_eqb (v_cp v) d with Some x => x | None => mkVdata [] [] b end) v l) d)).
      { intros b l Hl k x H. rewrite (dget_dset _ cps_eqb_eq) in H. destruct (cps_eqb k (v_cp v)) eqn:Ek; [|exact (Hd _ _ H)].
        apply cps_eqb_eq in Ek. subst k. injection H as <-.
        set (o := match dget cps_eqb (v_cp v) d with Some x => x | None => mkVdata [] [] b end).
        assert (O : (forall w, In w (vd_fwd o) -> mapping r c (v_cp v) w) /\ distinct (vd_fwd o) /\ (forall w, In w (vd_rev o) -> mapping r (v_cp v) c w) /\ distinct (vd_rev o)).
        { unfold o. destruct (dget cps_eqb (v_cp v) d) as [y|] eqn:Ey.
          - destruct (Hd _ _ Ey) as [t1 t2 t3 t4 t5 t6]. auto.
          - cbn. split; [intros ? []|]. split; [constructor|]. split; [intros ? [] | constructor]. }
        destruct O as (O1 & O2 & O3 & O4). unfold vdata_add. constructor; cbn [vd_fwd vd_rev].
        - apply vset_add_nonempty.
        - intros w Hw. apply vset_add_In in Hw. destruct Hw as [Hw | ->]; [exact (O1 _ Hw) | exact Mv].
        - apply vset_add_distinct, O2.
        - intros (w & Hw). apply vset_fold_nonempty. right. apply Hl in Hw. destruct l; [destruct Hw | discriminate].
        - intros w Hw. apply vset_fold_In in Hw. destruct Hw as [Hw | Hw]; [exact (O3 _ Hw) | apply Hl; exact Hw].
        - apply vset_fold_distinct, O4. }
      assert (K : forall b l x, In x (dkeys (dset cps_eqb (v_cp v) (vdata_add (match dget cps_eqb (v_cp v) d with Some x => x | None => mkVdata [] [] b end) v l) d)) <-> x = v_cp v \/ In x (dkeys d)).
      { intros b l x. rewrite !dget_key. setoid_rewrite (dget_dset _ cps_eqb_eq). destruct (cps_eqb x (v_cp v)) eqn:Ex.
        - apply cps_eqb_eq in Ex. split; [left; exact Ex | intros _; eexists; reflexivity].
        - apply cps_eqb_neq in Ex. tauto. }
      unfold rep_get_variant in E. rewrite get_char_lk in E by exact Nv. destruct (lk r (v_cp v)) as [ch|] eqn:L; cbn [bind] in E.
      * assert (Hl : forall w, In w (match get_variant ch c with Some l => l | None => [] end) <-> mapping r (v_cp v) c w) by (intros w; apply get_variant_In; assumption).
        destruct (IH _ _ _ _ Hr Hc Hv' (T true _ Hl) E) as (A & B & C & D & F).
        assert (Kv : In (v_cp v) (dkeys d')) by (apply B, K; left; reflexivity).
        split; [exact A|]. split; [intros k Hk; apply B, K; right; exact Hk|]. split; [|split].
        -- intros x y Hy. apply C. rewrite seen_of_dset. destruct (cps_eqb x (v_cp v)) eqn:Ex; [|exact Hy]. apply cps_eqb_eq in Ex. subst x. apply in_or_app. left. exact Hy.
        -- intros x y Hy. apply D in Hy. destruct Hy as [Hy | Hy]; [|right; exact Hy]. rewrite seen_of_dset in Hy. destruct (cps_eqb x (v_cp v)) eqn:Ex; [|left; exact Hy].
           apply cps_eqb_eq in Ex. subst x. apply in_app_or in Hy. destruct Hy as [Hy | [<- | []]]; [left; exact Hy | right; auto].
        -- intros w [<- | Hw]; [right; exact Kv | apply F; exact Hw].
      * assert (Hl : forall w, In w (@nil variant) <-> mapping r (v_cp v) c w).
        { intros w. split; [intros []|]. rewrite mapping_lk. intros (ch & L' & _). congruence. }
        destruct (IH _ _ _ _ Hr Hc Hv' (T false _ Hl) E) as (A & B & C & D & F).
        assert (Kv : In (v_cp v) (dkeys d')) by (apply B, K; left; reflexivity).
        split; [exact A|]. split; [intros k Hk; apply B, K; right; exact Hk|]. split; [exact C|]. split; [exact D|].
        intros w [<- | Hw]; [right; exact Kv | apply F; exact Hw].
Qed.
Lemma char_data_told : forall r c seen seen' d', wf_rep r -> c <> [] -> char_data r c seen = Ok (seen', d') ->
  all_told r c d' /\ (forall x y, In y (seen_of seen x) -> In y (seen_of seen' x)) /\
  (forall x y, In y (seen_of seen' x) -> In y (seen_of seen x) \/ (y = c /\ In x (dkeys d'))) /\
  (forall b, has_target r c b -> In b (seen_of seen' c) \/ In b (dkeys d')).
Proof.
  intros r c seen seen' d' Hr Hc E. unfold char_data in E. rewrite get_char_lk in E by exact Hc. destruct (lk r c) as [ch|] eqn:L.
  - destruct (variant_data_told r c (get_variants ch) seen [] seen' d' Hr Hc) as (A & _ & C & D & F); [| |exact E|].
    + intros v Hv. split; [apply (variant_cp_nonempty ch); [apply (lk_wf _ _ _ Hr L) | exact Hv]|]. apply mapping_lk. exists ch. auto.
    + intros k x H. discriminate H.
    + split; [exact A|]. split; [exact C|]. split; [exact D|]. intros b (v & Hv). apply mapping_lk in Hv. destruct Hv as (ch' & L' & Hv & <-).
      rewrite L in L'. injection L' as <-. apply F. exact Hv.
  - injection E as <- <-. split; [intros k x H; discriminate H|]. split; [auto|]. split; [auto|]. intros b (v & Hv). apply mapping_lk in Hv. destruct Hv as (ch' & L' & _). congruence.
Qed.

(** ** The rows *)
Section Cover.
  Variable order : list variant -> list variant.
  Variable oc : list cps -> list cps.
  Hypothesis Hoc : any_order oc.
  (** The data behind a row. *)
  Definition told_or_none (r : repertoire) (c k : cps) (x : vdata) : Prop := told r c k x \/ x = no_data.
  Definition backed (im rm : bool) (ir rr : repertoire) (x : vrow) : Prop :=
    exists i r, told_or_none ir (vr_src x) (vr_dst x) i /\ told_or_none rr (vr_src x) (vr_dst x) r /\
      variant_row order (vr_src x) (vr_dst x) i r im rm ir = Ok x.
  Lemma rows_at_backed : forall c ks i r im rm ir rr l, all_told ir c i -> all_told rr c r -> rows_at order c ks i r im rm ir = Ok l ->
    (forall x, In x l -> backed im rm ir rr x) /\ map vr_dst l = ks /\ (forall x, In x l -> vr_src x = c).
  Proof.
    intros c ks i r im rm ir rr. induction ks as [|k ks IH]; intros l Hi Hr E.
    - cbn [rows_at] in E. injection E as <-. split; [intros ? []|]. split; [reflexivity | intros ? []].
    - cbn [rows_at] in E. destruct (variant_row_ok order c k (data_at i k) (data_at r k) im rm ir) as (x & Ex & Sx & Dx). rewrite Ex in E. cbn [bind] in E.
      destruct (rows_at order c ks i r im rm ir) as [l'|e] eqn:El; [|discriminate E]. cbn [bind] in E. injection E as <-.
      destruct (IH l' Hi Hr eq_refl) as (A & B & C). split; [|split].
      + intros y [<- | Hy]; [|exact (A y Hy)]. exists (data_at i k), (data_at r k). rewrite Sx, Dx. split; [|split; [|exact Ex]]; unfold data_at, told_or_none.
        * destruct (dget cps_eqb k i) as [z|] eqn:Ez; [left; exact (Hi _ _ Ez) | right; reflexivity].
        * destruct (dget cps_eqb k r) as [z|] eqn:Ez; [left; exact (Hr _ _ Ez) | right; reflexivity].
      + cbn [map]. rewrite B, Dx. reflexivity.
      + intros y [<- | Hy]; [exact Sx | exact (C y Hy)].
  Qed.
  Definition row_for (a b : cps) (l : list vrow) : Prop := exists x, In x l /\ vr_src x = a /\ vr_dst x = b.
  Lemma set_rows_cover : forall cs im rm ir rr s1 s2 l, wf_rep ir -> wf_rep rr -> (forall c, In c cs -> c <> []) ->
    set_rows order oc cs im rm ir rr s1 s2 = Ok l ->
    (forall x, In x l -> backed im rm ir rr x) /\
    (forall c b, In c cs -> has_target ir c b -> In b (seen_of s1 c) \/ row_for c b l \/ row_for b c l) /\
    (forall c b, In c cs -> has_target rr c b -> In b (seen_of s2 c) \/ row_for c b l \/ row_for b c l).
  Proof.
    induction cs as [|c cs IH]; intros im rm ir rr s1 s2 l Hi Hr Hc E.
    - cbn [set_rows] in E. injection E as <-. split; [intros ? []|]. split; intros ? ? [].
    - assert (Nc : c <> []) by (apply Hc; left; reflexivity). cbn [set_rows] in E.
      destruct (char_data ir c s1) as [[s1' i]|e] eqn:Ei; [|discriminate E]. cbn [bind] in E.
      destruct (char_data rr c s2) as [[s2' r]|e] eqn:Er; [|discriminate E]. cbn [bind fst snd] in E.
      destruct (rows_at order c (oc (set_union cps_eqb (dkeys i) (dkeys r))) i r im rm ir) as [l1|e] eqn:E1; [|discriminate E]. cbn [bind] in E.
      destruct (set_rows order oc cs im rm ir rr s1' s2') as [l2|e] eqn:E2; [|discriminate E]. cbn [bind] in E. injection E as <-.
      destruct (char_data_told ir c s1 s1' i Hi Nc Ei) as (Ai & _ & Di & Fi). destruct (char_data_told rr c s2 s2' r Hr Nc Er) as (Ar & _ & Dr & Fr).
      destruct (rows_at_backed _ _ _ _ _ _ _ _ _ Ai Ar E1) as (B1 & K1 & S1).
      destruct (IH im rm ir rr s1' s2' l2 Hi Hr (fun x Hx => Hc x (or_intror Hx)) E2) as (B2 & I2 & R2).
      assert (Kr : forall k, In k (dkeys i) \/ In k (dkeys r) -> row_for c k (l1 ++ l2)).
      { intros k Hk. assert (Hin : In k (map vr_dst l1)).
        { rewrite K1. apply (Permutation_in _ (Permutation_sym (Hoc _))). apply (set_union_In _ cps_eqb_eq). exact Hk. }
        apply in_map_iff in Hin. destruct Hin as (x & Hx & Hin). exists x. split; [apply in_or_app; left; exact Hin|]. split; [exact (S1 _ Hin) | exact Hx]. }
      assert (Up : forall a b, row_for a b l2 -> row_for a b (l1 ++ l2)).
      { intros a b (x & Hx & P). exists x. split; [apply in_or_app; right; exact Hx | exact P]. }
      split; [intros x Hx; apply in_app_or in Hx; destruct Hx as [Hx | Hx]; [exact (B1 x Hx) | exact (B2 x Hx)]|]. split.
      + intros a b Ha Ht. assert (Q : In b (seen_of s1' a) \/ row_for a b (l1 ++ l2) \/ row_for b a (l1 ++ l2)).
        { destruct Ha as [<- | Ha]; [destruct (Fi b Ht) as [H | H]; [left; exact H | right; left; apply Kr; left; exact H]|].
          destruct (I2 a b Ha Ht) as [H | [H | H]]; [left; exact H | right; left; apply Up; exact H | right; right; apply Up; exact H]. }
        destruct Q as [Q | Q]; [|right; exact Q]. apply Di in Q. destruct Q as [Q | [-> Q]]; [left; exact Q | right; right; apply Kr; left; exact Q].
      + intros a b Ha Ht. assert (Q : In b (seen_of s2' a) \/ row_for a b (l1 ++ l2) \/ row_for b a (l1 ++ l2)).
        { destruct Ha as [<- | Ha]; [destruct (Fr b Ht) as [H | H]; [left; exact H | right; left; apply Kr; right; exact H]|].
          destruct (R2 a b Ha Ht) as [H | [H | H]]; [left; exact H | right; left; apply Up; exact H | right; right; apply Up; exact H]. }
        destruct Q as [Q | Q]; [|right; exact Q]. apply Dr in Q. destruct Q as [Q | [-> Q]]; [left; exact Q | right; right; apply Kr; right; exact Q].
  Qed.
  (** A row that is a match has variants on both sides. *)
  Lemma match_told : forall im rm ir rr x, backed im rm ir rr x -> row_match x ->
    im = false /\ rm = false /\ exists i r, told ir (vr_src x) (vr_dst x) i /\ told rr (vr_src x) (vr_dst x) r /\
      compared order Forward i r (both_in r ir) = Ok (vr_fwd x) /\ compared order Reverse i r (both_in r ir) = Ok (vr_rev x).
  Proof.
    intros im rm ir rr x (i & r & Ti & Tr & E) [Mf Mr]. unfold variant_row in E.
    destruct (variant_result order im rm i r Forward (both_in r ir)) as [f|e] eqn:Ef; [|discriminate E]. cbn [bind] in E.
    destruct (variant_result order im rm i r Reverse (both_in r ir)) as [b|e] eqn:Eb; [|discriminate E]. cbn [bind] in E.
    assert (Hf : vr_fwd x = f) by (rewrite <- (f_equal (fun z => match z with Ok y => vr_fwd y | Raise _ => vr_fwd x end) E); reflexivity).
    assert (Hb : vr_rev x = b) by (rewrite <- (f_equal (fun z => match z with Ok y => vr_rev y | Raise _ => vr_rev x end) E); reflexivity).
    destruct im; [cbn in Ef; injection Ef as <-; rewrite Hf in Mf; discriminate Mf|]. destruct rm; [cbn in Ef; injection Ef as <-; rewrite Hf in Mf; discriminate Mf|].
    split; [reflexivity|]. split; [reflexivity|].
    destruct Ti as [Ti | ->]; [|cbn in Ef; destruct (both_in r ir); injection Ef as <-; rewrite Hf in Mf; discriminate Mf].
    destruct Tr as [Tr | ->]; [|unfold variant_result in Ef; destruct (vd_fwd i) eqn:V; [exfalso; exact (td_fwd _ _ _ _ Ti V)|]; cbn in Ef; injection Ef as <-; rewrite Hf in Mf; discriminate Mf].
    exists i, r. rewrite Hf, Hb. auto.
  Qed.
End Cover.

(** ** The whole report on variants *)
Lemma reports_for_In : forall order oc ps ir rr l, reports_for order oc ps ir rr = Ok l ->
  (forall k i r, In (k, (i, r)) ps -> exists o, set_report order oc i r ir rr = Ok o /\ match o with Some rows => In (i, r, rows) l | None => True end) /\
  (forall i r rows, In (i, r, rows) l -> exists k, In (k, (i, r)) ps /\ set_report order oc i r ir rr = Ok (Some rows)).
Proof.
  intros order oc. induction ps as [|[k [i r]] ps IH]; intros ir rr l E; cbn [reports_for] in E.
  - injection E as <-. split; [intros ? ? ? [] | intros ? ? ? []].
  - destruct (set_report order oc i r ir rr) as [o|e] eqn:Eo; [|discriminate E]. cbn [bind] in E.
    destruct (reports_for order oc ps ir rr) as [l'|e] eqn:El; [|discriminate E]. cbn [bind] in E. injection E as <-.
    destruct (IH ir rr l' El) as (A & B). split.
    + intros k' i' r' [H | H].
      * injection H as <- <- <-. exists o. split; [exact Eo|]. destruct o; [left; reflexivity | exact I].
      * destruct (A _ _ _ H) as (o' & Eo' & Ho'). exists o'. split; [exact Eo'|]. destruct o'; [|exact I]. destruct o; [right; exact Ho' | exact Ho'].
    + intros i' r' rows H.
      assert (Q : (o = Some rows /\ i' = i /\ r' = r) \/ In (i', r', rows) l').
      { destruct o as [rows'|]; [destruct H as [H | H]; [injection H as <- <- <-; left; auto | right; exact H] | right; exact H]. }
      destruct Q as [(-> & -> & ->) | Q]; [exists k; split; [left; reflexivity | exact Eo]|].
      destruct (B _ _ _ Q) as (k' & Hk & Es). exists k'. split; [right; exact Hk | exact Es].
Qed.
Lemma set_report_inv : forall order oc i r ir rr o, set_report order oc i r ir rr = Ok o ->
  exists l, set_rows order oc (isort cps_leb (set_union cps_eqb i r)) (negb (nonempty i)) (negb (nonempty r)) ir rr [] [] = Ok l /\
    o = if nonempty (relevant i r ir) then Some (isort row_leb l) else None.
Proof.
  intros order oc i r ir rr o E. unfold set_report in E. destruct (look_sequence i r ir rr) as [q|e]; [|discriminate E]. cbn [bind] in E.
  destruct (set_rows order oc (isort cps_leb (set_union cps_eqb i r)) (negb (nonempty i)) (negb (nonempty r)) ir rr [] []) as [l|e] eqn:El; [|discriminate E].
  cbn [bind] in E. exists l. split; [reflexivity|]. injection E as <-. reflexivity.
Qed.

Definition edges_back_and_forth (r : repertoire) : Prop := forall a b, edge r true a b -> edge r true b a.
Lemma symmetric_edges : forall r, symmetric r -> edges_back_and_forth r.
Proof. intros r H a b E. apply has_target_edge in E. apply has_target_edge. exact (proj2 (H a b E)). Qed.
Lemma edge_in_set : forall r sets a b, wf_rep r -> get_variant_sets r true = Some sets -> has_target r a b -> a <> b ->
  exists s, In s sets /\ In a s /\ In b s.
Proof.
  intros r sets a b Hr Hs Ht Hn. destruct (variant_sets_spec r true Hr) as (sets' & E & _ & H). rewrite Hs in E. injection E as <-.
  apply has_target_edge in Ht. assert (L : exists ch, lk r a = Some ch) by (destruct Ht as (ch & v & L & _); rewrite lookup_lk in L; exists ch; exact L).
  destruct L as (ch & L). pose proof (lk_cp _ _ _ L) as Ec.
  destruct (dfs_reach r true Hr ch) as (vis & _ & Nv & Hv); [rewrite Ec; exact L|]. rewrite Ec in Hv.
  assert (Ha : In a vis) by (apply Hv; apply reach_refl). assert (Hb : In b vis) by (apply Hv; eapply reach_step; [exact Ht | apply reach_refl]).
  exists (isort cps_leb vis). split; [|split; apply isort_In; assumption]. apply H. split; [apply isort_strict; exact Nv|]. split.
  - rewrite isort_length. destruct vis as [|x [|y vis]]; [destruct Ha | | cbn; lia]. destruct Ha as [-> | []], Hb as [-> | []]. contradiction.
  - exists a. split; [rewrite lookup_lk; congruence|]. intros x. rewrite isort_In. apply Hv.
Qed.
Section Report.
  Variable order : list variant -> list variant.
  Variable oc : list cps -> list cps.
  Hypothesis Ho : any_order order.
  Hypothesis Hoc : any_order oc.
  Variables ir rr : repertoire.
  Hypothesis Wi : wf_rep ir.
  Hypothesis Wr : wf_rep rr.
  Hypothesis Si : symmetric ir.
  Hypothesis Sr : symmetric rr.
  Variable l : list (list cps * list cps * list vrow).
  Hypothesis Hl : variant_sets_report order oc ir rr = Ok l.
  (** Behind every row is what both LGRs have; every variant of the table has a
      row, and every variant of the reference whose set has a code point of the
      table. *)
  Lemma report_backed : forall i r rows x, In (i, r, rows) l -> In x rows -> backed order (negb (nonempty i)) (negb (nonempty r)) ir rr x.
  Proof.
    intros i r rows x Hin Hx. unfold variant_sets_report in Hl.
    destruct (get_variant_sets ir true) as [a|] eqn:Ea; [|discriminate Hl]. destruct (get_variant_sets rr true) as [b|] eqn:Eb; [|discriminate Hl].
    destruct (pairing_ok a b (sets_family ir a Wi (symmetric_edges _ Si) Ea) (sets_family rr b Wr (symmetric_edges _ Sr) Eb)) as (ps & Ep & _ & Hp & _).
    rewrite Ep in Hl. cbn [bind] in Hl. destruct (reports_for_In _ _ _ _ _ _ Hl) as (_ & B). destruct (B _ _ _ Hin) as (k & Hk & Es).
    apply set_report_inv in Es. destruct Es as (l0 & El & Eo). destruct (nonempty (relevant i r ir)); [|discriminate Eo]. injection Eo as ->. apply isort_In in Hx.
    assert (Nc : forall c, In c (isort cps_leb (set_union cps_eqb i r)) -> c <> []).
    { intros c Hc. apply isort_In in Hc. apply (set_union_In _ cps_eqb_eq) in Hc. destruct (Hp k i r Hk) as (Pi & Pr & _).
      destruct Hc as [Hc | Hc]; [destruct Pi as [-> | Pi]; [destruct Hc|]; apply (sets_members ir a i c Wi Ea Pi Hc) | destruct Pr as [-> | Pr]; [destruct Hc|]; apply (sets_members rr b r c Wr Eb Pr Hc)]. }
    exact (proj1 (set_rows_cover order oc Hoc _ _ _ _ _ _ _ _ Wi Wr Nc El) x Hx).
  Qed.
  Lemma report_covers : forall a b, a <> b -> has_target ir a b \/ (has_target rr a b /\ (lookup ir a <> None \/ lookup ir b <> None)) ->
    exists i r rows, In (i, r, rows) l /\ (row_for a b rows \/ row_for b a rows).
  Proof.
    intros a b Hn Ht. unfold variant_sets_report in Hl.
    destruct (get_variant_sets ir true) as [I|] eqn:Ei; [|discriminate Hl]. destruct (get_variant_sets rr true) as [R|] eqn:Er; [|discriminate Hl].
    destruct (pairing_ok I R (sets_family ir I Wi (symmetric_edges _ Si) Ei) (sets_family rr R Wr (symmetric_edges _ Sr) Er)) as (ps & Ep & _ & Hp & HI & HR & _).
    rewrite Ep in Hl. cbn [bind] in Hl. destruct (reports_for_In _ _ _ _ _ _ Hl) as (A & _).
    assert (Q : exists k i r, In (k, (i, r)) ps /\ (In a i /\ In b i /\ has_target ir a b \/ In a r /\ In b r /\ has_target rr a b) /\ (lookup ir a <> None \/ lookup ir b <> None)).
    { destruct Ht as [Ht | [Ht Hk]].
      - destruct (edge_in_set ir I a b Wi Ei Ht Hn) as (s & Hs & Ha & Hb). destruct (HI s Hs) as ((k & i & r) & [Hin Es] & _). cbn in Es. subst i.
        exists k, s, r. split; [exact Hin|]. split; [left; auto|]. left. destruct Ht as (v & ch & L & _). congruence.
      - destruct (edge_in_set rr R a b Wr Er Ht Hn) as (s & Hs & Ha & Hb). destruct (HR s Hs) as ((k & i & r) & [Hin Es] & _). cbn in Es. subst r.
        exists k, i, s. split; [exact Hin|]. split; [right; auto | exact Hk]. }
    destruct Q as (k & i & r & Hin & Hab & Hk). destruct (A _ _ _ Hin) as (o & Es & Hrows). exists i, r.
    apply set_report_inv in Es. destruct Es as (l0 & El & Eo).
    assert (Nc : forall c, In c (isort cps_leb (set_union cps_eqb i r)) -> c <> []).
    { intros c Hc. apply isort_In in Hc. apply (set_union_In _ cps_eqb_eq) in Hc. destruct (Hp k i r Hin) as (Pi & Pr & _).
      destruct Hc as [Hc | Hc]; [destruct Pi as [-> | Pi]; [destruct Hc|]; apply (sets_members ir I i c Wi Ei Pi Hc) | destruct Pr as [-> | Pr]; [destruct Hc|]; apply (sets_members rr R r c Wr Er Pr Hc)]. }
    assert (Rel : nonempty (relevant i r ir) = true).
    { apply nonempty_iff. assert (W : exists c, (In c i \/ In c r) /\ lookup ir c <> None).
      { destruct Hk as [Hk | Hk]; [exists a | exists b]; (split; [|exact Hk]); tauto. }
      destruct W as (c & Hc & Lc). exists c. unfold relevant. apply (set_union_In _ cps_eqb_eq). right. apply filter_In. split; [apply (set_union_In _ cps_eqb_eq); exact Hc|].
      rewrite in_rep_lk. rewrite lookup_lk in Lc. destruct (lk ir c); [reflexivity | contradiction]. }
    rewrite Rel in Eo. subst o. exists (isort row_leb l0). split; [exact Hrows|].
    destruct (set_rows_cover order oc Hoc _ _ _ _ _ _ _ _ Wi Wr Nc El) as (_ & Ci & Cr).
    assert (Up : forall x y, row_for x y l0 -> row_for x y (isort row_leb l0)) by (intros x y (z & Hz & P); exists z; split; [apply isort_In; exact Hz | exact P]).
    assert (Ia : forall c, In c i \/ In c r -> In c (isort cps_leb (set_union cps_eqb i r))) by (intros c Hc; apply isort_In, (set_union_In _ cps_eqb_eq); exact Hc).
    destruct Hab as [(Ha & _ & T) | (Ha & _ & T)].
    - destruct (Ci a b (Ia a (or_introl Ha)) T) as [[] | [H | H]]; [left | right]; apply Up; exact H.
    - destruct (Cr a b (Ia a (or_intror Ha)) T) as [[] | [H | H]]; [left | right]; apply Up; exact H.
  Qed.
  Hypothesis All : forall i r rows x, In (i, r, rows) l -> In x rows -> row_match x.
  Hypothesis Same : forall c, lookup ir c <> None <-> lookup rr c <> None.
  (** If all rows are matches, both LGRs have the same variants, except for those
      from a code point to itself. *)
  Lemma matching_row : forall a b, a <> b -> has_target ir a b \/ has_target rr a b ->
    exists i r f g, (told ir a b i /\ told rr a b r /\ compared order Forward i r f = Ok g /\ fst g = RMatch) \/
                    (told ir b a i /\ told rr b a r /\ compared order Reverse i r f = Ok g /\ fst g = RMatch).
  Proof.
    intros a b Hn Ht. destruct (report_covers a b Hn) as (i & r & rows & Hin & Hrow).
    { destruct Ht as [Ht | Ht]; [left; exact Ht | right; split; [exact Ht|]]. left. apply Same. destruct Ht as (v & ch & L & _). congruence. }
    destruct Hrow as [(x & Hx & Sx & Dx) | (x & Hx & Sx & Dx)]; pose proof (report_backed _ _ _ _ Hin Hx) as B; pose proof (All _ _ _ _ Hin Hx) as M;
    destruct (match_told order _ _ _ _ _ B M) as (_ & _ & di & dr & Ti & Tr & Ef & Eb); rewrite Sx, Dx in Ti, Tr.
    - exists di, dr, (both_in dr ir), (vr_fwd x). left. split; [exact Ti|]. split; [exact Tr|]. split; [exact Ef | exact (proj1 M)].
    - exists di, dr, (both_in dr ir), (vr_rev x). right. split; [exact Ti|]. split; [exact Tr|]. split; [exact Eb | exact (proj2 M)].
  Qed.
  Lemma told_target : forall r a b x, told r a b x -> has_target r a b.
  Proof. intros r a b x T. destruct (vd_fwd x) as [|v t] eqn:V; [exfalso; exact (td_fwd _ _ _ _ T V)|]. exists v. apply (td_fwd_in _ _ _ _ T). rewrite V. left. reflexivity. Qed.
  Lemma same_targets : forall a b, a <> b -> (has_target ir a b <-> has_target rr a b).
  Proof.
    intros a b Hn. assert (Q : has_target ir a b \/ has_target rr a b -> has_target ir a b /\ has_target rr a b).
    { intros Ht. destruct (matching_row a b Hn Ht) as (i & r & f & g & [(Ti & Tr & _) | (Ti & Tr & _)]); apply told_target in Ti; apply told_target in Tr; [auto|].
      split; [exact (proj2 (Si _ _ Ti)) | exact (proj2 (Sr _ _ Tr))]. }
    tauto.
  Qed.
  Hypothesis Oi : one_variant ir.
  Hypothesis Or : one_variant rr.
  Hypothesis Ti : no_empty_type ir.
  Hypothesis Tr : no_empty_type rr.
  Lemma compared_same : forall d i r f g v w, side d i = [v] -> side d r = [w] -> vd_fwd i <> [] -> vd_fwd r <> [] ->
    v_type v <> Some ""%string -> v_type w <> Some ""%string -> compared order d i r f = Ok g -> fst g = RMatch ->
    v_type v = v_type w /\ variant_context v = variant_context w.
  Proof.
    intros d i r f [q m] v w Hv Hw Fi Fr Tv Tw E M. cbn in M. subst q.
    destruct (single_accepted order d i r v w f RMatch m Ho Hv Hw Fi Fr Tv Tw E (or_introl eq_refl)) as (C & _).
    destruct (same_context_result order d i r v w f Ho Hv Hw Fi Fr C Tv Tw) as (q & m' & E' & Hq). rewrite E in E'. injection E' as <- <-.
    destruct Hq as [[H _] | [(_ & _ & H) | (_ & _ & H)]]; [auto | discriminate H | discriminate H].
  Qed.
  Lemma same_variants : forall a b v w, a <> b -> mapping ir a b v -> mapping rr a b w -> v_type v = v_type w /\ variant_context v = variant_context w.
  Proof.
    intros a b v w Hn Mv Mw.
    destruct (matching_row a b Hn (or_introl (ex_intro _ v Mv))) as (i & r & f & g & [(T1 & T2 & E & M) | (T1 & T2 & E & M)]).
    - refine (compared_same Forward i r f g v w _ _ (td_fwd _ _ _ _ T1) (td_fwd _ _ _ _ T2) (Ti _ _ _ Mv) (Tr _ _ _ Mw) E M); cbn [side]; apply single_of.
      + exact (td_fwd_once _ _ _ _ T1).
      + exact (td_fwd _ _ _ _ T1).
      + intros x Hx. exact (Oi _ _ _ _ (td_fwd_in _ _ _ _ T1 _ Hx) Mv).
      + exact (td_fwd_once _ _ _ _ T2).
      + exact (td_fwd _ _ _ _ T2).
      + intros x Hx. exact (Or _ _ _ _ (td_fwd_in _ _ _ _ T2 _ Hx) Mw).
    - refine (compared_same Reverse i r f g v w _ _ (td_fwd _ _ _ _ T1) (td_fwd _ _ _ _ T2) (Ti _ _ _ Mv) (Tr _ _ _ Mw) E M); cbn [side]; apply single_of.
      + exact (td_rev_once _ _ _ _ T1).
      + exact (td_rev _ _ _ _ T1 (ex_intro _ v Mv)).
      + intros x Hx. exact (Oi _ _ _ _ (td_rev_in _ _ _ _ T1 _ Hx) Mv).
      + exact (td_rev_once _ _ _ _ T2).
      + exact (td_rev _ _ _ _ T2 (ex_intro _ w Mw)).
      + intros x Hx. exact (Or _ _ _ _ (td_rev_in _ _ _ _ T2 _ Hx) Mw).
  Qed.
End Report.
