From Coq Require Import Permutation.
From Verif Require Import Base BaseFacts CharModel RepSpec RepProofs VariantProofs IterProofs VarSetSpec VarSetProofs.
From Verif Require Import RefModel ActionModel LgrModel LgrSpec LgrProofs LgrReach LgrInv LgrRefs LgrFinal.
From Verif Require Import ValidateModel ValidateSpec ValidateProofs PopulateModel PopulateSpec PopulateProofs.
From Verif Require Import CompareModel CompareProofs HarmonizeModel HarmonizeSpec HarmonizeProofs HarmonizeFinal MergeModel.
Open Scope string_scope.
Open Scope list_scope.

(** ** The merged LGR as it grows *)
Definition shape (g : lgr) : Prop :=
  wf_rep (lg_rep g) /\ lg_db g = None /\ rep_ranges (lg_rep g) = [] /\ forall c ch, lk (lg_rep g) c = Some ch -> is_range ch = false.
(** [g'] is [g] with the variants [V] added to its entries. *)
Record grown (g g' : lgr) (V : cps -> variant -> Prop) : Prop := mkGrown {
  gr_shape : shape g';
  gr_refs : lg_refs g' = lg_refs g;
  gr_old : forall a ch, lk (lg_rep g) a = Some ch -> exists ch', lk (lg_rep g') a = Some ch' /\ same_entry ch ch';
  gr_new : forall a, lk (lg_rep g) a = None -> lk (lg_rep g') a = None;
  gr_map : forall a b w, mapping (lg_rep g') a b w <-> mapping (lg_rep g) a b w \/ (v_cp w = b /\ V a w)
}.
Lemma grown_refl : forall g, shape g -> grown g g (fun _ _ => False).
Proof.
  intros g H. constructor; auto; [|intros; tauto]. intros a ch Ha. exists ch. split; [exact Ha|apply same_entry_refl].
Qed.
Lemma grown_trans : forall g g1 g2 V W, grown g g1 V -> grown g1 g2 W -> grown g g2 (fun a w => V a w \/ W a w).
Proof.
  intros g g1 g2 V W [A1 A2 A3 A4 A5] [B1 B2 B3 B4 B5]. constructor; auto.
  - congruence.
  - intros a ch Ha. destruct (A3 a ch Ha) as [c1 [H1 H2]]. destruct (B3 a c1 H1) as [c2 [H3 H4]]. exists c2. split; [exact H3|eapply same_entry_trans; eauto].
  - intros a b w. rewrite B5, A5. tauto.
Qed.
Lemma grown_iff : forall g g' V W, grown g g' V -> (forall a w, V a w <-> W a w) -> grown g g' W.
Proof. intros g g' V W [A1 A2 A3 A4 A5] H. constructor; auto. intros a b w. rewrite A5, H. tauto. Qed.

Lemma finished_ok : forall x g, finished x = Ok g -> exists u, x = (g, Ok u).
Proof. intros [h [u|e]] g H; [|discriminate]. injection H as H. subst. eauto. Qed.
Lemma bind_ok : forall A B (x : res A) (f : A -> res B) b, bind x f = Ok b -> exists a, x = Ok a /\ f a = Ok b.
Proof. intros A B [a|e] f b H; [|discriminate]. exists a. auto. Qed.

Lemma put_cases : forall g c v ty w nw cm rf g', shape g -> finished (put_variant g c v ty w nw cm rf) = Ok g' ->
  v <> [] /\ (w = None \/ nw = None) /\ NoDup rf /\ (forall x, In x rf -> defined_ref g x) /\
  exists ch ch', lk (lg_rep g) c = Some ch /\ ~ In (v, w, nw) (map vkey (get_variants ch)) /\ updated g g' c ch' /\ same_entry ch ch' /\ wf_char ch' /\
    (forall u, In u (get_variants ch') <-> u = mkVariant v ty w nw cm rf \/ In u (get_variants ch)) /\ wf_rep (lg_rep g').
Proof.
  intros g c v ty w nw cm rf g' [Hwf [Hdb [Hrg Hnr]]] E. apply finished_ok in E. destruct E as [u E]. unfold put_variant, lgr_add_variant in E.
  destruct (check_convert g c) as [c1|e] eqn:Ec; [|discriminate]. cbn [bind] in E.
  destruct (check_convert g v) as [v1|e] eqn:Ev; [|discriminate]. cbn [bind negb andb check_validating] in E.
  destruct (check_convert_id g c c1 Ec) as [-> Hc]. destruct (check_convert_id g v v1 Ev) as [-> Hv].
  destruct (is_some w && is_some nw)%bool eqn:Ecx; [discriminate|].
  destruct (collect_refs_cases g false rf) as [[e [H1 H2]]|[H1 [H2 H3]]]; rewrite H1 in E; [discriminate|].
  rewrite (H3 eq_refl) in E. rewrite andb_true_r in E. destruct (has_dup rf) eqn:Ed; [discriminate|].
  unfold rep_add_variant in E. rewrite get_char_lk in E by exact Hc. destruct (lk (lg_rep g) c) as [ch|] eqn:El; [|discriminate].
  set (nv := mkVariant v ty w nw cm rf) in *.
  destruct (add_variant_cases ch nv (lk_wf _ _ _ Hwf El) (Hnr _ _ El) Hv) as [[Hk Ea]|[Hk [ch' [Ea Hi]]]]; rewrite Ea in E; [discriminate|].
  injection E as E _. subst g'. split; [exact Hv|].
  split; [destruct w, nw; cbn in Ecx; try discriminate; auto|]. split; [apply has_dup_false; exact Ed|]. split.
  { intros x Hx. rewrite <- (H3 eq_refl) in Hx. unfold kept_refs in Hx. apply filter_In in Hx. destruct Hx as [_ Hx]. apply defined_dmem. exact Hx. }
  exists ch, ch'. split; [reflexivity|]. split; [exact Hk|]. destruct (char_add_variant_wf _ _ _ (lk_wf _ _ _ Hwf El) Ea) as [Hw Hcp].
  pose proof (lk_cp _ _ _ El) as Hcc. split.
  - split.
    + unfold same_rest, add_type, set_rep; cbn [lg_db lg_raise lg_refs lg_tags lg_rep]. rewrite put_ranges. auto.
    + intro x. cbn [add_type set_rep lg_rep]. apply lk_put; congruence.
  - split; [apply (add_variant_same _ _ _ Ea)|]. split; [exact Hw|]. split; [exact Hi|]. cbn [add_type set_rep lg_rep]. apply wf_put; auto. congruence.
Qed.

Lemma put_grown : forall g c v ty w nw cm rf g', shape g -> finished (put_variant g c v ty w nw cm rf) = Ok g' ->
  grown g g' (fun a u => a = c /\ u = mkVariant v ty w nw cm rf) /\ lk (lg_rep g) c <> None.
Proof.
  intros g c v ty w nw cm rf g' S E. destruct (put_cases _ _ _ _ _ _ _ _ _ S E) as [Hv [_ [_ [_ [ch [ch' [Hc [_ [Hu [Hs [Hw [Hi Hwf]]]]]]]]]]]].
  split; [|congruence]. destruct S as [_ [Hdb [Hrg Hnr]]]. pose proof Hu as [[R1 [R2 [R3 [R4 R5]]]] Hl]. constructor.
  - split; [exact Hwf|]. split; [congruence|]. split; [congruence|]. intros x y Hx. rewrite Hl in Hx. destruct (cps_eqb x c); [|apply (Hnr _ _ Hx)].
    injection Hx as Hx. subst y. rewrite (same_entry_range _ _ Hs). apply (Hnr _ _ Hc).
  - exact R3.
  - intros a x Ha. rewrite Hl. destruct (cps_eqb a c) eqn:E2.
    + apply cps_eqb_eq in E2. subst a. exists ch'. split; [reflexivity|]. congruence.
    + exists x. split; [exact Ha|apply same_entry_refl].
  - intros a Ha. rewrite Hl. destruct (cps_eqb a c) eqn:E2; [|exact Ha]. apply cps_eqb_eq in E2. congruence.
  - intros a b u. rewrite (updated_mapping _ _ _ _ _ _ _ Hu), mapping_lk. rewrite Hi. split.
    + intros [[-> [[->|H1] H2]]|[H1 H2]].
      * right. auto.
      * left. exists ch. auto.
      * left. exact H2.
    + intros [[x [H1 [H2 H3]]]|[H1 [H2 H3]]].
      * destruct (cps_eq_dec a c) as [->|Hac]; [left; split; [reflexivity|]; split; [right; congruence|exact H3]|].
        right. split; [exact Hac|]. exists x. auto.
      * subst. left. auto.
Qed.

(** What becomes of a variant. *)
Definition carried (script : string) (mp : dict string string) (v : variant) : variant :=
  mkVariant (v_cp v) blocked (prefixed script (v_when v)) (prefixed script (v_not_when v)) (v_comment v) (map (mapped mp) (v_refs v)).

Lemma put_all_grown : forall script mp c vs g g', shape g -> put_all g script mp c vs = Ok g' ->
  grown g g' (fun a u => a = c /\ exists v, In v vs /\ u = carried script mp v) /\ (vs <> [] -> lk (lg_rep g) c <> None).
Proof.
  intros script mp c. induction vs as [|v vs IH]; intros g g' S E.
  - injection E as E. subst g'. split; [|congruence]. eapply grown_iff; [apply grown_refl; exact S|]. cbn. intros a w. split; [tauto|]. intros [_ [x [[] _]]].
  - cbn [put_all] in E. apply bind_ok in E. destruct E as [g1 [E1 E2]]. destruct (put_grown _ _ _ _ _ _ _ _ _ S E1) as [G1 Hc]. split; [|auto].
    destruct (IH g1 g' (gr_shape _ _ _ G1) E2) as [G2 _]. eapply grown_iff; [eapply grown_trans; [exact G1|exact G2]|].
    intros a u. cbn. split.
    + intros [[-> ->]|[-> [x [H1 H2]]]]; (split; [reflexivity|]); [exists v; auto|exists x; auto].
    + intros [-> [x [[->|H1] H2]]]; [left; auto|right; eauto].
Qed.

(** The variants that join. *)
Definition joining (b : cps) : variant := mkVariant b blocked None None merge_comment [].
Definition joined_one (v1 v2 : variant) (a : cps) (u : variant) : Prop :=
  (a = v_cp v1 /\ u = joining (v_cp v2)) \/ (a = v_cp v2 /\ u = joining (v_cp v1)).
Section Ord.
  Variable ord_names : list string -> list string.
  Variable ord_variants : list variant -> list variant.
  Hypothesis Pn : forall l, Permutation (ord_names l) l.
  Hypothesis Pv : forall l, Permutation (ord_variants l) l.

  Lemma cross_one_grown : forall v1 l2 g g', shape g -> cross_one g v1 l2 = Ok g' ->
    grown g g' (fun a u => exists v2, In v2 l2 /\ joined_one v1 v2 a u).
  Proof.
    intros v1. induction l2 as [|v2 l2 IH]; intros g g' S E.
    - injection E as E. subst g'. eapply grown_iff; [apply grown_refl; exact S|]. cbn. intros a w. split; [tauto|]. intros [x [[] _]].
    - cbn [cross_one] in E. apply bind_ok in E. destruct E as [g1 [E1 E]]. apply bind_ok in E. destruct E as [g2 [E2 E]].
      destruct (put_grown _ _ _ _ _ _ _ _ _ S E1) as [G1 _]. destruct (put_grown _ _ _ _ _ _ _ _ _ (gr_shape _ _ _ G1) E2) as [G2 _].
      pose proof (IH g2 g' (gr_shape _ _ _ G2) E) as G3.
      eapply grown_iff; [eapply grown_trans; [exact G1|eapply grown_trans; [exact G2|exact G3]]|]. cbn. intros a u. unfold joined_one, joining. split.
      + intros [[-> ->]|[[-> ->]|[x [H1 H2]]]]; [exists v2; auto|exists v2; auto|exists x; auto].
      + intros [x [[->|H1] [[-> ->]|[-> ->]]]]; [auto|auto| |]; right; right; exists x; auto.
  Qed.
  Lemma cross_two_grown : forall l1 l2 g g', shape g -> cross_two ord_variants g l1 l2 = Ok g' ->
    grown g g' (fun a u => exists v1 v2, In v1 l1 /\ In v2 l2 /\ joined_one v1 v2 a u).
  Proof.
    induction l1 as [|v1 l1 IH]; intros l2 g g' S E.
    - injection E as E. subst g'. eapply grown_iff; [apply grown_refl; exact S|]. cbn. intros a w. split; [tauto|]. intros [x [y [[] _]]].
    - cbn [cross_two] in E. apply bind_ok in E. destruct E as [g1 [E1 E]]. pose proof (cross_one_grown _ _ _ _ S E1) as G1.
      pose proof (IH l2 g1 g' (gr_shape _ _ _ G1) E) as G2. eapply grown_iff; [eapply grown_trans; [exact G1|exact G2]|]. cbn. intros a u. split.
      + intros [[x [H1 H2]]|[x [y [H1 H2]]]]; [|exists x, y; tauto]. apply (proj1 (perm_In _ _ Pv _ _)) in H1. exists v1, x. auto.
      + intros [x [y [[->|H1] [H2 H3]]]]; [left; exists y; split; [apply (perm_In _ _ Pv); exact H2|exact H3]|right; eauto].
  Qed.
  Definition joined (l : list (list variant * list variant)) (a : cps) (u : variant) : Prop :=
    exists l1 l2 v1 v2, In (l1, l2) l /\ In v1 l1 /\ In v2 l2 /\ joined_one v1 v2 a u.
  Lemma cross_all_grown : forall l g g', shape g -> cross_all ord_variants g l = Ok g' -> grown g g' (joined l).
  Proof.
    induction l as [|[l1 l2] l IH]; intros g g' S E.
    - injection E as E. subst g'. eapply grown_iff; [apply grown_refl; exact S|]. cbn. intros a w. split; [tauto|]. intros [x [y [z [t [[] _]]]]].
    - cbn [cross_all] in E. apply bind_ok in E. destruct E as [g1 [E1 E]]. pose proof (cross_two_grown _ _ _ _ S E1) as G1.
      pose proof (IH g1 g' (gr_shape _ _ _ G1) E) as G2. eapply grown_iff; [eapply grown_trans; [exact G1|exact G2]|]. cbn. intros a u. split.
      + intros [[x [y [H1 H2]]]|[x [y [z [t [H1 H2]]]]]].
        * apply (proj1 (perm_In _ _ Pv _ _)) in H1. exists l1, l2, x, y. split; [left; reflexivity|]. tauto.
        * exists x, y, z, t. split; [right; exact H1|exact H2].
      + intros [x [y [z [t [[H1|H1] H2]]]]].
        * injection H1 as <- <-. left. exists z, t. rewrite (perm_In _ _ Pv). tauto.
        * right. exists x, y, z, t. auto.
  Qed.

  (** Joining never relates a code point to itself: the second of the two
      variants would be there already. *)
  Lemma cross_one_distinct : forall v1 l2 g g', shape g -> cross_one g v1 l2 = Ok g' -> forall v2, In v2 l2 -> v_cp v1 <> v_cp v2.
  Proof.
    intros v1. induction l2 as [|v2 l2 IH]; intros g g' S E x Hx; [destruct Hx|].
    cbn [cross_one] in E. apply bind_ok in E. destruct E as [g1 [E1 E]]. apply bind_ok in E. destruct E as [g2 [E2 E]].
    destruct (put_grown _ _ _ _ _ _ _ _ _ S E1) as [G1 _]. destruct (put_grown _ _ _ _ _ _ _ _ _ (gr_shape _ _ _ G1) E2) as [G2 _].
    destruct Hx as [<-|Hx]; [|apply (IH g2 g' (gr_shape _ _ _ G2) E x Hx)]. intro Heq.
    destruct (put_cases _ _ _ _ _ _ _ _ _ (gr_shape _ _ _ G1) E2) as [_ [_ [_ [_ [ch [ch' [Hc [Hn _]]]]]]]].
    apply Hn. apply in_map_iff. exists (joining (v_cp v2)). split; [unfold vkey, joining; cbn; congruence|].
    assert (M : mapping (lg_rep g1) (v_cp v2) (v_cp v2) (joining (v_cp v2))) by (apply (gr_map _ _ _ G1); right; split; [reflexivity|split; [congruence|reflexivity]]).
    apply mapping_lk in M. destruct M as [y [Y1 [Y2 _]]]. congruence.
  Qed.
  Lemma cross_two_distinct : forall l1 l2 g g', shape g -> cross_two ord_variants g l1 l2 = Ok g' -> forall v1 v2, In v1 l1 -> In v2 l2 -> v_cp v1 <> v_cp v2.
  Proof.
    induction l1 as [|v1 l1 IH]; intros l2 g g' S E x y Hx Hy; [destruct Hx|].
    cbn [cross_two] in E. apply bind_ok in E. destruct E as [g1 [E1 E]]. pose proof (cross_one_grown _ _ _ _ S E1) as G1.
    destruct Hx as [<-|Hx]; [|apply (IH l2 g1 g' (gr_shape _ _ _ G1) E x y Hx Hy)].
    apply (cross_one_distinct _ _ _ _ S E1). apply (perm_In _ _ Pv). exact Hy.
  Qed.
  Lemma cross_all_distinct : forall l g g', shape g -> cross_all ord_variants g l = Ok g' -> forall p v1 v2, In p l -> In v1 (fst p) -> In v2 (snd p) -> v_cp v1 <> v_cp v2.
  Proof.
    induction l as [|[l1 l2] l IH]; intros g g' S E p x y Hp Hx Hy; [destruct Hp|].
    cbn [cross_all] in E. apply bind_ok in E. destruct E as [g1 [E1 E]]. pose proof (cross_two_grown _ _ _ _ S E1) as G1.
    destruct Hp as [<-|Hp]; [|apply (IH g1 g' (gr_shape _ _ _ G1) E p x y Hp Hx Hy)].
    apply (cross_two_distinct _ _ _ _ S E1); [apply (perm_In _ _ Pv); exact Hx|exact Hy].
  Qed.
End Ord.
