From Coq Require Import Permutation.
From Verif Require Import Base BaseFacts CharModel RepSpec RepProofs VariantProofs IterProofs VarSetSpec VarSetProofs.
From Verif Require Import RefModel ActionModel LgrModel LgrSpec LgrProofs LgrReach LgrInv LgrRefs LgrFinal.
From Verif Require Import ValidateModel ValidateSpec ValidateProofs PopulateModel PopulateSpec PopulateProofs.
From Verif Require Import CompareModel CompareProofs HarmonizeModel HarmonizeSpec HarmonizeProofs HarmonizeFinal MergeModel MergeProofs.
Open Scope string_scope.
Open Scope list_scope.

Lemma shape_iter : forall g, shape g -> NoDup (cps_of g) /\ (forall c, In c (cps_of g) <-> lk (lg_rep g) c <> None) /\
  (forall ch, In ch (rep_iter (lg_rep g)) <-> lk (lg_rep g) (ch_cp ch) = Some ch).
Proof.
  intros g [Hwf [_ [_ H3]]]. destruct (iter_general _ Hwf) as [_ [Hnd [Hsub Hnr]]]. split; [exact Hnd|].
  assert (HI : forall ch, In ch (rep_iter (lg_rep g)) <-> lk (lg_rep g) (ch_cp ch) = Some ch).
  { intro ch. split.
    - intro Hi. apply (in_all_chars_lk _ _ Hwf). auto.
    - intro H. apply Hnr; [apply (in_all_chars_lk _ _ Hwf); exact H|apply (H3 _ _ H)]. }
  split; [|exact HI]. intro c. unfold cps_of. rewrite in_map_iff. split.
  - intros [ch [E Hi]]. apply HI in Hi. congruence.
  - intro H. destruct (lk (lg_rep g) c) as [ch|] eqn:E; [|congruence]. pose proof (lk_cp _ _ _ E) as Hc. exists ch. split; [exact Hc|]. apply HI. congruence.
Qed.

Lemma variant_diff_In : forall a b v, NoDup (map vkey a) -> (In v (set_diff variant_eqb a b) <-> In v a /\ ~ In (vkey v) (map vkey b)).
Proof.
  intros a b v Hn. unfold set_diff. rewrite filter_In, negb_true_iff. destruct (dedup_vkey_aux a []) as [_ [H2 H3]]. fold (dedup variant_eqb a) in *.
  assert (Hd : In v (dedup variant_eqb a) <-> In v a).
  { split; [intro H; apply (H2 v H)|]. intro H. destruct (H3 v H) as [[]|Hk]. apply in_map_iff in Hk. destruct Hk as [u [E Hu]].
    destruct (H2 u Hu) as [Hu' _]. rewrite (NoDup_vkey_eq a v u Hn H Hu' (eq_sym E)). exact Hu. }
  rewrite Hd. pose proof (memb_vkey v b) as Hm. destruct (memb variant_eqb v b); intuition; discriminate.
Qed.
Lemma drop_itself_In : forall c l v, In v (drop_itself c l) -> In v l.
Proof. intros c. induction l as [|x l IH]; intros v H; [exact H|]. cbn in H. destruct (cps_eqb (v_cp x) c); [right; exact H|]. destruct H as [H|H]; [left; exact H|right; auto]. Qed.
Lemma drop_itself_keeps : forall c l v, In v l -> v_cp v <> c -> In v (drop_itself c l).
Proof.
  intros c. induction l as [|x l IH]; intros v H Hv; [destruct H|]. cbn. destruct (cps_eqb (v_cp x) c) eqn:E.
  - apply cps_eqb_eq in E. destruct H as [H|H]; [congruence|exact H].
  - destruct H as [H|H]; [left; exact H|right; auto].
Qed.

Lemma edit_grown : forall g c ex new, shape g -> lk (lg_rep g) c = Some ex -> ch_cp new = ch_cp ex -> ch_kind new = ch_kind ex -> ch_variants new = ch_variants ex ->
  shape (edit_char g new) /\ lg_refs (edit_char g new) = lg_refs g /\
  (forall x, lk (lg_rep (edit_char g new)) x = if cps_eqb x c then Some new else lk (lg_rep g) x) /\
  (forall a b w, mapping (lg_rep (edit_char g new)) a b w <-> mapping (lg_rep g) a b w).
Proof.
  intros g c ex new [Hwf [Hdb [Hrg Hnr]]] Hc H1 H2 H3. pose proof (lk_cp _ _ _ Hc) as Hcp.
  assert (Hl : forall x, lk (lg_rep (edit_char g new)) x = if cps_eqb x c then Some new else lk (lg_rep g) x).
  { intro x. unfold edit_char. cbn [set_rep lg_rep]. rewrite H1, Hcp. apply lk_put; congruence. }
  assert (Hr : is_range new = false) by (unfold is_range; rewrite H2; apply (Hnr _ _ Hc)).
  split; [split; [|split; [exact Hdb|split]]|split; [reflexivity|split; [exact Hl|]]].
  - unfold edit_char. cbn [set_rep lg_rep]. apply wf_put; [exact Hwf| |reflexivity].
    pose proof (lk_wf _ _ _ Hwf Hc) as [W1 W2]. unfold wf_char. rewrite H1, H2, H3. auto.
  - unfold edit_char. cbn [set_rep lg_rep]. rewrite put_ranges. exact Hrg.
  - intros x y Hx. rewrite Hl in Hx. destruct (cps_eqb x c); [|apply (Hnr _ _ Hx)]. injection Hx as <-. exact Hr.
  - intros a b w. rewrite !mapping_lk, Hl. destruct (cps_eqb a c) eqn:E; [|tauto]. apply cps_eqb_eq in E. subst a.
    assert (Hg : get_variants new = get_variants ex) by (unfold get_variants; rewrite H3; reflexivity).
    split; intros [ch [E1 [E2 E3]]].
    + injection E1 as <-. exists ex. rewrite <- Hg. auto.
    + exists new. rewrite Hc in E1. injection E1 as <-. rewrite Hg. auto.
Qed.

Section Ord.
  Variable ord_names : list string -> list string.
  Variable ord_variants : list variant -> list variant.
  Hypothesis Pn : forall l, Permutation (ord_names l) l.
  Hypothesis Pv : forall l, Permutation (ord_variants l) l.
  Variables (script : string) (previous : list string) (ext : option (N -> list string)).
  Variables (mp : dict string string) (rules : list string).

  (** ** What becomes of an entry *)
  Definition new_head (ch : char) : char :=
    mkChar (ch_cp ch) (kind_of (ch_cp ch)) (ch_comment ch) (map (mapped mp) (ch_refs ch)) (ord_names (new_tags ext script ch))
           (prefixed script (ch_when ch)) (prefixed script (ch_not_when ch)) [].
  Definition old_head (ex ch : char) (w nw : option string) : char :=
    mkChar (ch_cp ex) (ch_kind ex) (choose_comment (ch_comment ex) (ch_comment ch))
           (ord_names (set_union String.eqb (ch_refs ex) (ch_refs ch)))
           (ord_names (set_union String.eqb (ch_tags ex) (ord_names (new_tags ext script ch)))) w nw [].
  Definition head_step (old : option char) (ch ch' : char) : Prop :=
    match old with
    | None => same_entry (new_head ch) ch'
    | Some ex => exists jw jn, join_context script previous (ch_when ex) (ch_when ch) (ch_cp ch) = Ok jw /\
        join_context script previous (ch_not_when ex) (ch_not_when ch) (ch_cp ch) = Ok jn /\ same_entry (old_head ex ch (fst jw) (fst jn)) ch'
    end.
  Definition fresh_at (g : lgr) (c : cps) (v : variant) : Prop := forall u, mapping (lg_rep g) c (v_cp v) u -> vkey u <> vkey v.
  Definition added (g : lgr) (ch : char) (a : cps) (w : variant) : Prop :=
    a = ch_cp ch /\ exists v, In v (get_variants ch) /\ fresh_at g a v /\ w = carried script mp v.
  (** The rules merged because of an entry. *)
  Definition rule_pairs (old : option char) (ch : char) (x : string * string) : Prop :=
    match old with
    | None => False
    | Some ex => exists o, join_context script previous (ch_when ex) (ch_when ch) (ch_cp ch) = Ok (o, Some x) \/
                           join_context script previous (ch_not_when ex) (ch_not_when ch) (ch_cp ch) = Ok (o, Some x)
    end.
  Definition pair_of (g : lgr) (ch : char) (p : list variant * list variant) : Prop :=
    lk (lg_rep g) (ch_cp ch) <> None /\ (forall v, In v (fst p) -> In v (get_variants ch) /\ fresh_at g (ch_cp ch) v) /\
    (forall v, In v (snd p) -> mapping (lg_rep g) (ch_cp ch) (v_cp v) v) /\ (forall v, In v (snd p) -> ~ In (vkey v) (map vkey (get_variants ch))).

  Lemma merge_rules_In : forall specific s rs acc n, In n (merge_rules specific s rs acc) <->
    In n acc \/ exists r, In r rs /\ (truthy specific = true -> specific = Some r) /\ n = rename_rule s r.
  Proof.
    intros specific s. induction rs as [|r rs IH]; intros acc n.
    - cbn. split; [auto|]. intros [H|[r [[] _]]]; exact H.
    - unfold merge_rules in *. cbn [fold_left]. rewrite IH. destruct (truthy specific && negb (ostring_eqb specific (Some r)))%bool eqn:E.
      + apply andb_true_iff in E. destruct E as [E1 E2]. apply negb_true_iff in E2.
        assert (Hne : specific <> Some r) by (intro X; apply ostring_eqb_eq in X; congruence).
        split; (intros [H|[x [H1 [H2 H3]]]]; [auto|]).
        * right. exists x. split; [right; exact H1|auto].
        * destruct H1 as [<-|H1]; [destruct (Hne (H2 E1))|]. right. exists x. auto.
      + assert (Hok : truthy specific = true -> specific = Some r).
        { intro X. rewrite X in E. cbn in E. apply negb_false_iff in E. apply ostring_eqb_eq. exact E. }
        destruct (memb String.eqb (rename_rule s r) acc) eqn:Em.
        * apply (memb_In _ _ string_eqb_iff) in Em. split; (intros [H|[x [H1 [H2 H3]]]]; [auto|]).
          -- right. exists x. split; [right; exact H1|auto].
          -- destruct H1 as [<-|H1]; [left; congruence|]. right. exists x. auto.
        * rewrite in_app_iff. cbn [In]. split.
          -- intros [[H|[H|[]]]|[x [H1 [H2 H3]]]]; [auto| |]; right; [exists r; auto|exists x; auto].
          -- intros [H|[x [[<-|H1] [H2 H3]]]]; [auto|left; right; left; congruence|right; exists x; auto].
  Qed.
  Lemma more_rules_In : forall x acc n, In n (more_rules rules x acc) <->
    In n acc \/ exists s k r, x = Some (s, k) /\ In r rules /\ (truthy (Some k) = true -> k = r) /\ n = rename_rule s r.
  Proof.
    intros [[s k]|] acc n; cbn [more_rules].
    - rewrite merge_rules_In. split; (intros [H|H]; [auto|]); right.
      + destruct H as [r [H1 [H2 H3]]]. exists s, k, r. repeat split; auto. intro X. specialize (H2 X). congruence.
      + destruct H as [s1 [k1 [r [E [H1 [H2 H3]]]]]]. injection E as <- <-. exists r. repeat split; auto. intro X. rewrite (H2 X). reflexivity.
    - split; [auto|]. intros [H|[s [k [r [E _]]]]]; [exact H|discriminate].
  Qed.

  (** ** One entry *)
  Record one (g g' : lgr) (ch : char) : Prop := mkOne {
    on_shape : shape g';
    on_refs : lg_refs g' = lg_refs g;
    on_old : forall a x, a <> ch_cp ch -> lk (lg_rep g) a = Some x -> exists y, lk (lg_rep g') a = Some y /\ same_entry x y;
    on_none : forall a, a <> ch_cp ch -> lk (lg_rep g) a = None -> lk (lg_rep g') a = None;
    on_here : exists ch', lk (lg_rep g') (ch_cp ch) = Some ch' /\ head_step (lk (lg_rep g) (ch_cp ch)) ch ch';
    on_map : forall a b w, mapping (lg_rep g') a b w <-> mapping (lg_rep g) a b w \/ (v_cp w = b /\ added g ch a w)
  }.

  Lemma merge_new_one : forall w ch w', shape (wk_lgr w) -> wf_char ch -> ch_cp ch <> [] -> lk (lg_rep (wk_lgr w)) (ch_cp ch) = None ->
    merge_new ord_names script ext mp w ch = Ok w' ->
    one (wk_lgr w) (wk_lgr w') ch /\ wk_rules w' = wk_rules w /\ wk_new w' = wk_new w.
  Proof.
    intros [g rl nw] ch w' S Hwc Hne Hn E. unfold merge_new in E. cbn [wk_lgr wk_rules wk_new] in *.
    apply bind_ok in E. destruct E as [g1 [E1 E]]. apply bind_ok in E. destruct E as [g2 [E2 E]]. injection E as <-. cbn [wk_lgr wk_rules wk_new].
    split; [|auto]. apply finished_ok in E1. destruct E1 as [u E1].
    destruct (add_cp_unfold g (ch_cp ch) (ch_comment ch) (map (mapped mp) (ch_refs ch)) (ord_names (new_tags ext script ch))
                (prefixed script (ch_when ch)) (prefixed script (ch_not_when ch)) None false false) as [r [_ Hu]].
    rewrite E1 in Hu. destruct r as [e|]; [discriminate|]. injection Hu as Hg _.
    assert (Hk : kept_refs g (map (mapped mp) (ch_refs ch)) = map (mapped mp) (ch_refs ch)).
    { destruct (collect_refs_cases g false (map (mapped mp) (ch_refs ch))) as [[e [X _]]|[_ [_ X]]]; [|auto].
      unfold lgr_add_cp in E1. destruct (check_convert g (ch_cp ch)); [|discriminate]. cbn [negb andb check_validating] in E1.
      destruct (is_some _ && is_some _)%bool; [discriminate|]. rewrite X in E1. discriminate. }
    rewrite Hk in Hg. clear Hk. fold (new_head ch) in Hg.
    set (G := set_rep g (ins (lg_rep g) (new_head ch))) in *.
    assert (Hrep : lg_rep g1 = ins (lg_rep g) (new_head ch)) by (subst g1; reflexivity).
    assert (Hdb : lg_db g1 = lg_db g /\ lg_refs g1 = lg_refs g) by (subst g1; split; reflexivity).
    assert (Hnv : ch_cp (new_head ch) = ch_cp ch) by reflexivity.
    assert (Hl : forall x, lk (lg_rep g1) x = if cps_eqb x (ch_cp ch) then Some (new_head ch) else lk (lg_rep g) x).
    { intro x. rewrite Hrep. rewrite lk_ins by (rewrite Hnv; auto). rewrite Hnv. reflexivity. }
    assert (Hrange : is_range (new_head ch) = false) by (unfold is_range, new_head, kind_of; cbn; destruct (ch_cp ch) as [|x [|y t]]; reflexivity).
    assert (S1 : shape g1).
    { destruct S as [Hwf [Hd [Hrg Hnr]]]. split; [|split; [|split]].
      - rewrite Hrep. apply wf_ins; [exact Hwf| |rewrite Hnv; exact Hn]. split.
        + split; [constructor|intros k l []].
        + unfold new_head, kind_of. cbn. destruct (ch_cp ch) as [|x [|y t]]; [congruence| |]; eauto.
      - destruct Hdb. congruence.
      - rewrite Hrep. unfold ins. rewrite Hnv. destruct (ch_cp ch); exact Hrg.
      - intros c x Hx. rewrite Hl in Hx. destruct (cps_eqb c (ch_cp ch)); [|apply (Hnr _ _ Hx)]. injection Hx as <-. exact Hrange. }
    destruct (put_all_grown _ _ _ _ _ _ S1 E2) as [[A1 A2 A3 A4 A5] _].
    assert (Hm : forall a b w, mapping (lg_rep g1) a b w <-> mapping (lg_rep g) a b w).
    { intros a b w. rewrite !mapping_lk, Hl. destruct (cps_eqb a (ch_cp ch)) eqn:Ea; [|tauto]. apply cps_eqb_eq in Ea. subst a.
      rewrite Hn. split; intros [x [X1 [X2 X3]]]; [injection X1 as <-; destruct X2|discriminate]. }
    constructor.
    - exact A1.
    - destruct Hdb. congruence.
    - intros a x Ha Hx. apply A3. rewrite Hl, (proj2 (cps_eqb_neq _ _) Ha). exact Hx.
    - intros a Ha Hx. apply A4. rewrite Hl, (proj2 (cps_eqb_neq _ _) Ha). exact Hx.
    - destruct (A3 (ch_cp ch) (new_head ch)) as [y [Y1 Y2]]; [rewrite Hl, cps_eqb_refl; reflexivity|]. exists y. rewrite Hn. auto.
    - intros a b w. rewrite A5, Hm. unfold added. split; (intros [H|[H1 [H2 H]]]; [auto|]); right; (split; [exact H1|]); (split; [exact H2|]).
      + destruct H as [v [V1 V2]]. exists v. split; [exact V1|]. split; [|exact V2]. subst a. intros x Hx. rewrite mapping_lk, Hn in Hx.
        destruct Hx as [? [X _]]. discriminate.
      + destruct H as [v [V1 [_ V2]]]. eauto.
  Qed.

  Lemma fresh_iff : forall g c ex v, lk (lg_rep g) c = Some ex -> (~ In (vkey v) (map vkey (get_variants ex)) <-> fresh_at g c v).
  Proof.
    intros g c ex v Hc. unfold fresh_at. split.
    - intros H u Hu E. rewrite mapping_lk, Hc in Hu. destruct Hu as [x [X1 [X2 _]]]. injection X1 as <-. apply H. rewrite <- E. apply in_map. exact X2.
    - intros H Hi. apply in_map_iff in Hi. destruct Hi as [u [E Hu]]. apply (H u); [|exact E]. apply mapping_lk. exists ex. split; [exact Hc|].
      split; [exact Hu|]. unfold vkey in E. congruence.
  Qed.

  Lemma merge_existing_one : forall w ch w', shape (wk_lgr w) -> wf_char ch -> ch_cp ch <> [] ->
    merge_existing ord_names ord_variants script previous ext mp rules w ch = Ok w' ->
    lk (lg_rep (wk_lgr w)) (ch_cp ch) <> None /\ one (wk_lgr w) (wk_lgr w') ch /\
    (forall n, In n (wk_rules w') <-> In n (wk_rules w) \/
       exists s k r, rule_pairs (lk (lg_rep (wk_lgr w)) (ch_cp ch)) ch (s, k) /\ In r rules /\ (truthy (Some k) = true -> k = r) /\ n = rename_rule s r) /\
    (wk_new w' = wk_new w \/ exists p, wk_new w' = wk_new w ++ [p] /\ pair_of (wk_lgr w) ch p) /\
    (forall v1 v2, In v1 (get_variants ch) -> fresh_at (wk_lgr w) (ch_cp ch) v1 -> v_cp v1 <> ch_cp ch ->
       mapping (lg_rep (wk_lgr w)) (ch_cp ch) (v_cp v2) v2 -> ~ In (vkey v2) (map vkey (get_variants ch)) -> v_cp v2 <> ch_cp ch ->
       exists p, wk_new w' = wk_new w ++ [p] /\ In v1 (fst p) /\ In v2 (snd p)).
  Proof.
    intros [g rl nw] ch w' S Hwc Hne E. unfold merge_existing in E. cbn [wk_lgr wk_rules wk_new] in *. cbv zeta in E.
    rewrite get_char_lk in E by exact Hne. destruct (lk (lg_rep g) (ch_cp ch)) as [ex|] eqn:Ex; [|discriminate]. cbn [bind] in E.
    split; [discriminate|]. pose proof (lk_cp _ _ _ Ex) as Hcp. pose proof S as [Hwf _].
    match type of E with bind (put_all (edit_char _ ?n) _ _ _ _) _ = _ => set (ex1 := n) in * end.
    destruct (edit_grown g (ch_cp ch) ex ex1 S Ex eq_refl eq_refl eq_refl) as [S1 [R1 [L1 M1]]].
    apply bind_ok in E. destruct E as [g1 [E1 E]]. apply bind_ok in E. destruct E as [jw [Ew E]]. apply bind_ok in E. destruct E as [jn [En E]].
    destruct (put_all_grown _ _ _ _ _ _ S1 E1) as [[A1 A2 A3 A4 A5] _].
    destruct (A3 (ch_cp ch) ex1) as [ex2 [Ex2 Hs2]]; [rewrite L1, cps_eqb_refl; reflexivity|].
    rewrite get_char_lk in E by exact Hne. rewrite Ex2 in E. cbn [bind] in E. injection E as <-. cbn [wk_lgr wk_rules wk_new].
    match goal with |- context [edit_char g1 ?n] => set (ex3 := n) in * end.
    destruct (edit_grown g1 (ch_cp ch) ex2 ex3 A1 Ex2 eq_refl eq_refl eq_refl) as [S3 [R3 [L3 M3]]].
    assert (Hvn : forall v, In v (ord_variants (set_diff variant_eqb (get_variants ch) (get_variants ex))) <-> In v (get_variants ch) /\ fresh_at g (ch_cp ch) v).
    { intro v. rewrite (perm_In _ _ Pv), (variant_diff_In _ _ _ (get_variants_NoDup _ Hwc)), (fresh_iff g _ ex v Ex). tauto. }
    assert (Hvo : forall v, In v (ord_variants (set_diff variant_eqb (get_variants ex) (get_variants ch))) <->
              mapping (lg_rep g) (ch_cp ch) (v_cp v) v /\ ~ In (vkey v) (map vkey (get_variants ch))).
    { intro v. rewrite (perm_In _ _ Pv), (variant_diff_In _ _ _ (get_variants_NoDup _ (lk_wf _ _ _ Hwf Ex))), mapping_lk, Ex. split; (intros [H1 H2]; split; [|exact H2]).
      - exists ex. auto.
      - destruct H1 as [x [X1 [X2 _]]]. congruence. }
    split; [|split; [|split]].
    - constructor.
      + exact S3.
      + congruence.
      + intros a x Ha Hx. rewrite L3, (proj2 (cps_eqb_neq _ _) Ha). apply A3. rewrite L1, (proj2 (cps_eqb_neq _ _) Ha). exact Hx.
      + intros a Ha Hx. rewrite L3, (proj2 (cps_eqb_neq _ _) Ha). apply A4. rewrite L1, (proj2 (cps_eqb_neq _ _) Ha). exact Hx.
      + exists ex3. rewrite L3, cps_eqb_refl. split; [reflexivity|]. rewrite Ex. exists jw, jn. split; [exact Ew|]. split; [exact En|].
        destruct Hs2 as [B1 [B2 [B3 [B4 [B5 _]]]]]. unfold same_entry, old_head, ex3. cbn. repeat split; assumption.
      + intros a b w. rewrite M3, A5, M1. unfold added. rewrite Hcp. split; (intros [H|[H1 [H2 [v H]]]]; [auto|]); right; (split; [exact H1|]); (split; [exact H2|]); exists v.
        * destruct H as [V1 V2]. apply Hvn in V1. subst a. tauto.
        * subst a. destruct H as [V1 [V2 V3]]. split; [apply Hvn; auto|exact V3].
    - intro n. rewrite !more_rules_In. cbn [rule_pairs]. rewrite Ew, En. destruct jw as [ow xw], jn as [on xn]. cbn [snd]. split.
      + intros [[H|[s [k [r [X H]]]]]|[s [k [r [X H]]]]]; [auto| |]; right; exists s, k, r; (split; [|exact H]).
        * exists ow. left. congruence.
        * exists on. right. congruence.
      + intros [H|[s [k [r [[o [X|X]] H]]]]]; [auto| |]; injection X as _ X.
        * left. right. exists s, k, r. auto.
        * right. exists s, k, r. auto.
    - rewrite Hcp.
      match goal with |- context [match ?l with [] => _ | _ => _ end] => destruct l as [|p1 l1] eqn:D1; [auto|] end.
      match goal with |- context [match ?l with [] => _ | _ => _ end] => destruct l as [|p2 l2] eqn:D2; [auto|] end.
      right. eexists. split; [reflexivity|]. split; [congruence|]. cbn [fst snd]. split; [|split]; intros v Hv.
      + rewrite <- D1 in Hv. apply drop_itself_In in Hv. apply Hvn. exact Hv.
      + rewrite <- D2 in Hv. apply drop_itself_In in Hv. apply Hvo in Hv. tauto.
      + rewrite <- D2 in Hv. apply drop_itself_In in Hv. apply Hvo in Hv. tauto.
    - intros v1 v2 H1 H2 H3 H4 H5 H6. rewrite Hcp.
      assert (I1 : In v1 (drop_itself (ch_cp ch) (ord_variants (set_diff variant_eqb (get_variants ch) (get_variants ex))))) by (apply drop_itself_keeps; [apply Hvn; auto|exact H3]).
      assert (I2 : In v2 (drop_itself (ch_cp ch) (ord_variants (set_diff variant_eqb (get_variants ex) (get_variants ch))))) by (apply drop_itself_keeps; [apply Hvo; auto|exact H6]).
      match goal with |- context [match ?l with [] => _ | _ => _ end] => destruct l as [|p1 l1] eqn:D1; [destruct I1|] end.
      match goal with |- context [match ?l with [] => _ | _ => _ end] => destruct l as [|p2 l2] eqn:D2; [destruct I2|] end.
      eexists. split; [reflexivity|]. cbn [fst snd]. auto.
  Qed.
End Ord.
