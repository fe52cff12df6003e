From Coq Require Import Permutation.
From Verif Require Import Base BaseFacts CharModel RepSpec RepProofs VariantProofs IterProofs VarSetSpec VarSetProofs.
From Verif Require Import RefModel RefSpec RefProofs ActionModel LgrModel LgrSpec LgrProofs LgrReach LgrInv LgrRefs LgrTags LgrFinal.
From Verif Require Import ValidateModel ValidateSpec ValidateProofs PopulateModel PopulateSpec PopulateProofs.
From Verif Require Import CompareModel CompareSpec CompareProofs HarmonizeModel HarmonizeSpec HarmonizeProofs HarmonizeFinal.
From Verif Require Import SerialSpec SerialFinal MergeModel MergeProofs MergeSteps MergeLoop MergeSpec MergeRefs MergeFold MergeFinal MergeSucceedSpec.
Open Scope string_scope.
Open Scope list_scope.

(** ** Adding a variant *)
Lemma put_ok : forall g c v ty w nw cm rf ch, shape g -> lk (lg_rep g) c = Some ch -> v <> [] -> (w = None \/ nw = None) ->
  NoDup rf -> (forall x, In x rf -> defined_ref g x) -> ~ In (v, w, nw) (map vkey (get_variants ch)) ->
  exists g', finished (put_variant g c v ty w nw cm rf) = Ok g'.
Proof.
  intros g c v ty w nw cm rf ch [Hwf [Hdb [Hrg Hnr]]] El Hv Hx Hn Hd Hk.
  assert (Hc : c <> []) by (apply (lk_nonempty (lg_rep g)); congruence).
  assert (Ec : forall a, a <> [] -> check_convert g a = Ok a) by (intros a Ha; unfold check_convert, check_convert_with; rewrite Hdb; destruct a; [congruence|reflexivity]).
  unfold put_variant, lgr_add_variant. rewrite (Ec c Hc), (Ec v Hv). cbn [bind negb andb check_validating].
  replace (is_some w && is_some nw)%bool with false by (destruct Hx as [-> | ->]; [reflexivity|symmetry; apply andb_false_r]).
  destruct (collect_refs_cases g false rf) as [[e [H1 [_ [r [H2 _]]]]]|[H1 [H2 H3]]].
  { apply first_such_In in H2. destruct H2 as [H2 H4]. exfalso. apply H4. apply Hd. exact H2. }
  rewrite H1, (H3 eq_refl). rewrite andb_true_r. rewrite (proj2 (has_dup_false rf) Hn).
  unfold rep_add_variant. rewrite get_char_lk by exact Hc. rewrite El.
  destruct (add_variant_cases ch (mkVariant v ty w nw cm rf) (lk_wf _ _ _ Hwf El) (Hnr _ _ El) Hv) as [[X _]|[_ [ch' [Ea _]]]]; [contradiction|].
  rewrite Ea. eexists. reflexivity.
Qed.

Section Put.
  Variables (script : string) (mp : dict string string) (c : cps).
  Definition fine (g : lgr) (v : variant) : Prop :=
    v_cp v <> [] /\ (v_when v = None \/ v_not_when v = None) /\ NoDup (map (mapped mp) (v_refs v)) /\ forall x, In x (map (mapped mp) (v_refs v)) -> defined_ref g x.
  Lemma put_all_ok : forall vs g ch, shape g -> lk (lg_rep g) c = Some ch -> (forall v, In v vs -> fine g v) ->
    NoDup (map (fun v => vkey (carried script mp v)) vs) ->
    (forall v, In v vs -> ~ In (vkey (carried script mp v)) (map vkey (get_variants ch))) ->
    exists g', put_all g script mp c vs = Ok g'.
  Proof.
    induction vs as [|v vs IH]; intros g ch Hs Hl Hf Hn Hd; [eexists; reflexivity|].
    cbn [put_all]. destruct (Hf v (or_introl eq_refl)) as [F1 [F2 [F3 F4]]].
    destruct (put_ok g c (v_cp v) blocked (prefixed script (v_when v)) (prefixed script (v_not_when v)) (v_comment v) (map (mapped mp) (v_refs v)) ch) as [g1 E]; auto.
    { destruct F2 as [-> | ->]; [left|right]; reflexivity. }
    { apply (Hd v). left. reflexivity. }
    rewrite E. cbn [bind]. destruct (put_cases _ _ _ _ _ _ _ _ _ Hs E) as [_ [_ [_ [_ [x [ch' [X1 [_ [X2 [_ [_ [X3 _]]]]]]]]]]]].
    assert (x = ch) by congruence. subst x. cbn [map] in Hn. inversion Hn as [|? ? N1 N2]; subst.
    destruct (put_grown _ _ _ _ _ _ _ _ _ Hs E) as [[G1 G2 _ _ _] _]. destruct X2 as [_ Hl1].
    apply (IH g1 ch'); auto.
    - rewrite Hl1, cps_eqb_refl. reflexivity.
    - intros u Hu. destruct (Hf u (or_intror Hu)) as [A1 [A2 [A3 A4]]]. split; [exact A1|]. split; [exact A2|]. split; [exact A3|].
      intros y Hy. unfold defined_ref. rewrite G2. apply A4. exact Hy.
    - intros u Hu Hi. apply in_map_iff in Hi. destruct Hi as [y [Y1 Y2]]. apply X3 in Y2. destruct Y2 as [->|Y2].
      + apply N1. apply in_map_iff. exists u. split; [|exact Hu]. symmetry. exact Y1.
      + apply (Hd u (or_intror Hu)). rewrite <- Y1. apply in_map. exact Y2.
  Qed.
End Put.

(** ** Adding a code point *)
Lemma add_cp_ok : forall g c cm rf tg w nw, shape g -> c <> [] -> lk (lg_rep g) c = None -> (w = None \/ nw = None) -> NoDup rf ->
  (forall x, In x rf -> defined_ref g x) -> NoDup tg -> ((1 < length c)%nat -> tg = []) ->
  exists g', lgr_add_cp g c cm rf tg w nw None false false = (g', Ok tt).
Proof.
  intros g c cm rf tg w nw [_ [Hdb _]] Hc Hl Hx Hn Hd Ht Hs. destruct (add_cp_unfold g c cm rf tg w nw None false false) as [r [H1 H2]].
  rewrite H2. destruct r as [e|]; [|eexists; reflexivity]. exfalso. unfold add_cp_checks in H1. cbn [first_failing] in H1.
  destruct H1 as [[x [[A _] _]]|[_ H1]]; [contradiction|].
  destruct H1 as [[x [[_ [y [A _]]] _]]|[_ H1]].
  { apply first_such_In in A. destruct A as [_ [d [A _]]]. congruence. }
  destruct H1 as [[x [[_ [A [B _]]] _]]|[_ H1]]; [tauto|].
  destruct H1 as [[x [[v [y [A _]]] _]]|[_ H1]]; [discriminate|].
  destruct H1 as [[x [[_ [y [A _]]] _]]|[_ H1]].
  { apply first_such_In in A. destruct A as [A1 A2]. apply A2. apply Hd. exact A1. }
  destruct H1 as [[x [[_ [A _]] _]]|[_ H1]]; [contradiction|].
  destruct H1 as [[x [[_ [A [B _]]] _]]|[_ H1]]; [apply B; apply Hs; exact A|].
  destruct H1 as [[x [[_ [A _]] _]]|[_ H1]]; [contradiction|].
  destruct H1 as [[x [[A _] _]]|[_ H1]]; [|discriminate].
  apply A. rewrite lookup_lk. exact Hl.
Qed.

(** ** References *)
Lemma merge_refs_total : forall ins l m mp, (forall id r, In (id, r) l -> ref_id_ok id = true) -> exists p, merge_refs ins l m mp = Ok p.
Proof.
  intros ins. induction l as [|[id r] l IH]; intros m mp H; [eexists; reflexivity|]. cbn [merge_refs].
  assert (Hl : forall i x, In (i, x) l -> ref_id_ok i = true) by (intros i x Hi; apply (H i x); right; exact Hi).
  destruct (dget String.eqb (ref_value r) ins); [apply IH; exact Hl|].
  destruct (dmem String.eqb id (rm_refs m)) eqn:Em.
  - unfold rm_add. destruct (next_free _ _ _) as [z|] eqn:E; [apply IH; exact Hl|]. exfalso. exact (next_free_total _ _ E).
  - unfold rm_add. rewrite Em, (H id r (or_introl eq_refl)). cbn [negb]. apply IH. exact Hl.
Qed.

(** ** Names *)
Lemma with_script_inj : forall s a b, with_script s a = with_script s b -> a = b.
Proof. intros s a b H. unfold with_script in H. induction s as [|x s IH]; cbn in H; [congruence|]. injection H as H. auto. Qed.
Lemma prefixed_inj : forall s a b, a <> Some "" -> b <> Some "" -> prefixed s a = prefixed s b -> a = b.
Proof.
  intros s [a|] [b|] Ha Hb H; cbn in H; auto.
  - destruct a, b; try congruence. cbn in H. f_equal. injection H as H. apply (with_script_inj s). exact H.
  - destruct a; [congruence|discriminate].
  - destruct b; [congruence|discriminate].
Qed.
Lemma NoDup_map_inj : forall A B (f : A -> B) l, NoDup l -> (forall x y, In x l -> In y l -> f x = f y -> x = y) -> NoDup (map f l).
Proof.
  intros A B f l Hn. induction Hn as [|x l N1 N2 IH]; intro H; [constructor|]. cbn. constructor.
  - intro Hi. apply in_map_iff in Hi. destruct Hi as [y [Y1 Y2]]. rewrite (H y x) in Y2; cbn; auto.
  - apply IH. intros a b Ha Hb. apply H; right; assumption.
Qed.
Lemma NoDup_of_map : forall A B (f : A -> B) l, NoDup (map f l) -> NoDup l.
Proof. intros A B f l. apply NoDup_map_inv. Qed.

(** ** One entry *)
Definition silent (ch : char) : Prop := ch_when ch = None /\ ch_not_when ch = None /\ get_variants ch = [].
(** One list has all the variants of the other one. *)
Definition nested (a b : list variant) : Prop :=
  a = [] \/ b = [] \/ (forall v, In v a -> v_when v = None /\ v_not_when v = None) /\ (incl (map vkey a) (map vkey b) \/ incl (map vkey b) (map vkey a)).
Lemma nested_same : forall a b b', (forall v, In v b <-> In v b') -> nested a b -> nested a b'.
Proof.
  intros a b b' H [N|[N|[N1 N2]]]; [left; exact N|right; left|right; right].
  - subst b. destruct b' as [|v l]; [reflexivity|]. destruct (proj2 (H v) (or_introl eq_refl)).
  - split; [exact N1|]. assert (K : forall k, In k (map vkey b) <-> In k (map vkey b')) by (intro k; rewrite !in_map_iff; split; intros [v [V1 V2]]; exists v; (split; [exact V1|apply H; exact V2])).
    destruct N2 as [N|N]; [left; intros k Hk; apply K, N, Hk|right; intros k Hk; apply N, K, Hk].
Qed.
Lemma silent_nested : forall ch ex, silent ch \/ silent ex -> nested (get_variants ch) (get_variants ex).
Proof. intros ch ex [[_ [_ X]]|[_ [_ X]]]; [left|right; left]; exact X. Qed.
Section Ord.
  Variable ord_names : list string -> list string.
  Variable ord_variants : list variant -> list variant.
  Hypothesis Pn : forall l, Permutation (ord_names l) l.
  Hypothesis Pv : forall l, Permutation (ord_variants l) l.
  Section Member.
  Variables (script : string) (previous : list string) (ext : option (N -> list string)).
  Variables (mp : dict string string) (rules : list string).

  Record good (g : lgr) (ch : char) : Prop := mkGood {
    go_wf : wf_char ch;
    go_cp : ch_cp ch <> [];
    go_ord : orderly_char ch;
    go_nd : NoDup (map (mapped mp) (ch_refs ch));
    go_def : forall x, In x (map (mapped mp) (ch_refs ch)) -> defined_ref g x;
    go_var : forall v, In v (get_variants ch) -> fine mp g v /\ v_when v <> Some "" /\ v_not_when v <> Some ""
  }.
  Lemma good_refs : forall g g' ch, lg_refs g' = lg_refs g -> good g ch -> good g' ch.
  Proof.
    intros g g' ch H [A B C D E F]. constructor; auto.
    - intros x Hx. unfold defined_ref. rewrite H. apply E. exact Hx.
    - intros v Hv. destruct (F v Hv) as [[F1 [F2 [F3 F4]]] F5]. split; [|exact F5]. split; [exact F1|]. split; [exact F2|]. split; [exact F3|].
      intros x Hx. unfold defined_ref. rewrite H. apply F4. exact Hx.
  Qed.
  Lemma carried_keys : forall g ch vs, good g ch -> NoDup vs -> (forall v, In v vs -> In v (get_variants ch)) -> NoDup (map (fun v => vkey (carried script mp v)) vs).
  Proof.
    intros g ch vs G Hn Hs. apply NoDup_map_inj; [exact Hn|]. intros x y Hx Hy E.
    destruct (go_var _ _ G x (Hs x Hx)) as [_ [X1 X2]]. destruct (go_var _ _ G y (Hs y Hy)) as [_ [Y1 Y2]].
    unfold vkey, carried in E. cbn [v_cp v_when v_not_when] in E. injection E as E1 E2 E3.
    apply (NoDup_vkey_eq (get_variants ch)); [apply get_variants_NoDup; apply (go_wf _ _ G)|auto|auto|].
    unfold vkey. rewrite E1, (prefixed_inj _ _ _ X1 Y1 E2), (prefixed_inj _ _ _ X2 Y2 E3). reflexivity.
  Qed.
  Lemma new_tags_fine : forall ch, orderly_char ch -> NoDup (ord_names (new_tags ext script ch)) /\ ((1 < length (ch_cp ch))%nat -> ord_names (new_tags ext script ch) = []).
  Proof.
    intros ch [_ [Ho _]]. split; [apply (perm_NoDup _ _ Pn); apply (set_union_NoDup _ string_eqb_iff)|].
    intro H. assert (E : new_tags ext script ch = []).
    { unfold new_tags. rewrite (Ho H). destruct ext; [|reflexivity]. destruct (ch_cp ch) as [|x [|y t]]; cbn in *; [lia|lia|reflexivity]. }
    rewrite E. pose proof (Pn []) as P. apply Permutation_sym, Permutation_nil in P. exact P.
  Qed.

  Lemma merge_new_ok : forall w ch, shape (wk_lgr w) -> good (wk_lgr w) ch -> lk (lg_rep (wk_lgr w)) (ch_cp ch) = None ->
    exists w', merge_new ord_names script ext mp w ch = Ok w' /\ wk_new w' = wk_new w.
  Proof.
    intros w ch S G Hn.
    enough (X : exists w', merge_new ord_names script ext mp w ch = Ok w').
    { destruct X as [w' E]. exists w'. split; [exact E|]. apply (merge_new_one ord_names script previous ext mp w ch w' S (go_wf _ _ G) (go_cp _ _ G) Hn E). }
    destruct w as [g rl nw]. unfold merge_new. cbn [wk_lgr wk_rules wk_new] in *. destruct (new_tags_fine ch (go_ord _ _ G)) as [T1 T2].
    pose proof (go_ord _ _ G) as [_ [_ [Hcx _]]].
    destruct (add_cp_ok g (ch_cp ch) (ch_comment ch) (map (mapped mp) (ch_refs ch)) (ord_names (new_tags ext script ch))
                (prefixed script (ch_when ch)) (prefixed script (ch_not_when ch))) as [g1 E1]; auto.
    { apply (go_cp _ _ G). }
    { destruct Hcx as [-> | ->]; [left|right]; reflexivity. }
    { apply (go_nd _ _ G). }
    { apply (go_def _ _ G). }
    assert (E0 : merge_new ord_names script ext mp (mkWork g rl nw) (mkChar (ch_cp ch) (ch_kind ch) (ch_comment ch) (ch_refs ch) (ch_tags ch) (ch_when ch) (ch_not_when ch) []) = Ok (mkWork g1 rl nw)).
    { unfold merge_new. cbn [wk_lgr wk_rules wk_new ch_cp ch_comment ch_refs ch_tags ch_when ch_not_when].
      change (new_tags ext script (mkChar (ch_cp ch) (ch_kind ch) (ch_comment ch) (ch_refs ch) (ch_tags ch) (ch_when ch) (ch_not_when ch) [])) with (new_tags ext script ch).
      rewrite E1. reflexivity. }
    assert (Hw0 : wf_char (mkChar (ch_cp ch) (ch_kind ch) (ch_comment ch) (ch_refs ch) (ch_tags ch) (ch_when ch) (ch_not_when ch) [])).
    { destruct (go_wf _ _ G) as [_ W]. split; [split; [constructor|intros k l []]|]. cbn [ch_kind ch_cp ch_variants]. destruct (ch_kind ch); [exact W|exact W|]. tauto. }
    destruct (merge_new_one ord_names script previous ext mp (mkWork g rl nw) _ _ S Hw0 (go_cp _ _ G) Hn E0) as [[O1 O2 _ _ [c1 [O5 _]] O6] _].
    cbn [wk_lgr ch_cp] in *. rewrite E1. cbn [finished bind].
    assert (Hv : get_variants c1 = []).
    { destruct (get_variants c1) as [|v l] eqn:E; [reflexivity|]. exfalso. assert (M : mapping (lg_rep g1) (ch_cp ch) (v_cp v) v).
      { apply mapping_lk. exists c1. split; [exact O5|]. rewrite E. split; [left; reflexivity|reflexivity]. }
      apply O6 in M. destruct M as [M|[_ [_ [u [[] _]]]]]. rewrite mapping_lk, Hn in M. destruct M as [? [M _]]. discriminate. }
    destruct (put_all_ok script mp (ch_cp ch) (get_variants ch) g1 c1 O1 O5) as [g2 E2].
    - intros v Hi. apply (go_var _ _ (good_refs _ _ _ O2 G) v Hi).
    - apply (carried_keys _ _ _ G); [apply (NoDup_of_map _ _ vkey); apply get_variants_NoDup; apply (go_wf _ _ G)|auto].
    - intros v _. rewrite Hv. intros [].
    - rewrite E2. eexists. reflexivity.
  Qed.

  Lemma join_silent : forall e m c, e = None \/ m = None -> exists x, join_context script previous e m c = Ok x.
  Proof.
    intros e m c [-> | ->]; [|eexists; reflexivity]. destruct m as [m|]; [|eexists; reflexivity]. unfold join_context. destruct (truthy (Some m)); eexists; reflexivity.
  Qed.
  Definition fits (ch ex : char) : Prop :=
    (exists j, join_context script previous (ch_when ex) (ch_when ch) (ch_cp ch) = Ok j) /\
    (exists j, join_context script previous (ch_not_when ex) (ch_not_when ch) (ch_cp ch) = Ok j) /\ nested (get_variants ch) (get_variants ex).
  Lemma silent_fits : forall ch ex, silent ch \/ silent ex -> fits ch ex.
  Proof.
    intros ch ex H. split; [apply join_silent; destruct H as [[X _]|[X _]]; auto|]. split; [apply join_silent; destruct H as [[_ [X _]]|[_ [X _]]]; auto|apply silent_nested; exact H].
  Qed.
  Lemma ord_nil : ord_variants [] = [].
  Proof. pose proof (Pv []) as P. apply Permutation_sym, Permutation_nil in P. exact P. Qed.

  Lemma merge_existing_ok : forall w ch ex, shape (wk_lgr w) -> good (wk_lgr w) ch -> lk (lg_rep (wk_lgr w)) (ch_cp ch) = Some ex -> fits ch ex ->
    exists w', merge_existing ord_names ord_variants script previous ext mp rules w ch = Ok w' /\ wk_new w' = wk_new w.
  Proof.
    intros [g rl nw] ch ex S G Hl Hs. cbn [wk_lgr] in *. unfold merge_existing. cbn [wk_lgr wk_rules wk_new].
    rewrite get_char_lk by (apply (go_cp _ _ G)). rewrite Hl. cbn [bind]. pose proof (lk_cp _ _ _ Hl) as Hcp. rewrite Hcp.
    set (ex1 := mkChar (ch_cp ch) (ch_kind ex) (choose_comment (ch_comment ex) (ch_comment ch)) _ _ _ _ _).
    set (n1 := set_diff variant_eqb (get_variants ch) (get_variants ex)). set (n2 := set_diff variant_eqb (get_variants ex) (get_variants ch)).
    pose proof (get_variants_NoDup ch (go_wf _ _ G)) as Nk.
    assert (Hn1 : forall v, In v (ord_variants n1) <-> In v (get_variants ch) /\ ~ In (vkey v) (map vkey (get_variants ex))).
    { intro v. rewrite (perm_In _ _ Pv). apply variant_diff_In. exact Nk. }
    assert (Hemp : ord_variants n1 = [] \/ ord_variants n2 = []).
    { destruct Hs as [_ [_ [X|[X|[_ X]]]]]; [left; unfold n1; rewrite X; apply ord_nil|right; unfold n2; rewrite X; apply ord_nil|].
      destruct X as [X|X]; [left; destruct (ord_variants n1) as [|v l] eqn:E|right; destruct (ord_variants n2) as [|v l] eqn:E]; try reflexivity; exfalso.
      - destruct (proj1 (Hn1 v) (or_introl eq_refl)) as [V1 V2]. apply V2, X, in_map. exact V1.
      - assert (V : In v n2) by (apply (perm_In _ _ Pv); rewrite E; left; reflexivity). unfold n2 in V. apply variant_diff_In in V; [|apply get_variants_NoDup; apply (lk_wf _ _ _ (proj1 S) Hl)].
        destruct V as [V1 V2]. apply V2, X, in_map. exact V1. }
    destruct (edit_grown g (ch_cp ch) ex ex1 S Hl) as [S1 [R1 [L1 M1]]]; [unfold ex1; cbn; auto|reflexivity|reflexivity|].
    assert (Hput : exists g1, put_all (edit_char g ex1) script mp (ch_cp ch) (ord_variants n1) = Ok g1).
    { apply (put_all_ok script mp (ch_cp ch) (ord_variants n1) (edit_char g ex1) ex1); auto.
      - rewrite L1, cps_eqb_refl. reflexivity.
      - intros v Hv. apply Hn1 in Hv. apply (go_var _ _ (good_refs _ _ _ R1 G) v (proj1 Hv)).
      - apply (carried_keys _ _ _ G).
        + apply (perm_NoDup _ _ Pv). unfold n1, set_diff. apply NoDup_filter. destruct (dedup_vkey_aux (get_variants ch) []) as [X _]. apply (NoDup_of_map _ _ vkey). exact X.
        + intros v Hv. apply Hn1 in Hv. apply Hv.
      - intros v Hv Hi. assert (Hg : get_variants ex1 = get_variants ex) by reflexivity. rewrite Hg in Hi.
        destruct Hs as [_ [_ [X|[X|[X _]]]]]; [apply Hn1 in Hv; rewrite X in Hv; destruct Hv as [[] _]|rewrite X in Hi; destruct Hi|].
        apply Hn1 in Hv. destruct Hv as [V1 V2]. apply V2. destruct (X v V1) as [W1 W2]. unfold vkey, carried in Hi |- *. cbn [v_cp v_when v_not_when] in Hi. rewrite W1, W2 in *. exact Hi. }
    destruct Hput as [g1 E1]. rewrite E1. cbn [bind].
    destruct Hs as [[jw Ew] [[jn En] _]]. rewrite Ew. cbn [bind]. rewrite En. cbn [bind].
    destruct (put_all_grown _ _ _ _ _ _ S1 E1) as [[_ _ A3 _ _] _]. destruct (A3 (ch_cp ch) ex1) as [y [Y1 _]]; [rewrite L1, cps_eqb_refl; reflexivity|].
    rewrite get_char_lk by (apply (go_cp _ _ G)). rewrite Y1. cbn [bind]. eexists. split; [reflexivity|]. cbn [wk_new].
    destruct Hemp as [X|X]; rewrite X; cbn [drop_itself]; [reflexivity|]. destruct (drop_itself _ _); reflexivity.
  Qed.

  Lemma merge_loop_ok : forall g0 acc0 l D w, shape g0 -> through ord_names script previous ext mp rules g0 acc0 D w -> wk_new w = [] -> NoDup (map ch_cp (D ++ l)) ->
    (forall ch, In ch l -> good g0 ch /\ forall ex, lk (lg_rep g0) (ch_cp ch) = Some ex -> fits ch ex) ->
    exists w', merge_loop ord_names ord_variants script previous ext mp rules (cps_of g0) w l = Ok w' /\ wk_new w' = [].
  Proof.
    intros g0 acc0. induction l as [|ch l IH]; intros D w S T Hw Hn Hl; [exists w; split; [reflexivity|exact Hw]|].
    cbn [merge_loop]. destruct (Hl ch (or_introl eq_refl)) as [G Hs]. pose proof (good_refs _ _ _ (th_refs _ _ _ _ _ _ _ _ _ _ T) G) as Gw.
    pose proof (th_shape _ _ _ _ _ _ _ _ _ _ T) as Sw.
    replace (D ++ ch :: l) with ((D ++ [ch]) ++ l) in Hn by (rewrite <- app_assoc; reflexivity).
    assert (Hni : ~ In (ch_cp ch) (map ch_cp D)).
    { intro Hi. rewrite !map_app in Hn. cbn in Hn. rewrite <- app_assoc in Hn. apply NoDup_remove_2 in Hn. apply Hn. apply in_app_iff. auto. }
    assert (Step : exists w1, (if memb cps_eqb (ch_cp ch) (cps_of g0) then merge_existing ord_names ord_variants script previous ext mp rules w ch
       else merge_new ord_names script ext mp w ch) = Ok w1 /\ wk_new w1 = wk_new w).
    { destruct (memb cps_eqb (ch_cp ch) (cps_of g0)) eqn:Em.
      - apply (memb_In _ _ cps_eqb_eq) in Em. apply (proj1 (proj2 (shape_iter g0 S))) in Em. destruct (lk (lg_rep g0) (ch_cp ch)) as [x|] eqn:Ex; [|congruence].
        destruct (th_old _ _ _ _ _ _ _ _ _ _ T _ x Hni Ex) as [y [Y1 Y2]]. apply (merge_existing_ok w ch y Sw Gw Y1).
        destruct (Hs x eq_refl) as [C1 [C2 C3]]. destruct Y2 as [_ [_ [_ [_ [_ [A6 A7]]]]]]. split; [rewrite A6; exact C1|]. split; [rewrite A7; exact C2|].
        refine (nested_same _ _ _ _ C3). intro v. assert (M : mapping (lg_rep (wk_lgr w)) (ch_cp ch) (v_cp v) v <-> mapping (lg_rep g0) (ch_cp ch) (v_cp v) v).
        { rewrite (th_map _ _ _ _ _ _ _ _ _ _ T). split; [|auto]. intros [M|[_ [z [Z1 [Z2 _]]]]]; [exact M|]. exfalso. apply Hni. rewrite Z2. apply in_map. exact Z1. }
        rewrite !mapping_lk, Y1, Ex in M. split; intro Hv.
        + destruct (proj2 M) as [q [Q1 [Q2 _]]]; [exists x; auto|]. congruence.
        + destruct (proj1 M) as [q [Q1 [Q2 _]]]; [exists y; auto|]. congruence.
      - apply (merge_new_ok w ch Sw Gw). apply (th_none _ _ _ _ _ _ _ _ _ _ T _ Hni).
        destruct (lk (lg_rep g0) (ch_cp ch)) eqn:Ex; [|reflexivity]. exfalso. assert (Hin : In (ch_cp ch) (cps_of g0)) by (apply (proj1 (proj2 (shape_iter g0 S))); congruence).
        apply (memb_In _ _ cps_eqb_eq) in Hin. congruence. }
    destruct Step as [w1 [E1 E2]]. rewrite E1. cbn [bind]. apply (IH (D ++ [ch]) w1 S); auto.
    - apply (through_step ord_names ord_variants Pv script previous ext mp rules g0 acc0 D w ch w1 S T (go_wf _ _ G) (go_cp _ _ G) Hni E1).
    - congruence.
    - intros c Hc. apply Hl. right. exact Hc.
  Qed.
  End Member.

  (** ** One member *)
  Definition fitting (previous : list string) (st : merged) (m : member) : Prop :=
    forall a x ch, lk (lg_rep (mg_lgr st)) a = Some x -> lk (lg_rep (mb_lgr m)) a = Some ch -> fits (get_script m) previous ch x.
  Definition clash_free (st : merged) (m : member) : Prop :=
    forall a x ch, lk (lg_rep (mg_lgr st)) a = Some x -> lk (lg_rep (mb_lgr m)) a = Some ch -> silent ch \/ silent x.
  Lemma clash_fitting : forall previous st m, clash_free st m -> fitting previous st m.
  Proof. intros previous st m H a x ch Hx Hc. apply silent_fits. apply (H a x ch Hx Hc). Qed.
  Lemma merge_member_ok : forall previous st m, sound st -> proper (mb_lgr m) -> texts_once m -> contexts_named m ->
    mapping_of (mg_map st) (get_script m) = [] -> fitting previous st m ->
    exists st', merge_member ord_names ord_variants previous st m = Ok st'.
  Proof.
    intros previous st m [S Nd] Pm Ht Hc Hmap Hcl. pose proof (proper_tidy _ Pm) as T. unfold merge_member. cbv zeta.
    destruct (expanded_ok _ T) as [e [Ee Sp]]. rewrite Ee. cbn [finished bind].
    pose proof (spelled_expanded _ _ Sp) as X. pose proof Sp as [Re [_ [Hl [_ [Hrf [_ [Hnd _]]]]]]]. rewrite Hrf.
    unfold merge_references. rewrite Hmap.
    assert (Nm : NoDup (map fst (rm_refs (lg_refs (mb_lgr m))))) by (apply reachable_refs_nodup, tidy_reachable; exact T).
    destruct (merge_refs_total (inserted (lg_refs (mg_lgr st))) (rm_refs (lg_refs (mb_lgr m))) (lg_refs (mg_lgr st)) []) as [[m2 mp] E1].
    { intros id r Hi. apply (ids_ok _ (proper_ref_tidy _ Pm)). unfold defined_ref. assert (Hg : dget String.eqb id (rm_refs (lg_refs (mb_lgr m))) = Some r) by (apply (In_dget _ string_eqb_iff); assumption). congruence. }
    rewrite E1. cbn [bind fst snd].
    destruct (merge_refs_ok _ _ _ _ _ _ Nd Nm (fun v k => inserted_sound _ v k Nd) E1) as [_ [_ [_ [A4 _]]]].
    assert (Hmp : mapping_of (dset String.eqb (get_script m) mp (mg_map st)) (get_script m) = mp).
    { unfold mapping_of. rewrite (dget_dset _ string_eqb_iff), String.eqb_refl. reflexivity. }
    rewrite Hmp. set (g1 := set_refs (mg_lgr st) m2).
    assert (S1 : shape g1) by exact S.
    assert (Hid : forall rf, okrefs (lg_refs (mb_lgr m)) rf -> NoDup (map (mapped mp) rf) /\ forall x, In x (map (mapped mp) rf) -> defined_ref g1 x).
    { intros rf [K1 K2].
      assert (Hone : forall id, In id rf -> exists r r', dget String.eqb id (rm_refs (lg_refs (mb_lgr m))) = Some r /\ dget String.eqb (mapped mp id) (rm_refs m2) = Some r' /\ ref_value r' = ref_value r).
      { intros id Hi. specialize (K2 id Hi). destruct (dget String.eqb id (rm_refs (lg_refs (mb_lgr m)))) as [r|] eqn:E; [|congruence].
        destruct (A4 id r (dget_In _ string_eqb_iff _ _ _ E) eq_refl) as [r' [B1 B2]]. exists r, r'. auto. }
      split.
      - apply NoDup_map_inj; [exact K1|]. intros x y Hx Hy E. destruct (Hone x Hx) as [r1 [q1 [X1 [X2 X3]]]]. destruct (Hone y Hy) as [r2 [q2 [Y1 [Y2 Y3]]]].
        apply (Ht x y (ref_value r1)); unfold text_in; [rewrite X1; reflexivity|]. rewrite Y1. cbn [option_map]. f_equal. rewrite E in X2. congruence.
      - intros x Hx. apply in_map_iff in Hx. destruct Hx as [id [<- Hi]]. destruct (Hone id Hi) as [r [r' [_ [B _]]]]. unfold defined_ref, g1. cbn. congruence. }
    pose proof (lgr_reachable_wf e Re) as Wfe. pose proof (lgr_reachable_wf _ (tidy_reachable _ T)) as Wfm.
    destruct (ref_tidy_inv _ (proper_ref_tidy _ Pm)) as [_ Hrp].
    assert (Hgood : forall ch, In ch (rep_iter (lg_rep e)) -> good mp g1 ch /\ forall ex, lk (lg_rep g1) (ch_cp ch) = Some ex -> fits (get_script m) previous ch ex).
    { intros ch Hi. destruct (iter_general _ Wfe) as [_ [_ [Hsub _]]]. apply Hsub in Hi. apply (in_all_chars_lk _ _ Wfe) in Hi. pose proof (lk_wf _ _ _ Wfe Hi) as We.
      assert (Hne : ch_cp ch <> []) by (apply (lk_nonempty (lg_rep e)); congruence).
      rewrite Hl in Hi. destruct (lk (lg_rep (mb_lgr m)) (ch_cp ch)) as [c0|] eqn:E0; [|discriminate]. injection Hi as Hi.
      destruct (Hrp _ _ E0) as [P1 P2]. pose proof (proper_orderly _ Pm _ _ E0) as Po.
      assert (G0 : good mp g1 ch).
      { rewrite <- Hi in *. constructor; auto; cbn [single ch_refs].
        - apply Hid. exact P1.
        - apply Hid. exact P1.
        - intros v Hv. change (In v (get_variants c0)) in Hv. destruct (Hc (ch_cp c0) (v_cp v) v) as [C1 C2].
          { apply mapping_lk. exists c0. split; [exact E0|auto]. }
          split; [|auto]. split; [eapply variant_cp_nonempty; [exact We|exact Hv]|]. split; [apply Po; exact Hv|]. apply Hid. apply P2. exact Hv. }
      split; [exact G0|]. intros ex Hex. pose proof (Hcl _ ex c0 Hex E0) as H. rewrite <- Hi. exact H. }
    destruct (merge_loop_ok (get_script m) previous (mb_extensions m) mp (mb_rules m) g1 (mg_rules st) (rep_iter (lg_rep e)) [] (mkWork g1 (mg_rules st) []) S1) as [w' [E2 E3]]; auto.
    { apply through_start. exact S1. }
    unfold merge_chars. rewrite E2. cbn [bind]. rewrite E3. cbn [cross_all bind]. eexists. reflexivity.
  Qed.

  (** ** All members *)
  Lemma said_silent : forall m a ch, lk (lg_rep (mb_lgr m)) a = Some ch -> (nothing_said m a <-> silent ch).
  Proof.
    intros m a ch H. unfold nothing_said, silent, when_of, not_when_of. rewrite lookup_lk, H. split; intros [A [B C]]; (split; [exact A|]); (split; [exact B|]).
    - destruct (get_variants ch) as [|v l] eqn:E; [reflexivity|]. exfalso. apply (C (v_cp v) v). apply mapping_lk. exists ch. split; [exact H|]. rewrite E. split; [left|]; reflexivity.
    - intros b v M. rewrite mapping_lk, H in M. destruct M as [x [X1 [X2 _]]]. injection X1 as <-. rewrite C in X2. destruct X2.
  Qed.
  Lemma silent_dec : forall ch, silent ch \/ ~ silent ch.
  Proof.
    intro ch. unfold silent. destruct (ch_when ch); [right; intros [X _]; discriminate|]. destruct (ch_not_when ch); [right; intros [_ [X _]]; discriminate|].
    destruct (get_variants ch); [left; auto|right; intros [_ [_ X]]; discriminate].
  Qed.
  Record ready (D : list member) (st : merged) : Prop := mkReady {
    rd_sound : sound st;
    rd_maps : forall s, ~ In s (map get_script D) -> mapping_of (mg_map st) s = [];
    rd_from : forall a, lk (lg_rep (mg_lgr st)) a <> None -> exists m, In m D /\ has_cp m a;
    rd_silent : forall a x, lk (lg_rep (mg_lgr st)) a = Some x -> (forall m, In m D -> has_cp m a -> nothing_said m a) -> silent x
  }.
  Lemma ready_clash : forall D st m rest, ready D st -> one_speaks (D ++ m :: rest) -> clash_free st m.
  Proof.
    intros D st m rest R O a x ch Hx Hc. destruct (silent_dec ch) as [H|H]; [left; exact H|]. right. apply (rd_silent _ _ R a x Hx).
    intros m1 H1 H2. apply in_split in H1. destruct H1 as [d1 [d2 ->]].
    assert (Hm : has_cp m a) by (unfold has_cp; rewrite lookup_lk; congruence).
    destruct (O a m1 m (d1 ++ d2 ++ rest)) as [X|X]; auto.
    - rewrite <- app_assoc. cbn [app]. apply Permutation_sym. apply Permutation_cons_app. rewrite !app_assoc. apply Permutation_middle.
    - apply (said_silent m a ch Hc) in X. contradiction.
  Qed.
  Lemma ready_step : forall D st m st' previous P, ready D st -> clash_free st m -> took ord_names previous st st' m P -> ready (D ++ [m]) st'.
  Proof.
    intros D st m st' previous P R Hcl T. constructor.
    - apply (tk_sound _ _ _ _ _ _ T).
    - intros s Hs. rewrite map_app, in_app_iff in Hs. cbn in Hs. rewrite (tk_maps _ _ _ _ _ _ T) by (intro; subst; tauto). apply (rd_maps _ _ R). tauto.
    - intros a Ha. apply (tk_entries _ _ _ _ _ _ T) in Ha. destruct Ha as [Ha|Ha].
      + destruct (rd_from _ _ R a Ha) as [x [X1 X2]]. exists x. rewrite in_app_iff. auto.
      + exists m. rewrite in_app_iff. split; [cbn; auto|]. unfold has_cp. rewrite lookup_lk. exact Ha.
    - intros a y Hy Hs.
      assert (Hold : forall x, lk (lg_rep (mg_lgr st)) a = Some x -> silent x).
      { intros x Hx. apply (rd_silent _ _ R a x Hx). intros z Hz. apply Hs. rewrite in_app_iff. auto. }
      assert (Hmine : forall ch, lk (lg_rep (mb_lgr m)) a = Some ch -> silent ch).
      { intros ch Hc. apply (said_silent m a ch Hc). apply Hs; [rewrite in_app_iff; cbn; auto|]. unfold has_cp. rewrite lookup_lk. congruence. }
      assert (Hvar : get_variants y = []).
      { destruct (get_variants y) as [|v l] eqn:E; [reflexivity|]. exfalso. assert (M : mapping (lg_rep (mg_lgr st')) a (v_cp v) v).
        { apply mapping_lk. exists y. split; [exact Hy|]. rewrite E. split; [left|]; reflexivity. }
        apply (tk_map _ _ _ _ _ _ T) in M. destruct M as [M|[[u [M _]]|[_ J]]].
        - apply mapping_lk in M. destruct M as [x [X1 [X2 _]]]. destruct (Hold x X1) as [_ [_ X]]. rewrite X in X2. destruct X2.
        - apply mapping_lk in M. destruct M as [x [X1 [X2 _]]]. destruct (Hmine x X1) as [_ [_ X]]. rewrite X in X2. destruct X2.
        - destruct J as [l1 [l2 [v1 [v2 [J1 [J2 [J3 _]]]]]]]. destruct (tk_pairs _ _ _ _ _ _ T _ J1) as [b [_ [_ [B1 [B2 _]]]]]. cbn [fst snd] in *.
          destruct (B1 v1 J2) as [M1 _]. pose proof (B2 v2 J3) as M2. apply mapping_lk in M1. apply mapping_lk in M2.
          destruct M1 as [c1 [X1 [X2 _]]]. destruct M2 as [c2 [Y1 [Y2 _]]]. destruct (Hcl b c2 c1 Y1 X1) as [[_ [_ X]]|[_ [_ X]]]; [rewrite X in X2; destruct X2|rewrite X in Y2; destruct Y2]. }
      destruct (lk (lg_rep (mb_lgr m)) a) as [ch|] eqn:Em.
      + destruct (tk_here _ _ _ _ _ _ T a ch Em) as [z [Z1 Z2]]. assert (z = y) by congruence. subst z. destruct (Hmine ch eq_refl) as [C1 [C2 _]].
        destruct (lk (lg_rep (mg_lgr st)) a) as [ex|] eqn:Ex; unfold head_step in Z2.
        * destruct (Hold ex eq_refl) as [D1 [D2 _]]. rewrite C1, C2, D1, D2 in Z2. destruct Z2 as [jw [jn [J1 [J2 [_ [_ [_ [_ [_ [A6 A7]]]]]]]]]].
          injection J1 as <-. injection J2 as <-. split; [exact A6|]. split; [exact A7|exact Hvar].
        * destruct Z2 as [_ [_ [_ [_ [_ [A6 A7]]]]]]. unfold new_head in A6, A7. cbn [ch_when ch_not_when] in A6, A7. rewrite C1 in A6. rewrite C2 in A7. split; [exact A6|]. split; [exact A7|exact Hvar].
      + destruct (lk (lg_rep (mg_lgr st)) a) as [x|] eqn:Ex.
        * destruct (tk_old _ _ _ _ _ _ T a x Em Ex) as [z [Z1 [_ [_ [_ [_ [_ [A6 A7]]]]]]]]. assert (z = y) by congruence. subst z. destruct (Hold x eq_refl) as [D1 [D2 _]].
          split; [congruence|]. split; [congruence|exact Hvar].
        * exfalso. assert (H : lk (lg_rep (mg_lgr st')) a <> None) by congruence. apply (tk_entries _ _ _ _ _ _ T) in H. destruct H; congruence.
  Qed.
  Lemma merge_members_ok : forall l D st, ready D st -> one_speaks (D ++ l) -> NoDup (map get_script (D ++ l)) ->
    (forall m, In m l -> proper (mb_lgr m) /\ texts_once m /\ contexts_named m) ->
    exists st', merge_members ord_names ord_variants (map get_script D) st l = Ok st'.
  Proof.
    induction l as [|m l IH]; intros D st R O Hn Hl; [eexists; reflexivity|]. cbn [merge_members].
    destruct (Hl m (or_introl eq_refl)) as [H1 [H2 H3]]. pose proof (ready_clash D st m l R O) as Hcl.
    destruct (merge_member_ok (map get_script D) st m (rd_sound _ _ R) H1 H2 H3) as [st1 E].
    { apply (rd_maps _ _ R). intro Hi. rewrite map_app in Hn. cbn in Hn. apply NoDup_remove_2 in Hn. apply Hn. apply in_app_iff. auto. }
    { apply clash_fitting. exact Hcl. }
    rewrite E. cbn [bind]. destruct (member_took ord_names ord_variants Pv _ _ _ _ (rd_sound _ _ R) (proper_tidy _ H1) E) as [P T].
    replace (map get_script D ++ [get_script m]) with (map get_script (D ++ [m])) by (rewrite map_app; reflexivity).
    apply IH.
    - eapply ready_step; eauto.
    - rewrite <- app_assoc. exact O.
    - rewrite <- app_assoc. exact Hn.
    - intros x Hx. apply Hl. right. exact Hx.
  Qed.
  Theorem merge_succeeds : forall l, (forall m, In m l -> proper (mb_lgr m) /\ texts_once m /\ contexts_named m) -> NoDup (map get_script l) -> one_speaks l ->
    exists st, merge_lgr_set ord_names ord_variants l = Ok st.
  Proof.
    intros l Hl Hn O. unfold merge_lgr_set. assert (Hp : Permutation (isort script_leb l) l) by (apply Permutation_sym, isort_perm).
    apply (merge_members_ok (isort script_leb l) [] start).
    - constructor.
      + apply start_sound.
      + intros s _. reflexivity.
      + intros a Ha. rewrite start_lk in Ha. congruence.
      + intros a x Hx. rewrite start_lk in Hx. discriminate.
    - intros c m1 m2 rest H. apply (O c m1 m2 rest). eapply Permutation_trans; [apply Permutation_sym; exact Hp|exact H].
    - cbn [app]. eapply Permutation_NoDup; [apply Permutation_map; apply Permutation_sym; exact Hp|exact Hn].
    - intros m Hm. apply Hl. eapply Permutation_in; [exact Hp|exact Hm].
  Qed.
End Ord.
