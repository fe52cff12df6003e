From Coq Require Import Permutation.
From Verif Require Import Base BaseFacts CharModel RepSpec RepProofs VariantProofs IterProofs VarSetSpec VarSetProofs UtilsModel UtilsSpec UtilsProofs.
From Verif Require Import RefModel RefSpec RefProofs ActionModel LgrModel LgrSpec LgrProofs LgrReach LgrInv LgrRefs LgrTags LgrFinal Rfc7940Model.
From Verif Require Import ValidateModel ValidateSpec ValidateProofs PopulateModel PopulateSpec PopulateProofs MetaModel MetaSpec.
From Verif Require Import CompareModel CompareSpec CompareProofs HarmonizeModel HarmonizeSpec HarmonizeProofs HarmonizeFinal.
From Verif Require Import SerialModel SerialSpec SerialProofs SerialFinal ForceProofs AgainRead MergeMetaModel MergeMetaSpec MergeMetaProofs MergeMetaOrder MergeMetaRead.
From Verif Require Import MergeModel MergeProofs MergeSteps MergeLoop MergeSpec MergeRefs MergeFold MergeFinal MergeSucceedSpec MergeSucceed MergeContext MergeAgree CombineSpec MergeReadModel MergeReadSpec MergeRead.
Open Scope string_scope.
Open Scope list_scope.

(** ** Words *)
Lemma word_list : forall l, (forall w, In w l -> word w) -> writable_words l.
Proof. intros l H. split; [|intros w Hw; apply (H w Hw)]. intro E. subst l. destruct (H "" (or_introl eq_refl)) as [X _]. congruence. Qed.
Lemma txt_append : forall a b, txt (a ++ b)%string = txt a ++ txt b.
Proof. induction a as [|x a IH]; intro b; [reflexivity|]. cbn. rewrite IH. reflexivity. Qed.
Lemma spaceless_app : forall a b, spaceless a -> spaceless b -> spaceless (a ++ b)%string.
Proof. intros a b Ha Hb. unfold spaceless in *. rewrite txt_append, in_app_iff. tauto. Qed.
Lemma tag_word : forall s t, spaceless s -> spaceless t -> word (rename_tag s t).
Proof.
  intros s t Hs Ht. unfold rename_tag. destruct (has_colon t) eqn:E.
  - split; [|exact Ht]. intro X. subst t. discriminate.
  - unfold with_script. split.
    + intro X. destruct s; discriminate.
    + apply spaceless_app; [exact Hs|]. apply spaceless_app; [|exact Ht]. unfold spaceless. cbn. intros [H|[]]. discriminate.
Qed.
Lemma ref_word : forall g id, ref_tidy g -> ~ defined_ref g "" -> defined_ref g id -> word id.
Proof. intros g id Ht He Hd. split; [intro; subst; contradiction|]. apply id_spaceless. apply (ids_ok g Ht). exact Hd. Qed.

(** ** References *)
Definition base (rm : refman) : lgr := set_refs (new_lgr None false) rm.
Record refs_fit (rm : refman) : Prop := mkRefsFit {
  rf_tidy : ref_tidy (base rm);
  rf_ids : ~ defined_ref (base rm) "";
  rf_comments : comments_writable rm
}.
Lemma refs_fit_add : forall m v c id m' n, refs_fit m -> rm_add m v c id = (m', Ok n) -> (forall i, id = Some i -> i <> "") -> c <> Some "" -> refs_fit m' /\ word n.
Proof.
  intros m v c id m' n [H1 H2 H3] E Hi Hc. destruct (rm_add_some _ _ _ _ _ _ E) as [A1 [A2 A3]].
  assert (T : ref_tidy (base m')).
  { pose proof (rt_step (base m) (LAddReference v c id) H1 I) as X. unfold lgr_step, lgr_add_reference in X. cbn [base set_refs lg_refs] in X. rewrite E in X. exact X. }
  assert (Hn : n <> "").
  { destruct id as [i|]; [rewrite (A3 i eq_refl); apply (Hi i eq_refl)|]. unfold rm_add in E. destruct (next_free _ _ _) as [z|]; [|discriminate]. injection E as <- <-. apply str_Z_nonempty. }
  assert (Hd : defined_ref (base m') n).
  { unfold defined_ref. cbn [base set_refs lg_refs]. rewrite A2, String.eqb_refl. discriminate. }
  assert (F : refs_fit m').
  { constructor; [exact T| |].
    - unfold defined_ref. cbn [base set_refs lg_refs]. rewrite A2. destruct (String.eqb "" n) eqn:X; [apply String.eqb_eq in X; congruence|]. exact H2.
    - intros k r. rewrite A2. destruct (String.eqb k n); [intro X; injection X as <-; exact Hc|apply H3]. }
  split; [exact F|]. apply (ref_word (base m')); [apply F|apply F|exact Hd].
Qed.
Lemma merge_refs_fit : forall ins l m mp m' mp', merge_refs ins l m mp = Ok (m', mp') -> (forall v k, dget String.eqb v ins = Some k -> word k) ->
  (forall id r, In (id, r) l -> id <> "" /\ ref_comment r <> Some "") -> refs_fit m -> (forall k n, dget String.eqb k mp = Some n -> word n) ->
  refs_fit m' /\ forall k n, dget String.eqb k mp' = Some n -> word n.
Proof.
  intros ins. induction l as [|[id r] l IH]; intros m mp m' mp' E Hi Hl Hm Hp; [injection E as <- <-; auto|]. cbn [merge_refs] in E.
  assert (Hl' : forall i x, In (i, x) l -> i <> "" /\ ref_comment x <> Some "") by (intros i x Hx; apply (Hl i x); right; exact Hx).
  destruct (Hl id r (or_introl eq_refl)) as [L1 L2].
  assert (Hset : forall n, word n -> forall k x, dget String.eqb k (dset String.eqb id n mp) = Some x -> word x).
  { intros n Hn k x. rewrite (dget_dset _ string_eqb_iff). destruct (String.eqb k id); [intro X; injection X as <-; exact Hn|apply Hp]. }
  destruct (dget String.eqb (ref_value r) ins) as [k|] eqn:Ek.
  - apply (IH _ _ _ _ E); auto. destruct (String.eqb id k); [exact Hp|]. apply Hset. apply (Hi _ _ Ek).
  - destruct (dmem String.eqb id (rm_refs m)).
    + destruct (rm_add m (ref_value r) (ref_comment r) None) as [m1 [n|e]] eqn:Ea; [|discriminate].
      destruct (refs_fit_add _ _ _ _ _ _ Hm Ea) as [F1 F2]; [discriminate|exact L2|]. apply (IH _ _ _ _ E); auto. apply Hset. exact F2.
    + destruct (rm_add m (ref_value r) (ref_comment r) (Some id)) as [m1 [n|e]] eqn:Ea; [|discriminate].
      destruct (refs_fit_add _ _ _ _ _ _ Hm Ea) as [F1 F2]; [intros i X; injection X as <-; exact L1|exact L2|]. apply (IH _ _ _ _ E); auto.
Qed.

(** ** Entries *)
Definition words (l : list string) : Prop := forall w, In w l -> word w.
Definition entry_fit (ch : char) : Prop := words (ch_refs ch) /\ words (ch_tags ch) /\ forall v, In v (get_variants ch) -> words (v_refs v).
Definition maps_fit (maps : dict string (dict string string)) : Prop := forall s k n, dget String.eqb k (mapping_of maps s) = Some n -> word n.
Lemma mapped_words : forall mp l, (forall k n, dget String.eqb k mp = Some n -> word n) -> words l -> words (map (mapped mp) l).
Proof.
  intros mp l Hm Hl w Hw. apply in_map_iff in Hw. destruct Hw as [x [<- Hx]]. unfold mapped. destruct (dget String.eqb x mp) eqn:E; [apply (Hm _ _ E)|apply Hl; exact Hx].
Qed.

Section Ord.
  Variable ord_names : list string -> list string.
  Variable ord_variants : list variant -> list variant.
  Hypothesis Pn : forall l, Permutation (ord_names l) l.
  Hypothesis Pv : forall l, Permutation (ord_variants l) l.

  Record fit (st : merged) : Prop := mkFit {
    ft_sound : sound st;
    ft_refs : refs_fit (lg_refs (mg_lgr st));
    ft_maps : maps_fit (mg_map st);
    ft_entries : forall a y, lk (lg_rep (mg_lgr st)) a = Some y -> entry_fit y
  }.
  Lemma member_refs : forall previous st m st', sound st -> tidy (mb_lgr m) -> merge_member ord_names ord_variants previous st m = Ok st' ->
    exists mp, merge_refs (inserted (lg_refs (mg_lgr st))) (rm_refs (lg_refs (mb_lgr m))) (lg_refs (mg_lgr st)) (mapping_of (mg_map st) (get_script m)) = Ok (lg_refs (mg_lgr st'), mp) /\
      mg_map st' = dset String.eqb (get_script m) mp (mg_map st).
  Proof.
    intros previous st m st' [S Nd] T E. unfold merge_member in E. cbv zeta in E.
    destruct (expanded_ok _ T) as [e [Ee Sp]]. rewrite Ee in E. cbn [finished bind] in E.
    pose proof (spelled_expanded _ _ Sp) as X. pose proof Sp as [_ [_ [Hl [_ [Hrf _]]]]]. rewrite Hrf in E.
    apply bind_ok in E. destruct E as [[m1 maps] [E1 E]]. cbn [fst snd] in E. apply bind_ok in E. destruct E as [[g' acc'] [E2 E]]. injection E as <-.
    unfold merge_references in E1. apply bind_ok in E1. destruct E1 as [[m2 mp] [E1 E3]]. injection E3 as <- <-. cbn [fst snd mg_lgr mg_map] in *.
    assert (S1 : shape (set_refs (mg_lgr st) m2)) by exact S.
    destruct (merge_chars_absorbed ord_names ord_variants Pv _ _ _ _ _ _ e _ g' acc' S1 X E2) as [P [B1 B2 B3 B4 B5 B6 B7 B8 B9]].
    exists mp. rewrite B2. split; [exact E1|reflexivity].
  Qed.
  Lemma member_words : forall m, ref_tidy (mb_lgr m) -> printable m -> forall c ch, lk (lg_rep (mb_lgr m)) c = Some ch ->
    words (ch_refs ch) /\ (forall v, In v (get_variants ch) -> words (v_refs v)) /\ words (new_tags (mb_extensions m) (get_script m) ch).
  Proof.
    intros m T [P1 P2 P3 P4 P5] c ch H. destruct (ref_tidy_inv _ T) as [_ R]. destruct (R c ch H) as [[_ R1] R2]. split; [|split].
    - intros w Hw. apply (ref_word (mb_lgr m)); auto. apply R1. exact Hw.
    - intros v Hv w Hw. apply (ref_word (mb_lgr m)); auto. destruct (R2 v Hv) as [_ X]. apply X. exact Hw.
    - intros w Hw. unfold new_tags in Hw. rewrite (set_union_In _ string_eqb_iff), in_map_iff in Hw. destruct Hw as [[x [<- Hx]]|Hw].
      + apply tag_word; [exact P1|]. destruct (P2 c ch) as [_ X]; [rewrite lookup_lk; exact H|]. apply X. exact Hx.
      + destruct (mb_extensions m) as [f|] eqn:Ef; [|destruct Hw]. destruct (ch_cp ch) as [|x [|y t]]; try destruct Hw; try (eapply P3; eauto; fail).
        all: apply (P3 f x); auto.
  Qed.
  Lemma fit_step : forall previous st m st', fit st -> tidy (mb_lgr m) -> ref_tidy (mb_lgr m) -> printable m ->
    merge_member ord_names ord_variants previous st m = Ok st' -> fit st'.
  Proof.
    intros previous st m st' F T RT Pm E. destruct (member_took ord_names ord_variants Pv _ _ _ _ (ft_sound _ F) T E) as [P K].
    destruct (member_refs _ _ _ _ (ft_sound _ F) T E) as [mp [E1 E2]].
    destruct (merge_refs_fit _ _ _ _ _ _ E1) as [G1 G2].
    { intros v k Hk. destruct (inserted_sound _ v k (proj2 (ft_sound _ F)) Hk) as [r [R _]].
      apply (ref_word (base (lg_refs (mg_lgr st)))); [apply (ft_refs _ F)|apply (ft_refs _ F)|]. unfold defined_ref. cbn [base set_refs lg_refs]. congruence. }
    { intros id r Hin. assert (Hg : dget String.eqb id (rm_refs (lg_refs (mb_lgr m))) = Some r).
      { apply (In_dget _ string_eqb_iff); [apply (ref_tidy_inv _ RT)|exact Hin]. }
      split; [|apply (pm_comments _ Pm id r Hg)]. intro X. subst id. apply (pm_ids _ Pm). unfold defined_ref. congruence. }
    { apply (ft_refs _ F). }
    { apply (ft_maps _ F). }
    assert (Hmp : mapping_of (mg_map st') (get_script m) = mp).
    { rewrite E2. unfold mapping_of. rewrite (dget_dset _ string_eqb_iff), String.eqb_refl. reflexivity. }
    constructor.
    - apply (tk_sound _ _ _ _ _ _ K).
    - exact G1.
    - intros s k n. destruct (String.eqb s (get_script m)) eqn:Es.
      + apply String.eqb_eq in Es. subst s. rewrite Hmp. apply G2.
      + apply String.eqb_neq in Es. rewrite (tk_maps _ _ _ _ _ _ K s Es). apply (ft_maps _ F).
    - intros a y Hy.
      assert (Hvar : forall v, In v (get_variants y) -> words (v_refs v)).
      { intros v Hv. assert (M : mapping (lg_rep (mg_lgr st')) a (v_cp v) v) by (apply mapping_lk; eauto).
        apply (tk_map _ _ _ _ _ _ K) in M. destruct M as [M|[[u [M [_ ->]]]|[_ J]]].
        - apply mapping_lk in M. destruct M as [x [X1 [X2 _]]]. apply (ft_entries _ F a x X1). exact X2.
        - apply mapping_lk in M. destruct M as [x [X1 [X2 _]]]. cbn [carried v_refs]. rewrite Hmp. apply mapped_words; [exact G2|].
          apply (member_words m RT Pm a x X1). exact X2.
        - destruct J as [l1 [l2 [v1 [v2 [_ [_ [_ [[_ ->]|[_ ->]]]]]]]]]; intros w []. }
      destruct (lk (lg_rep (mb_lgr m)) a) as [ch|] eqn:Em.
      + destruct (tk_here _ _ _ _ _ _ K a ch Em) as [z [Z1 Z2]]. assert (z = y) by congruence. subst z.
        destruct (member_words m RT Pm a ch Em) as [W1 [W2 W3]].
        destruct (lk (lg_rep (mg_lgr st)) a) as [ex|] eqn:Ex; unfold head_step in Z2.
        * destruct (ft_entries _ F a ex Ex) as [D1 [D2 _]]. destruct Z2 as [jw [jn [_ [_ [_ [_ [_ [A4 [A5 _]]]]]]]]].
          unfold old_head in A4, A5. cbn [ch_refs ch_tags] in A4, A5. split; [|split; [|exact Hvar]].
          -- rewrite A4. intros w Hw. apply (Permutation_in _ (Pn _)) in Hw. rewrite (set_union_In _ string_eqb_iff) in Hw. destruct Hw; auto.
          -- rewrite A5. intros w Hw. apply (Permutation_in _ (Pn _)) in Hw. rewrite (set_union_In _ string_eqb_iff) in Hw. destruct Hw as [Hw|Hw]; [auto|].
             apply W3. apply (Permutation_in _ (Pn _)) in Hw. exact Hw.
        * destruct Z2 as [_ [_ [_ [A4 [A5 _]]]]]. unfold new_head in A4, A5. cbn [ch_refs ch_tags] in A4, A5. split; [|split; [|exact Hvar]].
          -- rewrite A4, Hmp. apply mapped_words; [exact G2|exact W1].
          -- rewrite A5. intros w Hw. apply W3. apply (Permutation_in _ (Pn _)) in Hw. exact Hw.
      + destruct (lk (lg_rep (mg_lgr st)) a) as [x|] eqn:Ex.
        * destruct (tk_old _ _ _ _ _ _ K a x Em Ex) as [z [Z1 [_ [_ [_ [A4 [A5 _]]]]]]]. assert (z = y) by congruence. subst z.
          destruct (ft_entries _ F a x Ex) as [D1 [D2 _]]. split; [rewrite A4; exact D1|]. split; [rewrite A5; exact D2|exact Hvar].
        * exfalso. assert (H : lk (lg_rep (mg_lgr st')) a <> None) by congruence. apply (tk_entries _ _ _ _ _ _ K) in H. destruct H; congruence.
  Qed.
  Lemma fit_members : forall l previous st st', fit st -> (forall m, In m l -> tidy (mb_lgr m) /\ ref_tidy (mb_lgr m) /\ printable m) ->
    merge_members ord_names ord_variants previous st l = Ok st' -> fit st'.
  Proof.
    induction l as [|m l IH]; intros previous st st' F Hl E; [injection E as <-; exact F|]. cbn [merge_members] in E. apply bind_ok in E. destruct E as [st1 [E1 E]].
    destruct (Hl m (or_introl eq_refl)) as [H1 [H2 H3]]. apply (IH (previous ++ [get_script m]) st1 st'); auto; [eapply fit_step; eauto|]. intros x Hx. apply Hl. right. exact Hx.
  Qed.
  Lemma fit_merged : forall l st, (forall m, In m l -> tidy (mb_lgr m) /\ ref_tidy (mb_lgr m) /\ printable m) -> merge_lgr_set ord_names ord_variants l = Ok st -> fit st.
  Proof.
    intros l st Hl E. apply (fit_members (isort script_leb l) [] start st); auto.
    - constructor; [apply start_sound| | |].
      + constructor; [apply rt_new|intro X; apply X; reflexivity|intros id r X; discriminate].
      + intros s k n X. discriminate.
      + intros a y X. rewrite start_lk in X. discriminate.
    - intros m Hm. apply Hl. apply (proj1 (isort_In script_leb m l)). exact Hm.
  Qed.

  (** ** Citations of variants *)
  Definition Q_cites (D : list member) (st : merged) : Prop := NoDup (map get_script D) ->
    (forall s, ~ In s (map get_script D) -> mapping_of (mg_map st) s = []) /\
    forall a b v r, mapping (lg_rep (mg_lgr st)) a b v -> In r (v_refs v) -> dget String.eqb r (rm_refs (lg_refs (mg_lgr st))) <> None.
  Lemma cites_step : forall D st m st' P, ref_tidy (mb_lgr m) -> Q_cites D st -> took ord_names (map get_script D) st st' m P -> Q_cites (D ++ [m]) st'.
  Proof.
    intros D st m st' P RT IH K Hn. rewrite map_app in Hn. cbn [map] in Hn.
    assert (Hs : ~ In (get_script m) (map get_script D)) by (intro X; apply NoDup_remove_2 in Hn; apply Hn; rewrite app_nil_r; exact X).
    destruct IH as [I1 I2]; [apply NoDup_app_iff in Hn; apply Hn|]. split.
    - intros s X. rewrite map_app, in_app_iff in X. cbn in X. rewrite (tk_maps _ _ _ _ _ _ K) by (intro; subst; tauto). apply I1. tauto.
    - intros a b v r M Hr. apply (tk_map _ _ _ _ _ _ K) in M. destruct M as [M|[[u [M [_ ->]]]|[_ J]]].
      + destruct (dget String.eqb r (rm_refs (lg_refs (mg_lgr st)))) as [x|] eqn:E; [|exfalso; apply (I2 a b v r M Hr E)]. rewrite (tk_kept _ _ _ _ _ _ K _ _ E). discriminate.
      + apply mapping_lk in M. destruct M as [x [X1 [X2 _]]]. cbn [carried v_refs] in Hr. apply in_map_iff in Hr. destruct Hr as [id [<- Hi]].
        destruct (ref_tidy_inv _ RT) as [_ R]. destruct (R a x X1) as [_ R2]. destruct (R2 u X2) as [_ R3]. specialize (R3 id Hi).
        destruct (dget String.eqb id (rm_refs (lg_refs (mb_lgr m)))) as [y|] eqn:E; [|congruence].
        destruct (tk_refs _ _ _ _ _ _ K id y E) as [z [Z _]]; [rewrite (I1 _ Hs); reflexivity|]. congruence.
      + destruct J as [l1 [l2 [v1 [v2 [_ [_ [_ [[_ ->]|[_ ->]]]]]]]]]; destruct Hr.
  Qed.
  Lemma variants_cite : forall l st, (forall m, In m l -> tidy (mb_lgr m) /\ ref_tidy (mb_lgr m)) -> NoDup (map get_script l) -> merge_lgr_set ord_names ord_variants l = Ok st ->
    forall a b v r, mapping (lg_rep (mg_lgr st)) a b v -> In r (v_refs v) -> dget String.eqb r (rm_refs (lg_refs (mg_lgr st))) <> None.
  Proof.
    intros l st Hl Hn E. destruct (merged_ind ord_names ord_variants Pv Q_cites l st) as [H _]; auto.
    - intros D s m s' P Hm. intros IH _ K. eapply cites_step; eauto. apply Hl. exact Hm.
    - intros m Hm. apply Hl. exact Hm.
    - intros _. split; [reflexivity|]. intros a b v r M. exfalso. apply (start_map _ _ _ M).
    - apply H. eapply Permutation_NoDup; [apply Permutation_map; apply isort_perm|exact Hn].
  Qed.
  Lemma filter_all : forall (l : list string) f, (forall x, In x l -> f x = true) -> filter f l = l.
  Proof. induction l as [|x l IH]; intros f H; [reflexivity|]. cbn. rewrite (H x (or_introl eq_refl)). f_equal. apply IH. intros y Hy. apply H. right. exact Hy. Qed.

  (** ** The result *)
  Section Result.
    Variable lang_check : cps -> option bool.
    Variable dig : N -> bool.
    Hypothesis dot_nodig : dig 46 = false.
    Hypothesis digits_dig : forall c, 48 <= c <= 57 -> dig c = true.
    Notation merged_set := (merge_set lang_check dig ord_names ord_variants).

    Notation member_fine := (storable lang_check dig).

    Theorem merge_set_reads : forall today l st, full_date today -> (forall x, In x l -> member_fine x) -> merge_lgr_set ord_names ord_variants (map snd l) = Ok st ->
      exists m g, merged_set today l = Ok (m, g) /\ same_metadata (merge_set_metadata today (map fst l)) m /\ read_as (mg_lgr st) g /\ lgr_reachable g.
    Proof.
      intros today l st Ht Hl E.
      assert (Hm : forall m, In m (map snd l) -> tidy (mb_lgr m) /\ ref_tidy (mb_lgr m) /\ printable m).
      { intros m H. apply in_map_iff in H. destruct H as [x [<- Hx]]. apply (Hl x Hx). }
      pose proof (fit_merged _ _ Hm E) as F.
      assert (W : meta_writable lang_check dig (merge_set_metadata today (map fst l))).
      { destruct (set_order today (map fst l)) as [r [[P _] Er]]. rewrite Er. apply merged_writable; [exact digits_dig|exact Ht|]. intros m H.
        apply (Permutation_in _ (Permutation_sym P)) in H. apply in_map_iff in H. destruct H as [x [<- Hx]]. destruct (Hl x Hx) as [H1 [H2 _]]. auto. }
      destruct (read_back lang_check dig dot_nodig _ (mg_lgr st) W) as [m' [g' [R1 [R2 [R3 [_ R4]]]]]].
      - apply (ft_sound _ F).
      - intros c ch H. destruct (ft_entries _ F c ch H) as [A1 [A2 A3]]. destruct (ft_sound _ F) as [[S1 [_ [_ S4]]] _]. constructor.
        + eapply lk_wf; eauto.
        + eapply S4; eauto.
        + apply word_list. exact A1.
        + apply word_list. exact A2.
        + intros v Hv. apply word_list. apply A3. exact Hv.
      - apply (ft_refs _ F).
      - apply (ft_refs _ F).
      - exists m', g'. unfold merge_set. rewrite E. cbn [bind]. auto.
    Qed.
    (** Nothing is added or lost. *)
    Theorem merge_set_code_points : forall today l m g, full_date today -> (forall x, In x l -> member_fine x) -> merged_set today l = Ok (m, g) ->
      forall c, lookup (lg_rep g) c <> None <-> exists x, In x l /\ has_cp (snd x) c.
    Proof.
      intros today l m g Ht Hl E c. assert (E' := E). unfold merge_set in E'. apply MergeProofs.bind_ok in E'. destruct E' as [st [E1 _]].
      destruct (merge_set_reads today l st Ht Hl E1) as [m' [g' [R1 [_ [[_ R] _]]]]]. assert (X : g' = g) by congruence. subst g'.
      assert (T : forall x, In x (map snd l) -> tidy (mb_lgr x)).
      { intros x H. apply in_map_iff in H. destruct H as [y [<- Hy]]. apply (Hl y Hy). }
      pose proof (code_points_merged ord_names ord_variants Pv (map snd l) st T E1 c) as C. specialize (R c).
      assert (Hx : lookup (lg_rep g) c <> None <-> lookup (lg_rep (mg_lgr st)) c <> None).
      { destruct (lookup (lg_rep (mg_lgr st)) c), (lookup (lg_rep g) c); try contradiction; split; congruence. }
      rewrite Hx, C. split.
      - intros [x [X1 X2]]. apply in_map_iff in X1. destruct X1 as [y [<- Hy]]. exists y. auto.
      - intros [y [Y1 Y2]]. exists (snd y). split; [apply in_map; exact Y1|exact Y2].
    Qed.
    (** What was read is the merged LGR built anew. *)
    Theorem merge_set_rebuilt : forall today l st m g, full_date today -> (forall x, In x l -> member_fine x) -> NoDup (map get_script (map snd l)) ->
      merge_lgr_set ord_names ord_variants (map snd l) = Ok st -> merged_set today l = Ok (m, g) -> rebuilt (lg_rep (mg_lgr st)) (lg_rep g).
    Proof.
      intros today l st m g Ht Hl Hn E1 E. destruct (merge_set_reads today l st Ht Hl E1) as [m' [g' [R1 [_ [[_ R] Re]]]]]. assert (X : g' = g) by congruence. subst g'.
      assert (T : forall x, In x (map snd l) -> tidy (mb_lgr x) /\ ref_tidy (mb_lgr x)).
      { intros x H. apply in_map_iff in H. destruct H as [y [<- Hy]]. destruct (Hl y Hy) as [_ [_ [H1 [H2 _]]]]. auto. }
      pose proof (variants_cite (map snd l) st T Hn E1) as C. split; [apply lgr_reachable_rep; exact Re|]. split.
      - intro c. specialize (R c). destruct (lookup (lg_rep (mg_lgr st)) c), (lookup (lg_rep g) c); try contradiction; split; congruence.
      - intros c ch ch' H1 H2. specialize (R c). rewrite H1, H2 in R. split; [apply R|]. split; [apply R|].
        assert (Hv : forall v u, In v (get_variants ch) -> read_variant (mg_lgr st) v u -> u = v).
        { intros v u V [A1 [A2 [A3 [A4 [A5 A6]]]]]. destruct v as [vc vt vw vn vm vr], u as [uc ut uw un um ur]. cbn [v_cp v_type v_when v_not_when v_comment v_refs] in *. subst uc ut uw un um. f_equal. rewrite A6. apply filter_all.
          intros x Hx. unfold text_in. pose proof (C c vc _ x (proj2 (mapping_lk _ _ _ _) (ex_intro _ ch (conj (eq_trans (eq_sym (lookup_lk _ _)) H1) (conj V eq_refl)))) Hx) as Y.
          destruct (dget String.eqb x _); [reflexivity|congruence]. }
        intro v. split.
        + intro V. destruct (en_sound _ _ _ R v V) as [w [W1 W2]]. rewrite (Hv w v W1 W2). exact W1.
        + intro V. destruct (en_complete _ _ _ R v V) as [w [W1 W2]]. rewrite <- (Hv v w V W2). exact W1.
    Qed.
    Theorem merge_set_succeeds : forall today l, full_date today -> (forall x, In x l -> member_fine x) ->
      (forall m, In m (map snd l) -> proper (mb_lgr m) /\ texts_once m /\ contexts_named m) -> NoDup (map get_script (map snd l)) -> one_speaks (map snd l) ->
      exists m g, merged_set today l = Ok (m, g).
    Proof.
      intros today l Ht Hl Hm Hn Ho. destruct (merge_succeeds ord_names ord_variants Pn Pv (map snd l) Hm Hn Ho) as [st E].
      destruct (merge_set_reads today l st Ht Hl E) as [m [g [R _]]]. eauto.
    Qed.
    Theorem merge_set_agrees : forall today l, full_date today -> (forall x, In x l -> member_fine x) ->
      (forall m, In m (map snd l) -> proper (mb_lgr m) /\ texts_once m /\ contexts_named m) -> NoDup (map get_script (map snd l)) ->
      unambiguous when_of (map snd l) -> unambiguous not_when_of (map snd l) -> variants_agree (map snd l) ->
      ((exists m g, merged_set today l = Ok (m, g)) <-> same_rules when_of (map snd l) /\ same_rules not_when_of (map snd l)).
    Proof.
      intros today l Ht Hl Hm Hn U1 U2 V. rewrite <- (agreeing_exact ord_names ord_variants Pn Pv (map snd l) Hm Hn U1 U2 V). split.
      - intros [m [g E]]. unfold merge_set in E. destruct (merge_lgr_set ord_names ord_variants (map snd l)) as [st|]; [eauto|discriminate].
      - intros [st E]. destruct (merge_set_reads today l st Ht Hl E) as [m [g [R _]]]. eauto.
    Qed.
    Theorem merge_set_fails : forall today l e, (forall x, In x l -> member_fine x) -> full_date today ->
      (merged_set today l = Raise e <-> merge_lgr_set ord_names ord_variants (map snd l) = Raise e).
    Proof.
      intros today l e Hl Ht. destruct (merge_lgr_set ord_names ord_variants (map snd l)) as [st|e'] eqn:E.
      - destruct (merge_set_reads today l st Ht Hl E) as [m [g [R _]]]. rewrite R. split; discriminate.
      - unfold merge_set. rewrite E. cbn [bind]. split; intro X; injection X as ->; reflexivity.
    Qed.
  End Result.
End Ord.
