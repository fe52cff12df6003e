From Coq Require Import Permutation Sorting.Sorted Ascii.
From Verif Require Import Base BaseFacts CharModel RepSpec RepProofs RangeProofs VariantProofs IterProofs VarSetProofs UtilsModel UtilsSpec UtilsProofs
  RefModel RefSpec RefProofs LgrModel LgrSpec LgrProofs LgrReach LgrRange LgrInv LgrTags LgrRefs Rfc7940Model ValidateModel ValidateProofs
  PopulateModel PopulateSpec PopulateProofs MetaModel MetaSpec CompareSpec CompareProofs CompareFinal SerialModel SerialSpec.
Open Scope string_scope.
Open Scope list_scope.

(** ** Texts *)
Lemma untxt_txt : forall s, untxt (txt s) = s.
Proof. induction s as [|a s IH]; [reflexivity|]. cbn [txt untxt]. rewrite IH, ascii_N_embedding. reflexivity. Qed.
Lemma txt_small : forall s, Forall (fun c => c < 256) (txt s).
Proof. induction s as [|a s IH]; constructor; [apply N_ascii_bounded|exact IH]. Qed.
Lemma join_small : forall l, Forall (fun c => c < 256) (join [32] (map txt l)).
Proof.
  induction l as [|w l IH]; [constructor|]. cbn [map join]. destruct (map txt l) as [|y r]; [apply txt_small|].
  apply Forall_app. split; [apply txt_small|]. constructor; [lia|exact IH].
Qed.
Lemma words_roundtrip : forall l, writable_words l -> attr_words (words_attr l) = l.
Proof.
  intros l [H1 H2]. destruct l as [|w l]; [reflexivity|]. unfold words_attr, attr_words, join_words.
  rewrite txt_untxt by apply join_small. rewrite string_to_list_join.
  - rewrite map_map. rewrite (map_ext (fun x => untxt (txt x)) (fun x => x)); [apply map_id|]. intro s. apply untxt_txt.
  - intro E. apply H1. destruct l as [|w2 l]; [|discriminate]. cbn [map] in E. injection E as E.
    destruct w; [reflexivity|discriminate].
  - apply Forall_forall. intros x Hx. apply in_map_iff in Hx. destruct Hx as [s [Hs Hin]]. subst x. apply H2. exact Hin.
Qed.
Lemma parse_cp_to_str : forall n, parse_cp (cp_to_str n) = Ok n.
Proof.
  intro n. unfold parse_cp, cp_of_int. rewrite py_int_cp_to_str. cbn [bind].
  destruct (Z.ltb_spec (Z.of_N n) 0); [lia|]. rewrite N2Z.id. reflexivity.
Qed.
Lemma parse_cps_format : forall c, parse_cps (format_cp_attr c) = Ok c.
Proof.
  intro c. unfold parse_cps, format_cp_attr. rewrite split_join.
  - rewrite (mapM_map_ok _ _ _ parse_cp cp_to_str (fun x => x)); [rewrite map_id; reflexivity|]. intros a _. apply parse_cp_to_str.
  - apply Forall_forall. intros w Hw. apply in_map_iff in Hw. destruct Hw as [a [Ha _]]. subst. apply cp_to_str_word.
Qed.

(** ** Adding back *)
(** The reader's LGR while it is being filled. *)
Definition filling (db : option unidb) (ra : bool) (R : refman) (g : lgr) : Prop :=
  (lgr_reachable g /\ proper g /\ tag_tidy g) /\ lg_db g = db /\ lg_raise g = ra /\ lg_refs g = R.
Lemma all_step : forall g o, lgr_reachable g /\ proper g /\ tag_tidy g -> unforced o ->
  match o with LAddCp _ _ _ _ _ _ _ _ _ | LAddVariant _ _ _ _ _ _ _ _ _ _ | LAddReference _ _ _ => True
             | LAddRange _ _ _ _ _ _ _ _ _ _ => snd (lgr_step g o) = LUnit | _ => False end ->
  lgr_reachable (fst (lgr_step g o)) /\ proper (fst (lgr_step g o)) /\ tag_tidy (fst (lgr_step g o)).
Proof.
  intros g o [H1 [H2 H3]] Hu Ho. assert (Ht : tidy_op g o) by (destruct o; cbn [tidy_op] in *; auto; contradiction).
  split; [apply lgr_reachable_step; exact H1|]. split; [apply pr_step; assumption|]. apply tt_step; [exact H3|].
  split; [exact Ht|]. destruct o; cbn [unforced] in Hu; auto; try contradiction; intro; congruence.
Qed.
Definition valid_in (db : option unidb) (ra : bool) (c : cps) : Prop :=
  ra = false \/ forall x d, In x c -> db = Some d -> db_idna_valid d x = true.
Lemma filling_convert : forall db ra R g c, filling db ra R g -> valid_in db ra c -> c <> [] -> check_convert g c = Ok c.
Proof.
  intros db ra R g c [_ [F2 [F3 _]]] Hv Hne. destruct (check_convert_cases g c) as [[e [_ [[H _]|[_ [H1 [x [H2 _]]]]]]]|[H _]]; [contradiction| |exact H].
  exfalso. apply first_such_In in H2. destruct H2 as [H2 [d [H3 H4]]]. destruct Hv as [Hv|Hv]; [congruence|].
  rewrite (Hv x d H2) in H4; [discriminate|congruence].
Qed.

Definition var_ok (db : option unidb) (ra : bool) (R : refman) (v : variant) : Prop :=
  v_cp v <> [] /\ one_context (v_when v) (v_not_when v) /\ okrefs R (v_refs v) /\ writable_words (v_refs v) /\ valid_in db ra (v_cp v).

(** Variants of an entry by target, in the order in which they were added. *)
Definition under (c : cps) (ch : char) : list variant := match dget cps_eqb c (ch_variants ch) with Some l => l | None => [] end.
Definition aimed (c : cps) (vs : list variant) : list variant := filter (fun v => cps_eqb c (v_cp v)) vs.
Lemma add_variant_under : forall ch v ch' c, char_add_variant ch v = Ok ch' -> under c ch' = under c ch ++ aimed c [v].
Proof.
  intros ch v ch' c H. unfold char_add_variant in H. destruct (is_range ch); [discriminate|]. destruct (v_cp v) as [|x t] eqn:Ev; [discriminate|]. rewrite <- Ev in *.
  unfold under, aimed. cbn [filter].
  destruct (dget cps_eqb (v_cp v) (ch_variants ch)) as [l|] eqn:El.
  - destruct (memb variant_eqb v l); [discriminate|]. injection H as <-. unfold set_variants. cbn [ch_variants]. rewrite (dget_dset _ cps_eqb_eq).
    destruct (cps_eqb c (v_cp v)) eqn:E; [|rewrite app_nil_r; reflexivity]. apply cps_eqb_eq in E. subst c. rewrite El. reflexivity.
  - injection H as <-. unfold set_variants. cbn [ch_variants]. rewrite (dget_dset _ cps_eqb_eq).
    destruct (cps_eqb c (v_cp v)) eqn:E; [|rewrite app_nil_r; reflexivity]. apply cps_eqb_eq in E. subst c. rewrite El. reflexivity.
Qed.
Lemma put_variant_char : forall g c ch v ty w nw cm rf g' ch', lgr_reachable g -> lk (lg_rep g) c = Some ch ->
  check_convert g v = Ok v -> put_variant g c v ty w nw cm rf = (g', Ok tt) -> lk (lg_rep g') c = Some ch' ->
  char_add_variant ch (mkVariant v ty w nw cm rf) = Ok ch'.
Proof.
  intros g c ch v ty w nw cm rf g' ch' Hre Hc Hv E Hc'.
  assert (Hne : c <> []) by (intro; subst; discriminate).
  assert (Hcc : check_convert g c = Ok c) by (apply accepting_convert; [apply reachable_accepting; exact Hre|exact Hne|congruence]).
  unfold put_variant, lgr_add_variant in E. rewrite Hcc in E. cbn [bind] in E. rewrite Hv in E. cbn [bind negb andb check_validating] in E.
  destruct (is_some w && is_some nw)%bool; [discriminate|].
  destruct (collect_refs_cases g false rf) as [[e [H1 H2]]|[H1 [H2 H3]]]; rewrite H1 in E; [discriminate|].
  rewrite (H3 eq_refl) in E. rewrite andb_true_r in E. destruct (has_dup rf); [discriminate|].
  unfold rep_add_variant in E. rewrite get_char_lk in E by exact Hne. rewrite Hc in E.
  set (nv := mkVariant v ty w nw cm rf) in *. destruct (char_add_variant ch nv) as [ch1|] eqn:Ea; [|discriminate].
  injection E as <-. cbn [add_type set_rep lg_rep] in Hc'. rewrite lk_put in Hc'; [|destruct (add_variant_same _ _ _ Ea) as [Hs _]; rewrite Hs; apply (lk_cp _ _ _ Hc)|congruence].
  rewrite cps_eqb_refl in Hc'. congruence.
Qed.
Lemma under_wf : forall ch c, wf_char ch -> under c ch = aimed c (get_variants ch).
Proof.
  intros ch c [[Hnd Hv] _]. unfold get_variants, under, aimed.
  assert (G : forall l, NoDup l -> (forall k, In k l -> dget cps_eqb k (ch_variants ch) <> None) ->
    filter (fun v => cps_eqb c (v_cp v)) (flat_map (fun k => match dget cps_eqb k (ch_variants ch) with Some l => l | None => [] end) l) =
    if memb cps_eqb c l then match dget cps_eqb c (ch_variants ch) with Some l => l | None => [] end else []).
  { assert (Hsame : forall k l, dget cps_eqb k (ch_variants ch) = Some l -> filter (fun v => cps_eqb c (v_cp v)) l = if cps_eqb c k then l else []).
    { intros k l Hk. apply (dget_In _ cps_eqb_eq) in Hk. destruct (Hv _ _ Hk) as [_ [_ [H3 _]]]. clear - H3. induction l as [|v l IH]; [destruct (cps_eqb c k); reflexivity|].
      cbn [filter]. rewrite (H3 v (or_introl eq_refl)), IH by (intros z Hz; apply H3; right; exact Hz). destruct (cps_eqb c k); reflexivity. }
    induction l as [|k l IH]; intros Hn Hk; [reflexivity|]. inversion Hn as [|? ? N1 N2]; subst. cbn [flat_map]. rewrite filter_app, (IH N2) by (intros z Hz; apply Hk; right; exact Hz).
    destruct (dget cps_eqb k (ch_variants ch)) as [vs|] eqn:Ek; [|exfalso; exact (Hk k (or_introl eq_refl) Ek)]. rewrite (Hsame k vs Ek).
    change (memb cps_eqb c (k :: l)) with (cps_eqb c k || memb cps_eqb c l)%bool.
    destruct (cps_eqb c k) eqn:E; [|reflexivity]. apply cps_eqb_eq in E. subst k. cbn [orb]. rewrite Ek. destruct (memb cps_eqb c l) eqn:Em; [apply (memb_In _ _ cps_eqb_eq) in Em; contradiction|]. apply app_nil_r. }
  rewrite G.
  - destruct (memb cps_eqb c (isort cps_leb (dkeys (ch_variants ch)))) eqn:Em; [reflexivity|].
    destruct (dget cps_eqb c (ch_variants ch)) as [l|] eqn:El; [|reflexivity]. exfalso. apply (dget_Some_key _ cps_eqb_eq) in El.
    assert (H : In c (isort cps_leb (dkeys (ch_variants ch)))) by (apply isort_In; exact El). apply (memb_In _ _ cps_eqb_eq) in H. congruence.
  - apply isort_NoDup. exact Hnd.
  - intros k Hk. apply isort_In in Hk. intro E. apply (dget_None _ cps_eqb_eq) in E. contradiction.
Qed.
Lemma under_same : forall ch ch', wf_char ch -> wf_char ch' -> (forall c, under c ch' = under c ch) -> get_variants ch' = get_variants ch.
Proof.
  intros ch ch' [[N1 V1] _] [[N2 V2] _] H. unfold get_variants.
  assert (Hk : forall c, In c (dkeys (ch_variants ch')) <-> In c (dkeys (ch_variants ch))).
  { assert (G : forall a b, wf_variants (ch_variants a) -> wf_variants (ch_variants b) -> (forall c, under c a = under c b) -> forall c, In c (dkeys (ch_variants a)) -> In c (dkeys (ch_variants b))).
    { intros a b [Na Va] [Nb Vb] Hu c Hc. specialize (Hu c). unfold under in Hu. destruct (dget cps_eqb c (ch_variants b)) as [l|] eqn:Eb; [exact (dget_Some_key _ cps_eqb_eq _ _ _ Eb)|].
      destruct (dget cps_eqb c (ch_variants a)) as [l|] eqn:Ea; [|apply (dget_None _ cps_eqb_eq) in Ea; contradiction]. apply (dget_In _ cps_eqb_eq) in Ea. destruct (Va _ _ Ea) as [_ [Hl _]]. contradiction. }
    intro c. split; apply G; try (split; assumption); intros; auto. }
  rewrite (isort_perm_eq cps_leb cps_leb_total cps_leb_trans cps_leb_antisym (dkeys (ch_variants ch')) (dkeys (ch_variants ch)) (NoDup_Permutation N2 N1 Hk)).
  apply flat_map_ext. intro c. exact (H c).
Qed.

Lemma process_vars_ok : forall db ra R r vs g c ch, filling db ra R g -> lk (lg_rep g) c = Some ch -> is_range ch = false ->
  NoDup (map vkey vs) -> (forall v, In v vs -> ~ In (vkey v) (map vkey (get_variants ch))) ->
  (forall v, In v vs -> var_ok db ra R v) ->
  exists g' ch', process_vars false g r c (map var_elem_of vs) = (g', r, Ok tt) /\ filling db ra R g' /\
    (forall x, lk (lg_rep g') x = if cps_eqb x c then Some ch' else lk (lg_rep g) x) /\
    same_entry ch ch' /\ (forall u, In u (get_variants ch') <-> In u (get_variants ch) \/ In u vs) /\
    (forall k, under k ch' = under k ch ++ aimed k vs).
Proof.
  intros db ra R r. induction vs as [|v vs IH]; intros g c ch Hb Hc Hr Hn Hd Hv.
  - exists g, ch. split; [reflexivity|]. split; [exact Hb|]. split; [|split; [apply same_entry_refl|split; [cbn; tauto|intro k; symmetry; apply app_nil_r]]].
    intro x. destruct (cps_eqb x c) eqn:E; auto. apply cps_eqb_eq in E. subst. exact Hc.
  - cbn [map process_vars]. cbn [map] in Hn. inversion Hn as [|? ? N1 N2]; subst.
    destruct (Hv v (or_introl eq_refl)) as [Hne [Hcx [Hrf [Hww Hval]]]]. pose proof (all_step g (LAddVariant c (v_cp v) (v_type v) (v_when v) (v_not_when v) (v_comment v) (v_refs v) None false false) (proj1 Hb) eq_refl I) as Hall.
    pose proof Hb as [[B1 _] [B2 [B3 B4]]].
    unfold var_elem_of at 1 2 3 4 5 6. cbn [ve_cp ve_type ve_when ve_not_when ve_comment ve_ref].
    rewrite parse_cps_format, words_roundtrip by exact Hww.
    pose proof (put_variant_spec g c ch (v_cp v) (v_type v) (v_when v) (v_not_when v) (v_comment v) (v_refs v) B1 Hc
      (filling_convert db ra R g _ Hb Hval Hne)) as Hp.
    change (lgr_add_variant g c (v_cp v) (v_type v) (v_when v) (v_not_when v) (v_comment v) (v_refs v) None false false)
      with (put_variant g c (v_cp v) (v_type v) (v_when v) (v_not_when v) (v_comment v) (v_refs v)).
    destruct (put_variant g c (v_cp v) (v_type v) (v_when v) (v_not_when v) (v_comment v) (v_refs v)) as [g1 o] eqn:Eg.
    destruct Hp as [P1 P2]. destruct P2 as [[P2 [_ [ch1 [P3 [P4 P5]]]]]|[e [_ [_ [_ P2]]]]].
    2:{ exfalso. destruct P2 as [P2|[[P2 P3]|[P2|[[x [Hx Hx2]]|P2]]]].
        - congruence.
        - destruct Hcx; contradiction.
        - apply P2. apply Hrf.
        - apply Hx2. unfold defined_ref. rewrite B4. apply Hrf. exact Hx.
        - apply (Hd v (or_introl eq_refl)). exact P2. }
    subst o. unfold attempt. cbn [map].
    unfold lgr_step in Hall. unfold put_variant in Eg. rewrite Eg in Hall. cbn [fst] in Hall.
    assert (Hb1 : filling db ra R g1).
    { destruct P3 as [[R1 [R2 [R3 R4]]] _]. split; [exact Hall|]. repeat split; congruence. }
    pose proof (put_variant_char g c ch (v_cp v) (v_type v) (v_when v) (v_not_when v) (v_comment v) (v_refs v) g1 ch1 B1 Hc
      (filling_convert db ra R g _ Hb Hval Hne) Eg (updated_lk_c _ _ _ _ P3)) as Hadd.
    destruct (IH g1 c ch1 Hb1 (updated_lk_c _ _ _ _ P3)) as [g2 [ch2 [Q1 [Q2 [Q3 [Q4 [Q5 Q6]]]]]]].
    + rewrite (same_entry_range _ _ P4). exact Hr.
    + exact N2.
    + intros u Hu Hk. apply in_map_iff in Hk. destruct Hk as [z [Hz1 Hz2]]. apply P5 in Hz2. destruct Hz2 as [Hz2|Hz2].
      * apply N1. subst z. assert (Hz : vkey v = vkey u) by exact Hz1. rewrite Hz. apply in_map. exact Hu.
      * apply (Hd u (or_intror Hu)). rewrite <- Hz1. apply in_map. exact Hz2.
    + intros u Hu. apply Hv. right. exact Hu.
    + exists g2, ch2. split; [exact Q1|]. split; [exact Q2|]. split; [|split; [eapply same_entry_trans; eauto|split]].
      * intro x. rewrite Q3. destruct (cps_eqb x c) eqn:E; auto. apply cps_eqb_neq in E. apply (updated_lk_other _ _ _ _ _ P3 E).
      * intro u. rewrite Q5, P5. cbn [In]. replace (mkVariant (v_cp v) (v_type v) (v_when v) (v_not_when v) (v_comment v) (v_refs v)) with v by (destruct v; reflexivity). intuition.
      * intro k. rewrite Q6, (add_variant_under _ _ _ k Hadd), <- app_assoc. f_equal. unfold aimed. cbn [filter].
        replace (mkVariant (v_cp v) (v_type v) (v_when v) (v_not_when v) (v_comment v) (v_refs v)) with v by (destruct v; reflexivity). destruct (cps_eqb k (v_cp v)); reflexivity.
Qed.

Lemma kept_all : forall R g rf, lg_refs g = R -> okrefs R rf -> kept_refs g rf = rf.
Proof.
  intros R g rf HR [_ H]. unfold kept_refs. induction rf as [|r rf IH]; [reflexivity|]. cbn [filter].
  assert (E : dmem String.eqb r (rm_refs (lg_refs g)) = true).
  { apply defined_dmem. unfold defined_ref. rewrite HR. apply H. left. reflexivity. }
  rewrite E. f_equal. apply IH. intros x Hx. apply H. right. exact Hx.
Qed.

Record char_ok (db : option unidb) (ra : bool) (R : refman) (ch : char) : Prop := {
  co_wf : wf_char ch;
  co_ord : orderly_char ch;
  co_refs : okrefs R (ch_refs ch);
  co_wrefs : writable_words (ch_refs ch);
  co_wtags : writable_words (ch_tags ch);
  co_vars : forall v, In v (get_variants ch) -> var_ok db ra R v;
  co_val : match ch_kind ch with
           | KRange f l => forall y, f <= y <= l -> valid_in db ra [y]
           | _ => valid_in db ra (ch_cp ch)
           end
}.

Lemma plain_kind : forall ch, wf_char ch -> is_range ch = false -> ch_kind ch = kind_of (ch_cp ch) /\ ch_cp ch <> [].
Proof.
  intros ch [_ H] Hr. unfold is_range in Hr. destruct (ch_kind ch); [|destruct H as [x [y [t H]]]|discriminate].
  - destruct H as [x H]. rewrite H. split; [reflexivity|discriminate].
  - rewrite H. split; [reflexivity|discriminate].
Qed.

(** A <char> element. *)
Lemma add_char_ok : forall db ra R g ch, filling db ra R g -> char_ok db ra R ch -> is_range ch = false ->
  lk (lg_rep g) (ch_cp ch) = None ->
  exists g', lgr_add_cp g (ch_cp ch) (ch_comment ch) (ch_refs ch) (ch_tags ch) (ch_when ch) (ch_not_when ch) None false false = (g', Ok tt) /\
    filling db ra R g' /\
    forall x, lk (lg_rep g') x = if cps_eqb x (ch_cp ch)
      then Some (mkChar (ch_cp ch) (ch_kind ch) (ch_comment ch) (ch_refs ch) (ch_tags ch) (ch_when ch) (ch_not_when ch) []) else lk (lg_rep g) x.
Proof.
  intros db ra R g ch Hb Hok Hr Hc. destruct (plain_kind ch (co_wf _ _ _ _ Hok) Hr) as [Hk Hne].
  destruct (co_ord _ _ _ _ Hok) as [O1 [O2 [O3 O4]]]. pose proof (co_refs _ _ _ _ Hok) as Hrf. pose proof Hb as [[B1 B1x] [B2 [B3 B4]]].
  assert (Hval : valid_in db ra (ch_cp ch)).
  { pose proof (co_val _ _ _ _ Hok) as H. unfold is_range in Hr. destruct (ch_kind ch); [exact H|exact H|discriminate]. }
  set (c := ch_cp ch) in *. set (cm := ch_comment ch). set (rf := ch_refs ch) in *. set (tg := ch_tags ch) in *. set (w := ch_when ch) in *. set (nw := ch_not_when ch) in *.
  pose proof (all_step g (LAddCp c cm rf tg w nw None false false) (proj1 Hb) eq_refl I) as Hre. unfold lgr_step in Hre.
  destruct (add_cp_spec g c cm rf tg w nw None false false) as [r [A1 A2]].
  destruct (lgr_add_cp g c cm rf tg w nw None false false) as [g1 x]. cbn [fst] in Hre.
  assert (r = None) as ->.
  { unfold add_cp_checks in A1. cbn [first_failing] in A1.
    destruct A1 as [[e [[H _] _]]|[_ A1]]; [contradiction|].
    destruct A1 as [[e [[Hra [y [Hy _]]] _]]|[_ A1]].
    { apply first_such_In in Hy. destruct Hy as [Hy1 [d [Hy2 Hy3]]]. destruct Hval as [Hval|Hval]; [congruence|].
      rewrite (Hval y d Hy1) in Hy3; [discriminate|congruence]. }
    destruct A1 as [[e [[_ [H1 [H2 _]]] _]]|[_ A1]]; [destruct O3; contradiction|].
    destruct A1 as [[e [[v [y [H _]]] _]]|[_ A1]]; [discriminate|].
    destruct A1 as [[e [[_ [y [Hy _]]] _]]|[_ A1]].
    { apply first_such_In in Hy. destruct Hy as [Hy1 Hy2]. exfalso. apply Hy2. unfold defined_ref. rewrite B4. apply Hrf. exact Hy1. }
    destruct A1 as [[e [[_ [Hy _]] _]]|[_ A1]]; [exfalso; apply Hy; apply Hrf|].
    destruct A1 as [[e [[_ [H1 [H2 _]]] _]]|[_ A1]]; [exfalso; apply H2; apply O2; exact H1|].
    destruct A1 as [[e [[_ [Hy _]] _]]|[_ A1]]; [contradiction|].
    destruct A1 as [[e [[Hy _] _]]|[_ A1]]; [exfalso; apply Hy; rewrite lookup_lk; exact Hc|]. exact A1. }
  destruct A2 as [A2 [A3 [A4 [A5 [A6 [A7 [A8 A9]]]]]]]. subst x. exists g1. split; [reflexivity|].
  split; [split; [exact Hre|]; repeat split; congruence|].
  rewrite (kept_all R g rf B4 Hrf) in A3. intro x. destruct (cps_eqb x c) eqn:E.
  - apply cps_eqb_eq in E. subst x. rewrite lookup_lk in A3. rewrite Hk. exact A3.
  - apply cps_eqb_neq in E. specialize (A4 x E). rewrite !lookup_lk in A4. exact A4.
Qed.

(** The entry [ch], or the range it stands for, at [x]. *)
Definition member (ch : char) (f l y : N) : char :=
  mkChar [y] (KRange f l) (ch_comment ch) (ch_refs ch) (ch_tags ch) (ch_when ch) (ch_not_when ch) [].
Definition cover (ch : char) (x : cps) : option char :=
  match ch_kind ch with
  | KRange f l => match x with [y] => if (N.leb f y && N.leb y l)%bool then Some (member ch f l y) else None | _ => None end
  | _ => if cps_eqb x (ch_cp ch) then Some ch else None
  end.

(** A <range> element. *)
Lemma add_range_ok : forall db ra R g ch f l, filling db ra R g -> char_ok db ra R ch -> ch_kind ch = KRange f l ->
  (forall y, f <= y <= l -> lk (lg_rep g) [y] = None) ->
  exists g', lgr_add_range g f l (ch_comment ch) (ch_refs ch) (ch_tags ch) (ch_when ch) (ch_not_when ch) None false false = (g', Ok tt) /\
    filling db ra R g' /\
    forall x, lk (lg_rep g') x = match cover ch x with Some e => Some e | None => lk (lg_rep g) x end.
Proof.
  intros db ra R g ch f l Hb Hok Hk Hc. pose proof (co_wf _ _ _ _ Hok) as [_ Hfl]. rewrite Hk in Hfl. destruct Hfl as [Hfl _].
  destruct (co_ord _ _ _ _ Hok) as [O1 [O2 [O3 O4]]]. pose proof (co_refs _ _ _ _ Hok) as Hrf. pose proof Hb as [[B1 B1x] [B2 [B3 B4]]].
  pose proof (co_val _ _ _ _ Hok) as Hval. rewrite Hk in Hval.
  assert (Hcov : forall x, cover ch x = match x with [y] => if (N.leb f y && N.leb y l)%bool then Some (member ch f l y) else None | _ => None end)
    by (intro x; unfold cover; rewrite Hk; reflexivity).
  unfold member in Hcov.
  set (cm := ch_comment ch) in *. set (rf := ch_refs ch) in *. set (tg := ch_tags ch) in *. set (w := ch_when ch) in *. set (nw := ch_not_when ch) in *.
  pose proof (all_step g (LAddRange f l cm rf tg w nw None false false) (proj1 Hb) eq_refl) as Hre. unfold lgr_step in Hre.
  destruct (add_range_collapsed g f l cm rf tg w nw None false false) as [r [A1 A2]].
  assert (Hinv : forall y, f <= y <= l -> idna_invalid g y -> ra = false).
  { intros y Hy [d [Hd Hf]]. destruct (Hval y Hy) as [H|H]; [exact H|]. rewrite (H y d (or_introl eq_refl)) in Hf; [discriminate|congruence]. }
  assert (Hti : forall y, f <= y <= l -> to_insert g None false false y).
  { intros y Hy. destruct (lg_db g) as [d|] eqn:Ed.
    - destruct (db_idna_valid d y) eqn:Ev.
      + left. apply RSt_ok.
        * intros [d2 [H1 H2]]. rewrite Ed in H1. injection H1 as H1. subst d2. congruence.
        * intros v Hv. discriminate.
        * unfold present. rewrite lookup_lk, Hc by exact Hy. congruence.
      + right. right. assert (Hi : idna_invalid g y) by (exists d; split; assumption). split; [exact Hi|]. rewrite B3. eapply Hinv; eauto.
    - left. apply RSt_ok.
      + intros [d2 [H1 H2]]. congruence.
      + intros v Hv. discriminate.
      + unfold present. rewrite lookup_lk, Hc by exact Hy. congruence. }
  assert (r = None) as ->.
  { unfold add_range_checks in A1. cbn [first_failing] in A1.
    destruct A1 as [[e [[H _] _]]|[_ A1]]; [exfalso; lia|].
    destruct A1 as [[e [[_ [H1 [H2 _]]] _]]|[_ A1]]; [destruct O3; contradiction|].
    destruct A1 as [[e [[y [H _]] _]]|[_ A1]].
    { apply first_such_In in H. destruct H as [_ [_ [v [H _]]]]. discriminate. }
    destruct A1 as [[e [[y [H H2]] _]]|[_ A1]].
    { exfalso. apply first_such_In in H. destruct H as [Hy [e' H]]. apply nrange_In in Hy. inversion H as [Hs Z1 Z2 Z3|Hi Hra Z1 Z2|Hs Z1 Z2].
      - inversion Hs. discriminate.
      - rewrite B3 in Hra. rewrite (Hinv y Hy Hi) in Hra. discriminate.
      - inversion Hs as [| |Hi Hv Hp|]. apply Hp. rewrite lookup_lk. apply Hc. exact Hy. }
    destruct A1 as [[e [[_ [y [Hy _]]] _]]|[_ A1]].
    { apply first_such_In in Hy. destruct Hy as [Hy1 Hy2]. exfalso. apply Hy2. unfold defined_ref. rewrite B4. apply Hrf. exact Hy1. }
    destruct A1 as [[e [[_ [Hy _]] _]]|[_ A1]]; [exfalso; apply Hy; apply Hrf|].
    destruct A1 as [[e [[_ [Hy _]] _]]|[_ A1]]; [contradiction|].
    destruct A1 as [[e [[Hy _] _]]|[_ A1]]; [exfalso; apply (Hy f); [lia|apply Hti; lia]|]. exact A1. }
  destruct A2 as [ks [rs [Hs [Hks [Hex [Hf [Hcol Heq]]]]]]].
  assert (Hrs : rs = [(f, l)]).
  { symmetry. apply (collapse_unique ks rs [(f, l)]); [apply sorted_NoDup; exact Hs|exact Hcol| | |].
    - constructor; constructor.
    - constructor; [cbn; lia|constructor].
    - intro x. unfold expand_ranges_list. cbn [flat_map fst snd]. rewrite app_nil_r. rewrite Hks. rewrite nrange_In. split; [|tauto].
      intro Hx. split; [exact Hx|]. apply Hti. exact Hx. }
  subst rs. rewrite Heq in *.
  destruct (insert_ranges (lg_rep g) cm (kept_refs g rf) tg w nw [(f, l)]) as [r' x] eqn:Ei.
  apply insert_ranges_spec in Ei; [|apply lgr_reachable_wf; exact B1|rewrite Hex; apply sorted_NoDup; exact Hs|exact Hf].
  assert (Hexp : forall y, In y (expand_ranges_list [(f, l)]) <-> f <= y <= l).
  { intro y. unfold expand_ranges_list. cbn [flat_map fst snd]. rewrite app_nil_r. apply nrange_In. }
  destruct Ei as [[Ex [A [B _]]]|[pre [c [post [A0 [Ex [A [B C]]]]]]]]; subst x.
  2:{ exfalso. apply A. apply Hc. apply Hexp. rewrite A0. apply in_app_iff. right. left. reflexivity. }
  eexists. split; [reflexivity|]. cbn [fst snd] in Hre. specialize (Hre eq_refl). destruct (fold_tags_db tg ks (set_rep g r')) as [D1 [D2 [D3 D4]]].
  split.
  - split; [exact Hre|]. rewrite D1, D2, D4. cbn [lg_db lg_raise lg_refs set_rep]. auto.
  - intro x. rewrite fold_tags_rep. cbn [lg_rep set_rep]. rewrite B, Hcov. destruct x as [|y [|y2 x]]; auto.
    rewrite (kept_all R g rf B4 Hrf). destruct (memb N.eqb y (expand_ranges_list [(f, l)])) eqn:Em.
    + apply (memb_In _ _ N_eqb_iff) in Em. apply Hexp in Em. destruct Em as [E1 E2].
      apply N.leb_le in E1. apply N.leb_le in E2. unfold kind_in. cbn [find fst snd]. rewrite E1, E2. cbn [andb].
      destruct (N.eqb_spec f l); [lia|]. reflexivity.
    + destruct (N.leb f y && N.leb y l)%bool eqn:E; auto. exfalso. apply andb_true_iff in E. destruct E as [E1 E2].
      apply N.leb_le in E1. apply N.leb_le in E2. assert (H : In y (expand_ranges_list [(f, l)])) by (apply Hexp; lia).
      apply (memb_In _ _ N_eqb_iff) in H. congruence.
Qed.

(** ** The whole section *)
(** Reports about the order of the <char> elements, written one after the other. *)
Fixpoint order_results (prev : cps) (l : list char) (r : results) : results :=
  match l with
  | [] => r
  | ch :: l' => if is_range ch then order_results prev l' r else order_results (ch_cp ch) l' (check_order prev (ch_cp ch) r)
  end.

Lemma cover_self : forall ch, is_range ch = false -> forall x, cover ch x = if cps_eqb x (ch_cp ch) then Some ch else None.
Proof. intros ch H x. unfold cover. unfold is_range in H. destruct (ch_kind ch); [reflexivity|reflexivity|discriminate]. Qed.

Lemma process_loop_ok : forall db ra R l g r prev, filling db ra R g ->
  (forall ch, In ch l -> char_ok db ra R ch) ->
  ForallOrdPairs (fun a b => forall x, cover a x <> None -> cover b x = None) l ->
  (forall ch x, In ch l -> cover ch x <> None -> lk (lg_rep g) x = None) ->
  exists g', process_data_loop false g r prev (map data_elem_of l) = (g', order_results prev l r, Ok tt) /\ filling db ra R g' /\
    (forall ch x e, In ch l -> cover ch x = Some e -> exists e', lk (lg_rep g') x = Some e' /\ same_char e e') /\
    (forall x, (forall ch, In ch l -> cover ch x = None) -> lk (lg_rep g') x = lk (lg_rep g) x).
Proof.
  intros db ra R. induction l as [|ch l IH]; intros g r prev Hb Hok Hdis Hfree.
  - exists g. split; [reflexivity|]. split; [exact Hb|]. split; [intros ? ? ? []|auto].
  - inversion Hdis as [|? ? Hd1 Hd2]; subst. rewrite Forall_forall in Hd1.
    pose proof (Hok ch (or_introl eq_refl)) as Hch.
    assert (Hstep : exists g1, filling db ra R g1 /\
      (forall x, match cover ch x with
                 | Some e => exists e', lk (lg_rep g1) x = Some e' /\ same_char e e'
                 | None => lk (lg_rep g1) x = lk (lg_rep g) x end) /\
      process_data_loop false g r prev (map data_elem_of (ch :: l)) =
      if is_range ch then process_data_loop false g1 r prev (map data_elem_of l)
      else process_data_loop false g1 (check_order prev (ch_cp ch) r) (ch_cp ch) (map data_elem_of l)).
    { cbn [map]. destruct (is_range ch) eqn:Er.
      - unfold is_range in Er. destruct (ch_kind ch) as [| |f la] eqn:Ek; try discriminate.
        destruct (add_range_ok db ra R g ch f la Hb Hch Ek) as [g1 [A1 [A2 A3]]].
        { intros y Hy. apply (Hfree ch [y] (or_introl eq_refl)). unfold cover. rewrite Ek.
          destruct Hy as [Y1 Y2]. apply N.leb_le in Y1. apply N.leb_le in Y2. rewrite Y1, Y2. discriminate. }
        exists g1. split; [exact A2|]. split.
        + intro x. rewrite A3. destruct (cover ch x) as [e|]; [|reflexivity]. exists e. split; [reflexivity|].
          split; [apply same_entry_refl|tauto].
        + unfold data_elem_of at 1. rewrite Ek. cbn [process_data_loop]. rewrite !parse_cp_to_str.
          unfold attrs_of. cbn [at_comment at_when at_not_when at_ref at_tag].
          rewrite !words_roundtrip by (apply Hch). rewrite A1. reflexivity.
      - destruct (add_char_ok db ra R g ch Hb Hch Er) as [g1 [A1 [A2 A3]]].
        { apply (Hfree ch _ (or_introl eq_refl)). rewrite (cover_self ch Er), cps_eqb_refl. discriminate. }
        set (ch0 := mkChar (ch_cp ch) (ch_kind ch) (ch_comment ch) (ch_refs ch) (ch_tags ch) (ch_when ch) (ch_not_when ch) []) in *.
        destruct (process_vars_ok db ra R (check_order prev (ch_cp ch) r) (get_variants ch) g1 (ch_cp ch) ch0 A2) as [g2 [ch2 [Q1 [Q2 [Q3 [Q4 [Q5 Q6]]]]]]].
        { rewrite A3, cps_eqb_refl. reflexivity. }
        { exact Er. }
        { apply get_variants_NoDup. apply Hch. }
        { intros v Hv []. }
        { apply Hch. }
        exists g2. split; [exact Q2|]. split.
        + intro x. rewrite (cover_self ch Er), Q3, A3. destruct (cps_eqb x (ch_cp ch)) eqn:E; [|reflexivity].
          exists ch2. split; [reflexivity|]. split.
          * exact Q4.
          * apply under_same; [apply Hch| |].
            -- apply (lk_wf (lg_rep g2) (ch_cp ch)); [apply lgr_reachable_wf; apply Q2|]. rewrite Q3, cps_eqb_refl. reflexivity.
            -- intro k. rewrite Q6, (under_wf ch k) by apply Hch. reflexivity.
        + assert (E : data_elem_of ch = DChar (format_cp_attr (ch_cp ch)) (attrs_of ch) (map var_elem_of (get_variants ch))).
          { unfold data_elem_of. unfold is_range in Er. destruct (ch_kind ch); [reflexivity|reflexivity|discriminate]. }
          rewrite E. cbn [process_data_loop]. rewrite parse_cps_format.
          unfold attrs_of. cbn [at_comment at_when at_not_when at_ref at_tag].
          rewrite !words_roundtrip by (apply Hch). rewrite A1. cbn [attempt]. rewrite Q1. reflexivity. }
    destruct Hstep as [g1 [S1 [S2 S3]]].
    destruct (IH g1 (if is_range ch then r else check_order prev (ch_cp ch) r) (if is_range ch then prev else ch_cp ch) S1) as [g' [T1 [T2 [T3 T4]]]].
    + intros c Hc. apply Hok. right. exact Hc.
    + exact Hd2.
    + intros c x Hc Hx. specialize (S2 x). destruct (cover ch x) as [e|] eqn:E.
      * exfalso. apply Hx. apply (Hd1 c Hc x). congruence.
      * rewrite S2. apply (Hfree c x (or_intror Hc) Hx).
    + exists g'. split; [|split; [exact T2|split]].
      * rewrite S3. cbn [order_results]. destruct (is_range ch); exact T1.
      * intros c x e [Hc|Hc] Hx; [|apply (T3 c x e Hc Hx)]. subst c.
        specialize (S2 x). rewrite Hx in S2. destruct S2 as [e' [E1 E2]]. exists e'. split; [|exact E2].
        rewrite T4; [exact E1|]. intros c Hc. apply (Hd1 c Hc x). congruence.
      * intros x Hx. rewrite T4 by (intros c Hc; apply Hx; right; exact Hc). specialize (S2 x).
        rewrite (Hx ch (or_introl eq_refl)) in S2. exact S2.
Qed.

(** ** The entries written stand for the whole repertoire *)
Lemma rinv_intact : forall r, wf_rep r -> rinv r -> ranges_intact r.
Proof.
  intros r Hwf [H1 H2 H3] c f l Hc Hk x Hx. apply in_all_chars_lk in Hc; [|exact Hwf].
  destruct (H1 f l (H2 _ _ _ _ Hc Hk)) as [_ [p Hp]]. rewrite lookup_lk, (Hp x Hx). eexists. split; reflexivity.
Qed.
Lemma cover_lk : forall r, wf_rep r -> rinv r -> forall x e, lk r x = Some e <-> exists ch, In ch (rep_iter r) /\ cover ch x = Some e.
Proof.
  intros r Hwf Hri x e. pose proof (iter_intact r Hwf (rinv_intact r Hwf Hri)) as Hit. split.
  - intro H. destruct (is_range e) eqn:Er.
    + pose proof (lk_wf _ _ _ Hwf H) as [_ Hk]. unfold is_range in Er. destruct (ch_kind e) as [| |f l] eqn:Ek; try discriminate.
      destruct Hk as [Hfl [[y [Hy1 Hy2]] Hv]]. pose proof (lk_cp _ _ _ H) as Hcp. rewrite Hcp in Hy1. subst x.
      destruct (ri_mem r Hri f l (ri_reg r Hri _ _ _ _ H Ek)) as [_ [p Hp]].
      exists (mkChar [f] (KRange f l) (ch_comment p) (ch_refs p) (ch_tags p) (ch_when p) (ch_not_when p) []). split.
      * apply Hit. split.
        -- apply in_all_chars_lk; [exact Hwf|]. cbn [ch_cp]. apply Hp. lia.
        -- cbn [ch_kind ch_cp]. intros f0 l0 E. congruence.
      * unfold cover. cbn [ch_kind]. destruct Hy2 as [E1 E2]. pose proof (Hp y (conj E1 E2)) as Hpy. rewrite H in Hpy. injection Hpy as Hpy.
        apply N.leb_le in E1. apply N.leb_le in E2. rewrite E1, E2. cbn [andb]. rewrite Hpy. reflexivity.
    + exists e. pose proof (lk_cp _ _ _ H) as Hcp. split.
      * apply Hit. split; [apply in_all_chars_lk; [exact Hwf|congruence]|]. intros f l Ek. unfold is_range in Er. rewrite Ek in Er. discriminate.
      * rewrite (cover_self e Er). rewrite Hcp, cps_eqb_refl. reflexivity.
  - intros [ch [Hin Hc]]. apply Hit in Hin. destruct Hin as [Hin Hf]. apply in_all_chars_lk in Hin; [|exact Hwf].
    unfold cover in Hc. destruct (ch_kind ch) as [| |f l] eqn:Ek.
    + destruct (cps_eqb x (ch_cp ch)) eqn:E; [|discriminate]. apply cps_eqb_eq in E. subst x. congruence.
    + destruct (cps_eqb x (ch_cp ch)) eqn:E; [|discriminate]. apply cps_eqb_eq in E. subst x. congruence.
    + destruct x as [|y [|y2 x]]; try discriminate. destruct (N.leb f y && N.leb y l)%bool eqn:E; [|discriminate].
      apply andb_true_iff in E. destruct E as [E1 E2]. apply N.leb_le in E1. apply N.leb_le in E2.
      destruct (ri_mem r Hri f l (ri_reg r Hri _ _ _ _ Hin Ek)) as [Hfl [p Hp]].
      rewrite (Hf f l eq_refl), (Hp f) in Hin by lia. injection Hin as Hin. subst ch. injection Hc as Hc. subst e.
      rewrite (Hp y) by lia. reflexivity.
Qed.
Lemma cover_disjoint : forall r, wf_rep r -> rinv r ->
  ForallOrdPairs (fun a b => forall x, cover a x <> None -> cover b x = None) (rep_iter r).
Proof.
  intros r Hwf Hri. pose proof (iter_intact r Hwf (rinv_intact r Hwf Hri)) as Hit.
  destruct (iter_general r Hwf) as [_ [Hnd _]].
  assert (Hinj : forall a b x, In a (rep_iter r) -> In b (rep_iter r) -> cover a x <> None -> cover b x <> None -> ch_cp a = ch_cp b).
  { intros a b x Ha Hb H1 H2. destruct (cover a x) as [e1|] eqn:E1; [|congruence]. destruct (cover b x) as [e2|] eqn:E2; [|congruence].
    assert (L1 : lk r x = Some e1) by (apply cover_lk; eauto). assert (L2 : lk r x = Some e2) by (apply cover_lk; eauto).
    assert (e1 = e2) by congruence. subst e2.
    assert (Hkind : forall c, cover c x = Some e1 -> ch_kind e1 = ch_kind c).
    { intros c Hc. unfold cover in Hc. destruct (ch_kind c) as [| |f l] eqn:Ek.
      - destruct (cps_eqb x (ch_cp c)); [|discriminate]. congruence.
      - destruct (cps_eqb x (ch_cp c)); [|discriminate]. congruence.
      - destruct x as [|y [|y2 x]]; try discriminate. destruct (N.leb f y && N.leb y l)%bool; [|discriminate]. injection Hc as Hc. subst e1. reflexivity. }
    pose proof (Hkind a E1) as K1. pose proof (Hkind b E2) as K2. destruct (ch_kind e1) as [| |f l] eqn:Ek.
    - rewrite cover_self in E1, E2 by (unfold is_range; rewrite <- ?K1, <- ?K2; reflexivity).
      destruct (cps_eqb x (ch_cp a)) eqn:F1; [|discriminate]. destruct (cps_eqb x (ch_cp b)) eqn:F2; [|discriminate].
      apply cps_eqb_eq in F1. apply cps_eqb_eq in F2. congruence.
    - rewrite cover_self in E1, E2 by (unfold is_range; rewrite <- ?K1, <- ?K2; reflexivity).
      destruct (cps_eqb x (ch_cp a)) eqn:F1; [|discriminate]. destruct (cps_eqb x (ch_cp b)) eqn:F2; [|discriminate].
      apply cps_eqb_eq in F1. apply cps_eqb_eq in F2. congruence.
    - apply Hit in Ha. apply Hit in Hb. rewrite (proj2 Ha f l (eq_sym K1)), (proj2 Hb f l (eq_sym K2)). reflexivity. }
  revert Hnd Hinj. clear Hit. induction (rep_iter r) as [|a l IH]; intros Hnd Hinj; constructor.
  - apply Forall_forall. intros b Hb x Hx. destruct (cover b x) eqn:E; [|reflexivity]. exfalso.
    cbn [map] in Hnd. inversion Hnd as [|? ? N1 N2]; subst. apply N1.
    rewrite (Hinj a b x (or_introl eq_refl) (or_intror Hb) Hx); [apply in_map; exact Hb|congruence].
  - cbn [map] in Hnd. inversion Hnd as [|? ? N1 N2]; subst. apply IH; [exact N2|]. intros p q x Hp Hq. apply Hinj; right; assumption.
Qed.
