(** Eligibility test and partitions of a label. *)
From Coq Require Import Sorting.Sorted Permutation.
From Verif Require Import Base BaseFacts CharModel RepSpec RepProofs VariantProofs ActionModel ActionSpec ActionProofs
  LabelModel LabelSpec LabelProofs.
Open Scope list_scope.

Lemma get_reflexive_In : forall r ch v, wf_rep r -> entry r ch ->
  (In v (get_reflexive_variants ch) <-> In v (get_variants ch) /\ v_cp v = ch_cp ch).
Proof.
  intros r ch v Hwf He. apply entry_lk in He. destruct (lk_wf _ _ _ Hwf He) as [[Hnd Hv] _].
  unfold get_reflexive_variants, get_variants. rewrite in_flat_map. split.
  - intro H. destruct (dget cps_eqb (ch_cp ch) (ch_variants ch)) as [l|] eqn:E; [|contradiction].
    pose proof (dget_In _ cps_eqb_eq _ _ _ E) as Hin. split.
    + exists (ch_cp ch). rewrite E. split; auto. apply isort_In. apply in_map_iff. exists (ch_cp ch, l). auto.
    + apply (Hv _ _ Hin). exact H.
  - intros [[k [Hk H]] Hc]. destruct (dget cps_eqb k (ch_variants ch)) as [l|] eqn:E; [|contradiction].
    pose proof (dget_In _ cps_eqb_eq _ _ _ E) as Hin. destruct (Hv _ _ Hin) as [_ [_ [H3 _]]].
    assert (k = ch_cp ch) by (rewrite <- Hc; symmetry; apply H3; exact H). subst k. rewrite E. exact H.
Qed.

Lemma refl_types_In : forall rm r label i ch t, wf_rep r -> entry r ch ->
  (In t (refl_types rm label i ch) <-> exists v, self_mapping rm label i ch v /\ v_type v = t).
Proof.
  intros rm r label i ch t Hwf He. unfold refl_types. rewrite in_map_iff. unfold self_mapping. split.
  - intros [v [H1 H2]]. apply filter_In in H2. destruct H2 as [H2 H3]. apply (get_reflexive_In r) in H2; auto.
    exists v. rewrite <- ctx_var_iff. tauto.
  - intros [v [[H1 [H2 H3]] H4]]. exists v. split; auto. apply filter_In. rewrite ctx_var_iff. split; auto. apply (get_reflexive_In r); auto.
Qed.

Lemma entries_at_In : forall rm r label i ch, wf_rep r -> (i <= length label)%nat ->
  (In ch (entries_at rm r label (skipn i label) i) <-> applies rm r label i ch).
Proof.
  intros rm r label i ch Hwf Hi. unfold entries_at, applies.
  destruct (skipn i label) as [|x rest] eqn:Er.
  { split; [contradiction|]. intros [He [Ho _]]. apply (occurs_skipn label i) in Ho; [|exact Hi]. rewrite Er in Ho. destruct Ho as [post Ho].
    symmetry in Ho. apply app_eq_nil in Ho. apply (entry_nonempty _ _ He). apply Ho. }
  pose proof (prefix_cases r x Hwf) as Hp.
  rewrite <- (prefix_occurs ch label i (x :: rest)) by auto. rewrite <- ctx_char_iff.
  destruct (get_chars_from_prefix r x false) as [l|e].
  - destruct Hp as [Hp _]. rewrite filter_In, Hp. rewrite andb_true_iff, orb_true_iff, negb_true_iff. split.
    + intros [[He [t Ht]] [Hs Hc]]. split; auto. split; auto. destruct Hs as [Hs|Hs]; auto.
      pose proof (seq_or_first r x t ch Hwf He Ht Hs). subst t. unfold is_prefix_of. rewrite Ht. cbn [prefixb]. rewrite N.eqb_refl. reflexivity.
    + intros [He [Hpf Hc]]. split; [|split; auto]. split; auto. unfold is_prefix_of in Hpf. apply prefixb_spec in Hpf. destruct Hpf as [q Hq].
      pose proof (entry_nonempty _ _ He). destruct (ch_cp ch) as [|y t]; [contradiction|]. injection Hq as Hq _. subst. eauto.
  - split; [contradiction|]. intros [He [Hpf _]]. unfold is_prefix_of in Hpf. apply prefixb_spec in Hpf. destruct Hpf as [q Hq].
    pose proof (entry_nonempty _ _ He) as Hne. destruct (ch_cp ch) as [|y t] eqn:Ec; [contradiction|]. injection Hq as Hq _. subst y. eapply Hp; eauto.
Qed.

Lemma refl_collect_spec : forall rm r label ap, wf_rep r -> forall rest i, rest = skipn i label -> (i <= length label)%nat ->
  forall ds only, refl_collect rm r label rest i ap = (ds, only) ->
  (forall t, In t ds <-> ap = true /\ exists j ch v, (i <= j)%nat /\ applies rm r label j ch /\ self_mapping rm label j ch v /\ v_type v = t) /\
  (only = true <-> forall j ch, (i <= j)%nat -> applies rm r label j ch -> ap = true /\ exists v, self_mapping rm label j ch v).
Proof.
  intros rm r label ap Hwf. induction rest as [|x rest IH]; intros i Hr Hi ds only H.
  - cbn in H. injection H as H1 H2. subst ds only.
    assert (Hl : (length label <= i)%nat) by (pose proof (f_equal (@length N) Hr) as Hl; rewrite skipn_length in Hl; cbn in Hl; lia).
    split.
    + intro t. split; [contradiction|]. intros [_ [j [ch [v [Hj [Ha _]]]]]]. apply applies_bound in Ha. lia.
    + split; auto. intros _ j ch Hj Ha. apply applies_bound in Ha. lia.
  - assert (Hlen : (i < length label)%nat).
    { pose proof (f_equal (@length N) Hr) as Hl. rewrite skipn_length in Hl. cbn in Hl. lia. }
    assert (Hr' : rest = skipn (S i) label).
    { replace (S i) with (1 + i)%nat by lia. rewrite <- skipn_skipn, <- Hr. reflexivity. }
    cbn [refl_collect] in H. destruct (refl_collect rm r label rest (S i) ap) as [ds' only'] eqn:E.
    destruct (IH (S i) Hr' Hlen ds' only' E) as [IH1 IH2]. rewrite Hr in H.
    pose proof (f_equal fst H) as H1. pose proof (f_equal snd H) as H2. cbn [fst snd] in H1, H2. clear H. subst ds only.
    pose proof (fun ch => entries_at_In rm r label i ch Hwf Hi) as He. split.
    + intro t. rewrite in_app_iff, in_concat, IH1. split.
      * intros [[ts [Ht1 Ht2]]|[Hap [j [ch [v [Hj Hv]]]]]].
        -- apply in_map_iff in Ht1. destruct Ht1 as [ch [Hts Hch]]. apply He in Hch. destruct ap; [|subst ts; contradiction].
           split; auto. subst ts. apply (refl_types_In rm r) in Ht2; auto; [|apply Hch]. destruct Ht2 as [v Hv]. exists i, ch, v. split; [lia|]. split; auto.
        -- split; auto. exists j, ch, v. split; [lia|exact Hv].
      * intros [Hap [j [ch [v [Hj [Ha [Hs Ht]]]]]]]. subst ap. destruct (Nat.eq_dec j i) as [->|Hne].
        -- left. exists (refl_types rm label i ch). split; [apply in_map_iff; exists ch; split; auto; apply He; exact Ha|].
           apply (refl_types_In rm r); [auto|apply Ha|eauto].
        -- right. split; auto. exists j, ch, v. split; [lia|]. auto.
    + rewrite andb_true_iff, IH2, forallb_forall. split.
      * intros [H1 H2] j ch Hj Ha. destruct (Nat.eq_dec j i) as [->|Hne]; [|apply H2; auto; lia].
        assert (Hin : In (if ap then refl_types rm label i ch else []) (map (fun ch => if ap then refl_types rm label i ch else []) (entries_at rm r label (skipn i label) i))).
        { apply in_map_iff. exists ch. split; auto. apply He. exact Ha. }
        apply H1 in Hin. destruct ap; [|discriminate]. split; auto. destruct (refl_types rm label i ch) as [|t ts] eqn:Et; [discriminate|].
        assert (Ht : In t (refl_types rm label i ch)) by (rewrite Et; left; reflexivity). apply (refl_types_In rm r) in Ht; auto; [|apply Ha].
        destruct Ht as [v [Hv _]]. eauto.
      * intro H. split; [|intros j ch Hj Ha; apply H; auto; lia]. intros ts Hts. apply in_map_iff in Hts. destruct Hts as [ch [Hts Hch]].
        apply He in Hch. destruct (H i ch (le_n i) Hch) as [Hap [v Hv]]. subst ap ts.
        assert (Ht : In (v_type v) (refl_types rm label i ch)) by (apply (refl_types_In rm r); [auto|apply Hch|eauto]).
        destruct (refl_types rm label i ch); [contradiction|reflexivity].
Qed.

Lemma decided : forall rm acts label ds only, exists a i, decided_by rm acts label ds only a i /\
  apply_actions rm acts label ds only = (Some (a_disp a), Z.of_nat i).
Proof.
  intros. destruct (first_triggered rm acts label ds only) as [i [a [H1 [H2 [H3 H4]]]]]. exists a, i. split; auto. split; [|split]; auto.
Qed.
Lemma decided_unique : forall rm acts label ds only a i b j, decided_by rm acts label ds only a i -> decided_by rm acts label ds only b j -> a = b /\ i = j.
Proof.
  intros rm acts label ds only a i b j [H1 [H2 H3]] [G1 [G2 G3]]. destruct (Nat.lt_trichotomy i j) as [H|[H|H]].
  - exfalso. eapply G3; eauto.
  - subst j. split; congruence.
  - exfalso. eapply H3; eauto.
Qed.

Lemma label_disposition_spec : forall rm r acts label ap, wf_rep r -> exists ds only a i,
  (forall t, In t ds <-> ap = true /\ self_type rm r label t) /\
  (only = true <-> ds <> [] /\ all_self_mapped rm r label) /\
  decided_by rm acts label ds only a i /\
  label_disposition rm r acts label ap = (Some (a_disp a), Z.of_nat i).
Proof.
  intros rm r acts label ap Hwf. unfold label_disposition. destruct (refl_collect rm r label label 0 ap) as [ds only] eqn:E.
  destruct (refl_collect_spec rm r label ap Hwf label 0%nat eq_refl (Nat.le_0_l _) ds only E) as [H1 H2].
  set (o := match ds with [] => false | _ => only end). exists ds, o. destruct (decided rm acts label ds o) as [a [i [H3 H4]]]. exists a, i.
  assert (Hds : forall t, In t ds <-> ap = true /\ self_type rm r label t).
  { intro t. rewrite H1. unfold self_type. split; intros [Hap [j [ch [v H]]]]; split; auto; exists j, ch, v; [tauto|]. split; [lia|exact H]. }
  split; [exact Hds|]. split; [|split; auto].
  unfold o. destruct ds as [|d ds']; [split; [discriminate|intros [H _]; contradiction]|]. rewrite H2. split.
  - intro H. split; [discriminate|]. intros j ch Ha. apply (H j ch); auto. lia.
  - intros [_ H] j ch _ Ha. split; [apply (proj1 (Hds d) (or_introl eq_refl))|eauto].
Qed.

(** C16: full description of the eligibility test. *)
Theorem test_label_eligible_spec : forall rm r acts label is_variant, reachable r -> label <> [] ->
  exists e chars inv, test_label_eligible rm r acts label is_variant = Ok e /\
    longest_match rm r label 0 chars inv /\ el_chars e = chars /\ el_invalid e = inv /\
    ((inv <> [] /\ el_ok e = false /\ el_parts e = spelled chars /\ el_disp e = Some "invalid"%string /\ el_idx e = (-1)%Z) \/
     (inv = [] /\ exists ds only a i,
        (forall t, In t ds <-> is_variant = false /\ self_type rm r label t) /\
        (only = true <-> ds <> [] /\ all_self_mapped rm r label) /\
        decided_by rm acts label ds only a i /\ el_disp e = Some (a_disp a) /\ el_idx e = Z.of_nat i /\
        (el_ok e = true <-> a_disp a <> "invalid"%string) /\
        el_parts e = (if el_ok e then label else []))).
Proof.
  intros rm r acts label isv Hr Hne. destruct (preliminary_spec rm r label Hr) as [p [H1 [H2 [H3 H4]]]].
  unfold test_label_eligible. destruct label as [|x label]; [contradiction|]. set (lab := x :: label) in *. rewrite H1.
  destruct (pr_ok p) eqn:Ep; cbn [negb].
  - assert (Hi : pr_invalid p = []) by (apply H4; reflexivity).
    destruct (label_disposition_spec rm r acts lab (negb isv) (reachable_wf _ Hr)) as [ds [only [a [i [D1 [D2 [D3 D4]]]]]]].
    rewrite D4. destruct (ostring_eqb (Some (a_disp a)) (Some "invalid"%string)) eqn:Eo.
    + apply ostring_eqb_eq in Eo. eexists. exists (pr_chars p), []. split; [reflexivity|]. cbn [el_chars el_invalid el_ok el_parts el_disp el_idx].
      rewrite Hi in H2. split; auto. split; auto. split; auto. right. split; auto. exists ds, only, a, i.
      split; [intro t; rewrite D1, negb_true_iff; tauto|]. split; auto. split; auto. split; auto. split; auto. split; [|auto].
      split; [discriminate|]. congruence.
    + eexists. exists (pr_chars p), []. split; [reflexivity|]. cbn [el_chars el_invalid el_ok el_parts el_disp el_idx].
      rewrite Hi in H2. split; auto. split; auto. split; auto. right. split; auto. exists ds, only, a, i.
      split; [intro t; rewrite D1, negb_true_iff; tauto|]. split; auto. split; auto. split; auto. split; auto. split; [|auto].
      split; auto. intros _ Hx. rewrite Hx in Eo. cbn in Eo. discriminate.
  - eexists. exists (pr_chars p), (pr_invalid p). split; [reflexivity|]. cbn [el_chars el_invalid el_ok el_parts el_disp el_idx].
    split; auto. split; auto. split; auto. left. split; [|auto]. intro Hx. apply H4 in Hx. discriminate.
Qed.

(** ** Partitions *)
Lemma flat_mapM_spec : forall {A B} (f : A -> option (list B)) l, (forall x, In x l -> exists y, f x = Some y) ->
  exists ys, flat_mapM f l = Some ys /\ forall b, In b ys <-> exists x y, In x l /\ f x = Some y /\ In b y.
Proof.
  intros A B f. induction l as [|a l IH]; intro H; cbn [flat_mapM].
  - exists []. split; auto. intro b. split; [contradiction|]. intros [x [y [[] _]]].
  - destruct (H a (or_introl eq_refl)) as [ya Ha]. destruct IH as [ys [H1 H2]]; [intros x Hx; apply H; right; exact Hx|].
    rewrite Ha, H1. exists (ya ++ ys). split; auto. intro b. rewrite in_app_iff, H2. split.
    + intros [Hb|[x [y [Hx [Hf Hb]]]]]; [exists a, ya|exists x, y]; cbn; auto.
    + intros [x [y [[Hx|Hx] [Hf Hb]]]]; [subst x; left; congruence|right; eauto].
Qed.
Lemma flat_mapM_NoDup : forall {A B} (f : A -> option (list B)) l ys, flat_mapM f l = Some ys -> NoDup l ->
  (forall x y, In x l -> f x = Some y -> NoDup y) ->
  (forall x x' y y' b, In x l -> In x' l -> f x = Some y -> f x' = Some y' -> In b y -> In b y' -> x = x') -> NoDup ys.
Proof.
  intros A B f. induction l as [|a l IH]; intros ys H Hnd H1 H2; cbn [flat_mapM] in H; [injection H as <-; constructor|].
  destruct (f a) as [ya|] eqn:Ea; [|discriminate]. destruct (flat_mapM f l) as [yl|] eqn:El; [|discriminate]. injection H as <-.
  inversion Hnd as [|? ? Hna Hnd']; subst. apply NoDup_app_iff. split; [|split].
  - apply (H1 a); auto. left. reflexivity.
  - apply (IH yl); auto; intros; [eapply H1|eapply H2]; eauto; right; auto.
  - intros b Hb Hb'. assert (Hall : forall x, In x l -> exists y, f x = Some y).
    { clear - El. revert yl El. induction l as [|c l IHl]; intros yl El x Hx; [contradiction|]. cbn [flat_mapM] in El.
      destruct (f c) eqn:Ec; [|discriminate]. destruct (flat_mapM f l) eqn:El'; [|discriminate]. destruct Hx as [->|Hx]; eauto. }
    destruct (flat_mapM_spec f l Hall) as [ys [E1 E2]]. rewrite El in E1. injection E1 as <-. apply E2 in Hb'.
    destruct Hb' as [x [y [Hx [Hf Hb']]]]. apply Hna. rewrite (H2 a x ya y b); auto; [left; reflexivity|right; exact Hx].
Qed.

Lemma partitions_spec : forall rm r, wf_rep r -> forall fuel prefix label, label <> [] -> (length label <= fuel)%nat ->
  exists ps, partitions rm r fuel prefix label = Some ps /\ NoDup ps /\
    forall p, In p ps <-> cut rm r (prefix ++ label) (length prefix) p.
Proof.
  intros rm r Hwf. induction fuel as [|f IH]; intros prefix label Hne Hf; [destruct label; [contradiction|cbn in Hf; lia]|].
  destruct label as [|x rest]; [contradiction|]. set (label := x :: rest) in *. set (full := prefix ++ label).
  assert (Hfl : length full = (length prefix + length label)%nat) by (unfold full; apply app_length).
  assert (Hll : length label = S (length rest)) by reflexivity.
  assert (Hsk : skipn (length prefix) full = label) by (unfold full; apply skipn_app_len).
  assert (Hocc : forall ch, is_prefix_of ch label = true <-> occurs_at full (length prefix) (ch_cp ch)).
  { intro ch. apply prefix_occurs; [auto|lia]. }
  assert (Hcut : forall p, cut rm r full (length prefix) p <-> exists ch q, p = ch :: q /\ applies rm r full (length prefix) ch /\ cut rm r full (length prefix + length (ch_cp ch)) q).
  { intro p. split.
    - intro Hc. inversion Hc as [Hx|i ch l Ha Hl]; subst; [exfalso; lia|eauto].
    - intros [ch [q [-> [Ha Hq]]]]. apply cut_cons; auto. }
  unfold label at 1. cbn [partitions]. fold label. pose proof (prefix_cases r x Hwf) as Hp. destruct (get_chars_from_prefix r x false) as [l|e].
  - destruct Hp as [Hp [Hnd _]].
    set (g := fun ch => if negb (is_prefix_of ch label) then Some [] else if negb (ctx_char rm ch (prefix ++ label) (length prefix)) then Some []
      else if Nat.ltb (ch_len ch) (length label) then match partitions rm r f (prefix ++ ch_cp ch) (skipn (ch_len ch) label) with None => None | Some ps => Some (map (fun p => ch :: p) ps) end
      else Some [[ch]]).
    assert (Hg : forall ch, In ch l -> exists y, g ch = Some y /\ NoDup y /\
      forall p, In p y <-> exists q, p = ch :: q /\ applies rm r full (length prefix) ch /\ cut rm r full (length prefix + length (ch_cp ch)) q).
    { intros ch Hch. pose proof (proj1 (Hp ch) Hch) as [He _]. unfold g. destruct (is_prefix_of ch label) eqn:Ep; cbn [negb].
      2: { exists []. split; auto. split; [constructor|]. intro p. split; [contradiction|]. intros [q [_ [[_ [Ho _]] _]]]. apply Hocc in Ho. congruence. }
      fold full. destruct (ctx_char rm ch full (length prefix)) eqn:Ec; cbn [negb].
      2: { exists []. split; auto. split; [constructor|]. intro p. split; [contradiction|]. intros [q [_ [[_ [_ Hc]] _]]]. apply ctx_char_iff in Hc. congruence. }
      assert (Ha : applies rm r full (length prefix) ch) by (split; [exact He|split; [apply Hocc; exact Ep|apply ctx_char_iff; exact Ec]]).
      pose proof (occurs_length _ _ _ (proj1 (proj2 Ha))) as Hol.
      destruct (Nat.ltb_spec (ch_len ch) (length label)) as [Hlt|Hge].
      - unfold ch_len in *. assert (Hsplit : label = ch_cp ch ++ skipn (length (ch_cp ch)) label).
        { unfold is_prefix_of in Ep. apply prefixb_spec in Ep. destruct Ep as [q Hq]. rewrite Hq. rewrite skipn_app_len. reflexivity. }
        pose proof (entry_nonempty _ _ He) as Hen. assert (0 < length (ch_cp ch))%nat by (destruct (ch_cp ch); [contradiction|cbn; lia]).
        destruct (IH (prefix ++ ch_cp ch) (skipn (length (ch_cp ch)) label)) as [ps [P1 [P2 P3]]].
        { intro Hx. pose proof (f_equal (@length N) Hx) as Hy. rewrite skipn_length in Hy. change (length (@nil N)) with 0%nat in Hy. lia. }
        { rewrite skipn_length. lia. }
        rewrite P1. assert (Hfull : (prefix ++ ch_cp ch) ++ skipn (length (ch_cp ch)) label = full) by (rewrite <- app_assoc, <- Hsplit; reflexivity).
        rewrite Hfull, app_length in P3. eexists. split; [reflexivity|]. split.
        + apply FinFun.Injective_map_NoDup; [intros a b Hab; congruence|exact P2].
        + intro p. rewrite in_map_iff. split.
          * intros [q [<- Hq]]. exists q. split; auto. split; auto. apply P3. exact Hq.
          * intros [q [-> [_ Hq]]]. exists q. split; auto. apply P3. exact Hq.
      - eexists. split; [reflexivity|]. split; [constructor; [intros []|constructor]|]. intro p.
        unfold ch_len in Hge. assert (Hend : (length prefix + length (ch_cp ch))%nat = length full) by lia. rewrite Hend. split.
        + intros [<-|[]]. exists []. split; auto. split; auto. constructor.
        + intros [q [-> [_ Hq]]]. inversion Hq as [|? c' ? Ha']; subst; [left; reflexivity|]. apply applies_bound in Ha'. lia. }
    destruct (flat_mapM_spec g l) as [ps [P1 P2]]. { intros ch Hch. destruct (Hg ch Hch) as [y [Hy _]]. eauto. }
    exists ps. fold g. split; [exact P1|]. split.
    + apply (flat_mapM_NoDup g l ps P1 Hnd).
      * intros ch y Hch Hy. destruct (Hg ch Hch) as [y' [E1 [E2 _]]]. congruence.
      * intros c c' y y' b Hc Hc' Hy Hy' Hb Hb'. destruct (Hg c Hc) as [y1 [E1 [_ E2]]]. destruct (Hg c' Hc') as [y2 [F1 [_ F2]]].
        assert (y1 = y) by congruence. assert (y2 = y') by congruence. subst. apply E2 in Hb. apply F2 in Hb'.
        destruct Hb as [q [Hq _]], Hb' as [q' [Hq' _]]. congruence.
    + intro p. rewrite P2, Hcut. split.
      * intros [ch [y [Hch [Hy Hb]]]]. destruct (Hg ch Hch) as [y' [E1 [_ E2]]]. assert (y' = y) by congruence. subst. apply E2 in Hb.
        destruct Hb as [q Hq]. exists ch, q. exact Hq.
      * intros [ch [q [Hpq [Ha Hq]]]]. assert (Hch : In ch l).
        { destruct Ha as [He [Ho _]]. apply Hp. split; auto. apply Hocc in Ho. unfold is_prefix_of in Ho. apply prefixb_spec in Ho. destruct Ho as [z Hz].
          pose proof (entry_nonempty _ _ He). unfold label in Hz. destruct (ch_cp ch) as [|c0 t]; [contradiction|]. injection Hz as Hz _. subst. eauto. }
        destruct (Hg ch Hch) as [y [E1 [_ E2]]]. exists ch, y. split; auto. split; auto. apply E2. eauto.
  - exists []. split; auto. split; [constructor|]. intro p. split; [contradiction|]. rewrite Hcut. intros [ch [q [_ [[He [Ho _]] _]]]].
    apply Hocc in Ho. unfold is_prefix_of in Ho. apply prefixb_spec in Ho. destruct Ho as [z Hz].
    pose proof (entry_nonempty _ _ He) as Hen. unfold label in Hz. destruct (ch_cp ch) as [|c0 t] eqn:Ec; [contradiction|]. injection Hz as Hz _. subst c0. eapply Hp; eauto.
Qed.

Theorem label_partitions_spec : forall rm r label, reachable r -> label <> [] ->
  exists ps, label_partitions rm r label = Some ps /\ NoDup ps /\ forall p, In p ps <-> cut rm r label 0 p.
Proof. intros rm r label Hr Hne. apply (partitions_spec rm r (reachable_wf _ Hr) (length label) [] label Hne (le_n _)). Qed.
