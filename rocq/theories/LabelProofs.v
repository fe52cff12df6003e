From Coq Require Import Sorting.Sorted Permutation.
From Verif Require Import Base BaseFacts CharModel RepSpec RepProofs ActionModel LabelModel LabelSpec.

Lemma test_context_iff : forall rm w nw c label i, test_context rm w nw c label i = true <-> context_holds rm w nw c label i.
Proof.
  intros rm [w|] [nw|] c label i; cbn [test_context context_holds]; try tauto. apply negb_true_iff.
Qed.
Lemma ctx_char_iff : forall rm ch label i, ctx_char rm ch label i = true <-> context_holds rm (ch_when ch) (ch_not_when ch) (ch_cp ch) label i.
Proof. intros. apply test_context_iff. Qed.
Lemma ctx_char_false : forall rm ch label i, ctx_char rm ch label i = false <-> ~ context_holds rm (ch_when ch) (ch_not_when ch) (ch_cp ch) label i.
Proof. intros. rewrite <- ctx_char_iff. destruct (ctx_char rm ch label i); split; congruence. Qed.
Lemma ctx_var_iff : forall rm v label i, ctx_var rm v label i = true <-> context_holds rm (v_when v) (v_not_when v) (v_cp v) label i.
Proof. intros. apply test_context_iff. Qed.

Lemma entry_lk : forall r ch, entry r ch <-> lk r (ch_cp ch) = Some ch.
Proof. intros. unfold entry. rewrite lookup_lk. tauto. Qed.
Lemma entry_nonempty : forall r ch, entry r ch -> ch_cp ch <> [].
Proof. intros r ch H Hn. apply entry_lk in H. rewrite Hn in H. discriminate. Qed.

(** ** The bucket of a code point, longest entries first *)
Definition longer (a b : char) : Prop := len_geb a b = true.
Lemma len_geb_total : forall a b, len_geb a b = true \/ len_geb b a = true.
Proof. intros. unfold len_geb. rewrite !Nat.leb_le. lia. Qed.
Lemma len_geb_trans : forall a b c, len_geb a b = true -> len_geb b c = true -> len_geb a c = true.
Proof. intros a b c. unfold len_geb. rewrite !Nat.leb_le. lia. Qed.

Lemma bucket_entry : forall r x ch, wf_rep r -> (In ch (bucket r x) <-> entry r ch /\ exists t, ch_cp ch = x :: t).
Proof.
  intros r x ch Hwf. rewrite entry_lk. split.
  - intro H. destruct (bucket_wf r x ch Hwf H) as [_ [t Ht]]. split; [|eauto]. unfold lk. rewrite Ht. rewrite <- Ht.
    apply find_unique; [apply bucket_NoDup; exact Hwf|exact H].
  - intros [H [t Ht]]. rewrite Ht in H. cbn [lk] in H. apply find_some in H. apply H.
Qed.

Lemma prefix_cases : forall r x, wf_rep r ->
  match get_chars_from_prefix r x false with
  | Raise _ => forall ch, entry r ch -> forall t, ch_cp ch <> x :: t
  | Ok l => (forall ch, In ch l <-> entry r ch /\ exists t, ch_cp ch = x :: t) /\ NoDup l /\ StronglySorted longer l
  end.
Proof.
  intros r x Hwf. unfold get_chars_from_prefix. pose proof (bucket_entry r x) as Hb. unfold bucket in Hb.
  pose proof (bucket_NoDup r x Hwf) as Hn. unfold bucket in Hn.
  destruct (dget N.eqb x (rep_chars r)) as [l|] eqn:E.
  - split; [|split].
    + intro ch. rewrite isort_In. apply Hb. exact Hwf.
    + apply isort_NoDup. eapply NoDup_map_inv. exact Hn.
    + apply isort_sorted; [apply len_geb_total|apply len_geb_trans].
  - intros ch H t Ht. apply (proj2 (Hb ch Hwf)); eauto.
Qed.
Lemma prefix_variants : forall r x,
  get_chars_from_prefix r x true = match get_chars_from_prefix r x false with
                                   | Raise e => Raise e
                                   | Ok l => get_chars_from_prefix r x true end.
Proof. intros. unfold get_chars_from_prefix. destruct (dget N.eqb x (rep_chars r)); reflexivity. Qed.
Lemma prefix_cases_var : forall r x, wf_rep r ->
  match get_chars_from_prefix r x true with
  | Raise _ => forall ch, entry r ch -> forall t, ch_cp ch <> x :: t
  | Ok l => (forall ch, In ch l <-> entry r ch /\ has_variant ch = true /\ exists t, ch_cp ch = x :: t) /\ NoDup l
  end.
Proof.
  intros r x Hwf. unfold get_chars_from_prefix. pose proof (bucket_entry r x) as Hb. unfold bucket in Hb.
  pose proof (bucket_NoDup r x Hwf) as Hn. unfold bucket in Hn.
  destruct (dget N.eqb x (rep_chars r)) as [l|] eqn:E.
  - split.
    + intro ch. rewrite isort_In, filter_In, Hb by exact Hwf. tauto.
    + apply isort_NoDup, NoDup_filter. eapply NoDup_map_inv. exact Hn.
  - intros ch H t Ht. apply (proj2 (Hb ch Hwf)); eauto.
Qed.

Lemma seq_or_first : forall r x t ch, wf_rep r -> entry r ch -> ch_cp ch = x :: t -> is_seq ch = false -> t = [].
Proof.
  intros r x t ch Hwf He Hc Hs. apply entry_lk in He. pose proof (lk_wf _ _ _ Hwf He) as [_ Hk]. unfold is_seq in Hs.
  destruct (ch_kind ch); [destruct Hk as [y Hy]|discriminate|destruct Hk as [_ [[y [Hy _]] _]]]; congruence.
Qed.

(** ** Positions *)
Lemma occurs_skipn : forall label i c, (i <= length label)%nat -> (occurs_at label i c <-> exists post, skipn i label = c ++ post).
Proof.
  intros label i c Hi. unfold occurs_at. split.
  - intros [pre [post [H1 H2]]]. exists post. subst. rewrite skipn_app, skipn_all, Nat.sub_diag. reflexivity.
  - intros [post H]. exists (firstn i label), post. rewrite <- H, firstn_skipn. split; auto. apply firstn_length_le. exact Hi.
Qed.
Lemma prefix_occurs : forall ch label i rest, rest = skipn i label -> (i <= length label)%nat ->
  (is_prefix_of ch rest = true <-> occurs_at label i (ch_cp ch)).
Proof. intros ch label i rest H Hi. subst. unfold is_prefix_of. rewrite prefixb_spec, occurs_skipn by exact Hi. tauto. Qed.

Lemma occurs_length : forall label i c, occurs_at label i c -> (i + length c <= length label)%nat.
Proof. intros label i c [pre [post [H1 H2]]]. subst. rewrite !app_length. lia. Qed.

Lemma skipn_skipn : forall (A : Type) a b (l : list A), skipn a (skipn b l) = skipn (a + b) l.
Proof.
  intros A a b. revert a. induction b as [|b IH]; intros a l; [rewrite Nat.add_0_r; reflexivity|].
  destruct l as [|x l]; [rewrite !skipn_nil; reflexivity|]. rewrite Nat.add_succ_r. cbn [skipn]. apply IH.
Qed.

(** ** Eligibility *)
Definition matches_rest (rest : cps) (ch : char) : bool := negb (is_seq ch && negb (is_prefix_of ch rest)).

Lemma prelim_try_spec : forall rm label rest i l pending,
  match prelim_try rm label rest i l pending with
  | (Some ch, _) => exists pre post, l = pre ++ ch :: post /\ matches_rest rest ch = true /\ ctx_char rm ch label i = true /\
        forall c, In c pre -> matches_rest rest c = true -> ctx_char rm c label i = false
  | (None, p) => p = pending ++ map failed_rule (filter (matches_rest rest) l) /\
        forall c, In c l -> matches_rest rest c = true -> ctx_char rm c label i = false
  end.
Proof.
  intros rm label rest i. induction l as [|ch l IH]; intro pending; cbn [prelim_try filter map].
  - split; [rewrite app_nil_r; reflexivity|contradiction].
  - assert (E0 : matches_rest rest ch = negb (is_seq ch && negb (is_prefix_of ch rest))) by reflexivity. rewrite ?E0.
    destruct (is_seq ch && negb (is_prefix_of ch rest))%bool eqn:E1; cbn [negb].
    + specialize (IH pending). destruct (prelim_try rm label rest i l pending) as [[c|] p].
      * destruct IH as [pre [post [H1 [H2 [H3 H4]]]]]. exists (ch :: pre), post. split; [rewrite H1; reflexivity|]. split; auto. split; auto.
        intros c' [Hc|Hc] Hm; [subst; unfold matches_rest in Hm; rewrite E1 in Hm; discriminate|auto].
      * destruct IH as [H1 H2]. split; [exact H1|]. intros c' [Hc|Hc] Hm; [subst; unfold matches_rest in Hm; rewrite E1 in Hm; discriminate|auto].
    + destruct (ctx_char rm ch label i) eqn:E2; cbn [negb].
      * exists [], l. split; [reflexivity|]. split; [unfold matches_rest; rewrite E1; reflexivity|]. split; auto. intros c [].
      * specialize (IH (pending ++ [failed_rule ch])%list). destruct (prelim_try rm label rest i l (pending ++ [failed_rule ch])%list) as [[c|] p].
        -- destruct IH as [pre [post [H1 [H2 [H3 H4]]]]]. exists (ch :: pre), post. split; [rewrite H1; reflexivity|]. split; auto. split; auto.
           intros c' [Hc|Hc] Hm; [subst; auto|auto].
        -- destruct IH as [H1 H2]. split.
           ++ rewrite H1, <- app_assoc. reflexivity.
           ++ intros c' [Hc|Hc] Hm; [subst; auto|auto].
Qed.

Lemma failed_reported : forall ch s, s = failed_rule ch <-> reported_rule ch s.
Proof.
  intros ch s. unfold failed_rule, reported_rule. destruct (truthy (ch_when ch)); split; intro H; auto.
  - destruct H as [[_ H]|[H _]]; [exact H|discriminate].
  - destruct H as [[H _]|[_ H]]; [discriminate|exact H].
Qed.

Lemma sorted_head_longest : forall pre ch post c, StronglySorted longer (pre ++ ch :: post) -> In c post -> (length (ch_cp c) <= length (ch_cp ch))%nat.
Proof.
  induction pre as [|a pre IH]; intros ch post c Hs Hc; cbn [app] in Hs; inversion Hs as [|? ? Hs' Hf]; subst.
  - rewrite Forall_forall in Hf. specialize (Hf c Hc). unfold longer, len_geb in Hf. apply Nat.leb_le. exact Hf.
  - eapply IH; eauto.
Qed.

Lemma prelim_loop_spec : forall rm r label, wf_rep r -> forall fuel i rest, rest = skipn i label -> (i <= length label)%nat ->
  (length rest <= fuel)%nat ->
  exists p, prelim_loop rm r fuel label rest i = Some p /\
    longest_match rm r label i (pr_chars p) (pr_invalid p) /\
    pr_parts p = spelled (pr_chars p) /\ (pr_ok p = true <-> pr_invalid p = []).
Proof.
  intros rm r label Hwf. induction fuel as [|f IH]; intros i rest Hr Hi Hf.
  - destruct rest as [|x rest]; [|cbn in Hf; lia]. eexists. split; [reflexivity|]. cbn.
    assert (i = length label) by (pose proof (f_equal (@length N) Hr) as Hl; rewrite skipn_length in Hl; cbn in Hl; lia). subst i.
    split; [constructor|]. tauto.
  - destruct rest as [|x rest].
    { eexists. split; [reflexivity|]. cbn.
      assert (i = length label) by (pose proof (f_equal (@length N) Hr) as Hl; rewrite skipn_length in Hl; cbn in Hl; lia). subst i.
      split; [constructor|]. tauto. }
    assert (Hx : nth_error label i = Some x).
    { rewrite <- (firstn_skipn i label), <- Hr. rewrite nth_error_app2; rewrite firstn_length_le by exact Hi; [|lia].
      rewrite Nat.sub_diag. reflexivity. }
    assert (Hlen : (i < length label)%nat) by (apply nth_error_Some; congruence).
    assert (Hr' : rest = skipn (S i) label).
    { replace (S i) with (1 + i)%nat by lia. rewrite <- skipn_skipn, <- Hr. reflexivity. }
    assert (Hbad : forall reason, (forall ch, ~ applies rm r label i ch) -> right_reason r label i reason ->
      exists p, match prelim_loop rm r f label rest (S i) with
              | Some p => Some (mkPrelim false (pr_parts p) ((x, reason) :: pr_invalid p) (pr_chars p))
              | None => None end = Some p /\
        longest_match rm r label i (pr_chars p) (pr_invalid p) /\
        pr_parts p = spelled (pr_chars p) /\ (pr_ok p = true <-> pr_invalid p = [])).
    { intros reason Hno Hrr. destruct (IH (S i) rest Hr') as [p [H1 [H2 [H3 H4]]]]; [lia|cbn in Hf; lia|]. rewrite H1.
      eexists. split; [reflexivity|]. cbn. split; [eapply lm_skip; eauto|]. split; [exact H3|]. split; discriminate. }
    cbn [prelim_loop]. pose proof (prefix_cases r x Hwf) as Hp.
    destruct (get_chars_from_prefix r x false) as [l|e].
    + destruct Hp as [Hp [Hnd Hs]].
      assert (Hmr : forall ch, In ch l -> (matches_rest (x :: rest) ch = true <-> occurs_at label i (ch_cp ch))).
      { intros ch Hc. rewrite <- (prefix_occurs ch label i (x :: rest)) by auto. apply Hp in Hc. destruct Hc as [He [t Ht]].
        unfold matches_rest. destruct (is_seq ch) eqn:Es; cbn [andb negb]; [rewrite negb_involutive; tauto|].
        pose proof (seq_or_first r x t ch Hwf He Ht Es). subst t. unfold is_prefix_of. rewrite Ht. cbn [prefixb]. rewrite N.eqb_refl. cbn. tauto. }
      assert (Hin : forall ch, entry r ch -> occurs_at label i (ch_cp ch) -> In ch l).
      { intros ch He Ho. apply Hp. split; auto. pose proof (entry_nonempty _ _ He) as Hne. apply (occurs_skipn label i) in Ho; [|exact Hi].
        destruct Ho as [post Ho]. rewrite <- Hr in Ho. destruct (ch_cp ch) as [|y t]; [contradiction|]. injection Ho as Ho _. subst. eauto. }
      pose proof (prelim_try_spec rm label (x :: rest) i l []) as Ht.
      destruct (prelim_try rm label (x :: rest) i l []) as [[ch|] pend].
      * destruct Ht as [pre [post [Hl [Hm [Hc Hpre]]]]].
        assert (Hch : In ch l) by (rewrite Hl; apply in_or_app; right; left; reflexivity).
        assert (Hap : applies rm r label i ch).
        { split; [apply Hp in Hch; tauto|]. split; [apply Hmr; auto|]. apply ctx_char_iff. exact Hc. }
        pose proof (occurs_length _ _ _ (proj1 (proj2 Hap))) as Hol. pose proof (entry_nonempty _ _ (proj1 Hap)) as Hne.
        assert (Hcl : (0 < length (ch_cp ch))%nat) by (destruct (ch_cp ch); [contradiction|cbn; lia]).
        destruct (IH (i + ch_len ch)%nat (skipn (ch_len ch) (x :: rest))) as [p [H1 [H2 [H3 H4]]]].
        { rewrite Hr, skipn_skipn. f_equal. lia. }
        { unfold ch_len. exact Hol. }
        { rewrite skipn_length. unfold ch_len. cbn [length] in *. lia. }
        rewrite H1. eexists. split; [reflexivity|]. cbn [pr_chars pr_invalid pr_parts pr_ok]. split; [|split; [cbn; rewrite H3; reflexivity|exact H4]].
        apply lm_take; [exact Hap| |exact H2]. intros ch' [He' [Ho' Hc']]. pose proof (Hin ch' He' Ho') as Hi'. assert (Hi0 := Hi'). rewrite Hl in Hi'.
        apply in_app_or in Hi'. destruct Hi' as [Hi'|[Hi'|Hi']]; [|subst; lia|eapply sorted_head_longest; [rewrite <- Hl; exact Hs|exact Hi']].
        exfalso. apply ctx_char_iff in Hc'. rewrite Hpre in Hc'; [discriminate|exact Hi'|apply Hmr; auto].
      * destruct Ht as [Hpend Hno]. cbn [app] in Hpend.
        assert (Hnone : forall ch, ~ applies rm r label i ch).
        { intros ch [He [Ho Hc]]. pose proof (Hin ch He Ho) as Hi'. apply ctx_char_iff in Hc. rewrite Hno in Hc; [discriminate|exact Hi'|apply Hmr; auto]. }
        assert (Hrep : forall s, In s pend <-> exists ch, entry r ch /\ occurs_at label i (ch_cp ch) /\ reported_rule ch s).
        { intro s. rewrite Hpend, in_map_iff. split.
          - intros [ch [Hs1 Hs2]]. apply filter_In in Hs2. destruct Hs2 as [Hs2 Hs3]. exists ch. split; [apply Hp in Hs2; tauto|].
            split; [apply Hmr; auto|apply failed_reported; auto].
          - intros [ch [He [Ho Hre]]]. exists ch. split; [symmetry; apply failed_reported; exact Hre|]. apply filter_In. split; [auto|apply Hmr; auto]. }
        destruct pend as [|s0 pend]; apply Hbad; auto.
        -- cbn. intros ch He Ho. apply (proj2 (Hrep (failed_rule ch))). exists ch. split; auto. split; auto. apply failed_reported. reflexivity.
        -- cbn. split; [discriminate|exact Hrep].
    + assert (Hnone : forall ch, entry r ch -> ~ occurs_at label i (ch_cp ch)).
      { intros ch He Ho. apply (occurs_skipn label i) in Ho; [|exact Hi]. destruct Ho as [post Ho]. rewrite <- Hr in Ho.
        pose proof (entry_nonempty _ _ He) as Hne. destruct (ch_cp ch) as [|y t] eqn:Ec; [contradiction|]. injection Ho as Ho _. subst y. eapply Hp; eauto. }
      apply Hbad; [intros ch [He [Ho _]]; eapply Hnone; eauto|exact Hnone].
Qed.

Theorem preliminary_spec : forall rm r label, reachable r ->
  exists p, preliminary rm r label = Some p /\ longest_match rm r label 0 (pr_chars p) (pr_invalid p) /\
    pr_parts p = spelled (pr_chars p) /\ (pr_ok p = true <-> pr_invalid p = []).
Proof. intros rm r label H. apply prelim_loop_spec; auto; [apply reachable_wf; exact H|lia]. Qed.

Lemma longest_match_cut : forall rm r label i chars inv, longest_match rm r label i chars inv -> inv = [] -> cut rm r label i chars.
Proof.
  intros rm r label i chars inv H. induction H; intro E; [constructor|apply cut_cons; auto|discriminate].
Qed.
Lemma skipn_app_len : forall (a b : cps), skipn (length a) (a ++ b) = b.
Proof. induction a; cbn; auto. Qed.
Lemma cut_spelled : forall rm r label i chars, cut rm r label i chars -> (i <= length label)%nat -> skipn i label = spelled chars.
Proof.
  intros rm r label i chars H. induction H as [|i ch l Ha Hc IH]; intro Hi; [apply skipn_all|].
  destruct Ha as [_ [Ho _]]. pose proof (occurs_length _ _ _ Ho) as Hl. apply (occurs_skipn label i) in Ho; [|exact Hi]. destruct Ho as [post Ho].
  cbn [spelled flat_map]. fold (spelled l). rewrite <- IH by lia. rewrite Nat.add_comm, <- skipn_skipn, Ho. rewrite skipn_app_len. reflexivity.
Qed.

(** Determinism of longest-match cutting. *)
Lemma applies_same_length : forall rm r label i a b, applies rm r label i a -> applies rm r label i b ->
  length (ch_cp a) = length (ch_cp b) -> a = b.
Proof.
  intros rm r label i a b [Ha [Oa _]] [Hb [Ob _]] Hl. pose proof (occurs_length _ _ _ Oa) as Hla.
  apply (occurs_skipn label i) in Oa; [|lia]. apply (occurs_skipn label i) in Ob; [|lia]. destruct Oa as [pa Oa], Ob as [pb Ob].
  rewrite Oa in Ob. assert (ch_cp a = ch_cp b).
  { pose proof (f_equal (firstn (length (ch_cp a))) Ob) as E. rewrite firstn_app, firstn_all, Nat.sub_diag, app_nil_r in E.
    rewrite Hl in E. rewrite firstn_app, firstn_all, Nat.sub_diag, app_nil_r in E. exact E. }
  unfold entry in *. rewrite <- H, Ha in Hb. congruence.
Qed.
Lemma applies_bound : forall rm r label i ch, applies rm r label i ch -> (i < length label)%nat.
Proof.
  intros rm r label i ch [He [Ho _]]. apply occurs_length in Ho. pose proof (entry_nonempty _ _ He). destruct (ch_cp ch); [contradiction|cbn in Ho; lia].
Qed.
Theorem longest_match_deterministic : forall rm r label i c1 i1, longest_match rm r label i c1 i1 ->
  forall c2 i2, longest_match rm r label i c2 i2 -> c1 = c2 /\ map fst i1 = map fst i2.
Proof.
  intros rm r label i c1 i1 H. induction H as [|i ch l inv Ha Hm H IH|i x rs l inv Hx Hn Hr H IH]; intros c2 i2 H2.
  - inversion H2; subst; auto.
    + exfalso. match goal with h : applies _ _ _ _ _ |- _ => apply applies_bound in h; lia end.
    + exfalso. match goal with h : nth_error _ (length label) = _ |- _ => assert (length label < length label)%nat by (apply nth_error_Some; congruence); lia end.
  - inversion H2; subst.
    + exfalso. apply applies_bound in Ha. lia.
    + assert (ch = ch0) by (eapply applies_same_length; eauto; apply Nat.le_antisymm; eauto). subst ch0.
      match goal with h : longest_match _ _ _ (i + _) ?a ?b |- _ /\ map fst inv = map fst ?b => destruct (IH _ _ h) as [E1 E2] end. subst. auto.
    + exfalso. match goal with h : forall c, ~ applies _ _ _ _ c |- _ => eapply h; exact Ha end.
  - inversion H2; subst.
    + exfalso. assert (length label < length label)%nat by (apply nth_error_Some; congruence). lia.
    + exfalso. eapply Hn; eauto.
    + match goal with h : longest_match _ _ _ (S i) ?a ?b |- _ => destruct (IH _ _ h) as [E1 E2] end.
      subst. split; auto. cbn. f_equal; [congruence|auto].
Qed.

(** C17: when some entry applies at every position the test passes. *)
Lemma longest_match_no_skip : forall rm r label i c inv, longest_match rm r label i c inv ->
  (forall j, (j < length label)%nat -> exists ch, applies rm r label j ch) -> inv = [].
Proof.
  intros rm r label i c inv H Hall. induction H as [|i ch l inv Ha Hm H IH|i x rs l inv Hx Hn Hr H IH]; auto.
  exfalso. assert (Hi : (i < length label)%nat) by (apply nth_error_Some; congruence). destruct (Hall i Hi) as [ch Hch]. eapply Hn; eauto.
Qed.
