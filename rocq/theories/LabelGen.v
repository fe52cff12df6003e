(** Generation of the variant labels. *)
From Coq Require Import Sorting.Sorted Permutation.
From Verif Require Import Base BaseFacts CharModel RepSpec RepProofs VariantProofs ActionModel ActionSpec ActionProofs
  LabelModel LabelSpec LabelProofs LabelElig.
Open Scope list_scope.

Lemma has_variant_iff : forall r ch, wf_rep r -> entry r ch -> (has_variant ch = true <-> get_variants ch <> []).
Proof.
  intros r ch Hwf He. apply entry_lk in He. pose proof (lk_wf _ _ _ Hwf He) as Hc. pose proof Hc as [[_ Hv] _]. unfold has_variant.
  destruct (ch_variants ch) as [|[k l] vs] eqn:E.
  - split; [discriminate|]. intro H. exfalso. apply H. unfold get_variants. rewrite E. reflexivity.
  - split; auto. intros _ H. assert (Hin : In (k, l) ((k, l) :: vs)) by (left; reflexivity). destruct (Hv k l Hin) as [_ [Hl [Hk _]]].
    destruct l as [|v l]; [contradiction|]. assert (Hx : In v (get_variants ch)).
    { apply get_variants_In; auto. exists (v :: l). rewrite E. rewrite (Hk v (or_introl eq_refl)). split; [exact Hin|left; reflexivity]. }
    rewrite H in Hx. contradiction.
Qed.

Lemma starts_prefix : forall ch label, is_prefix_of ch label = true <-> starts ch label.
Proof. intros. unfold is_prefix_of, starts. rewrite prefixb_spec. tauto. Qed.

Lemma starts_split : forall ch label, starts ch label -> label = ch_cp ch ++ skipn (ch_len ch) label.
Proof. intros ch label [t ->]. unfold ch_len. rewrite skipn_app_len. reflexivity. Qed.

Section Gen.
  Variables (rm : rule_oracle) (r : repertoire) (script : N -> string).
  Hypothesis Hwf : wf_rep r.

  Lemma starts_first : forall ch x rest, entry r ch -> starts ch (x :: rest) -> exists t, ch_cp ch = x :: t.
  Proof.
    intros ch x rest He [tl Ht]. pose proof (entry_nonempty _ _ He). destruct (ch_cp ch) as [|y t]; [contradiction|]. injection Ht as -> _. eauto.
  Qed.
  Lemma all_from_In : forall x rest ch, In ch (all_from r (x :: rest)) <-> entry r ch /\ exists t, ch_cp ch = x :: t.
  Proof.
    intros x rest ch. unfold all_from. pose proof (prefix_cases r x Hwf) as Hp. destruct (get_chars_from_prefix r x false) as [l|e].
    - apply Hp.
    - split; [contradiction|]. intros [He [t Ht]]. eapply Hp; eauto.
  Qed.
  Lemma mapped_prefix_list : forall lp x rest ch,
    mapped rm r lp (x :: rest) ch <-> exists l, prefix_list rm r lp (x :: rest) = Ok l /\ In ch l.
  Proof.
    intros lp x rest ch. unfold mapped, prefix_list. pose proof (prefix_cases_var r x Hwf) as Hp.
    destruct (get_chars_from_prefix r x true) as [l|e]; cbn [bind].
    - destruct Hp as [Hp _]. split.
      + intros [He [Hv [Hs Hc]]]. eexists. split; [reflexivity|]. apply filter_In. split; [apply Hp; split; auto; split; [apply (has_variant_iff r); auto|eapply starts_first; eauto]|].
        apply andb_true_iff. split; [apply starts_prefix; exact Hs|]. apply ctx_char_iff. rewrite <- starts_split by exact Hs. exact Hc.
      + intros [l' [Hl Hin]]. injection Hl as <-. apply filter_In in Hin. destruct Hin as [Hin Hc]. apply andb_true_iff in Hc. destruct Hc as [Hs Hc].
        apply starts_prefix in Hs. apply ctx_char_iff in Hc. rewrite <- starts_split in Hc by exact Hs. apply Hp in Hin. destruct Hin as [He [Hv _]].
        split; auto. split; [apply (has_variant_iff r); auto|]. split; auto.
    - split; [|intros [l [Hl _]]; discriminate]. intros [He [_ [Hs _]]]. exfalso. destruct (starts_first ch x rest He Hs) as [t Ht]. eapply Hp; eauto.
  Qed.

  Lemma find_longest : forall x rest,
    match find (fun ch => is_prefix_of ch (x :: rest)) (all_from r (x :: rest)) with
    | Some ch => entry r ch /\ starts ch (x :: rest) /\ forall c, entry r c -> starts c (x :: rest) -> (length (ch_cp c) <= length (ch_cp ch))%nat
    | None => forall c, entry r c -> ~ starts c (x :: rest)
    end.
  Proof.
    intros x rest. assert (Hsort : StronglySorted longer (all_from r (x :: rest))).
    { unfold all_from. pose proof (prefix_cases r x Hwf) as Hp. destruct (get_chars_from_prefix r x false); [apply Hp|constructor]. }
    assert (Hin : forall c, entry r c -> starts c (x :: rest) -> In c (all_from r (x :: rest))).
    { intros c He Hs. apply all_from_In. split; auto. eapply starts_first; eauto. }
    pose proof (fun c => proj1 (all_from_In x rest c)) as Hent. revert Hsort Hin Hent. generalize (all_from r (x :: rest)) as l.
    intros l Hsort Hin Hent.
    assert (Hgen : match find (fun ch => is_prefix_of ch (x :: rest)) l with
                   | Some ch => In ch l /\ starts ch (x :: rest) /\ forall c, In c l -> starts c (x :: rest) -> (length (ch_cp c) <= length (ch_cp ch))%nat
                   | None => forall c, In c l -> ~ starts c (x :: rest) end).
    { clear Hin Hent. induction Hsort as [|a l Hs IH Hf]; cbn [find]; [intros c []|]. destruct (is_prefix_of a (x :: rest)) eqn:E.
      - split; [left; reflexivity|]. split; [apply starts_prefix; exact E|]. intros c [<-|Hc] _; [lia|]. rewrite Forall_forall in Hf. specialize (Hf c Hc).
        unfold longer, len_geb in Hf. apply Nat.leb_le. exact Hf.
      - assert (Ha : ~ starts a (x :: rest)) by (intro Hx; apply starts_prefix in Hx; congruence).
        destruct (find (fun ch => is_prefix_of ch (x :: rest)) l) as [ch|].
        + destruct IH as [I1 [I2 I3]]. split; [right; auto|]. split; auto. intros c [<-|Hc] Hst; [contradiction|auto].
        + intros c [<-|Hc]; auto. }
    destruct (find (fun ch => is_prefix_of ch (x :: rest)) l) as [ch|].
    - destruct Hgen as [G1 [G2 G3]]. split; [apply Hent; exact G1|]. split; auto.
    - intros c He Hs. apply (Hgen c); auto.
  Qed.

  Lemma is_seq_length : forall ch, entry r ch -> (is_seq ch = true <-> (2 <= length (ch_cp ch))%nat).
  Proof.
    intros ch He. apply entry_lk in He. destruct (lk_wf _ _ _ Hwf He) as [_ Hk]. unfold is_seq. destruct (ch_kind ch).
    - destruct Hk as [y Hy]. rewrite Hy. cbn. split; [discriminate|lia].
    - destruct Hk as [a [b [t Ht]]]. rewrite Ht. cbn. split; auto. lia.
    - destruct Hk as [_ [[y [Hy _]] _]]. rewrite Hy. cbn. split; [discriminate|lia].
  Qed.

  Lemma same_prefix_In : forall lp x rest ch, In ch (same_prefix rm r lp (x :: rest)) <-> considered rm r lp (x :: rest) ch.
  Proof.
    intros lp x rest ch. unfold same_prefix. set (label := x :: rest).
    set (sp := match prefix_list rm r lp label with
               | Raise _ => []
               | Ok [] => match find (fun ch => is_prefix_of ch label) (all_from r label) with Some ch => [ch] | None => [] end
               | Ok l => l end).
    assert (Hsp : forall c, In c sp <-> first_choice rm r lp label c).
    { intro c. unfold sp, first_choice. pose proof (mapped_prefix_list lp x rest) as Hm. fold label in Hm.
      pose proof (find_longest x rest) as Hl. fold label in Hl.
      destruct (prefix_list rm r lp label) as [[|c0 l0]|e] eqn:Ep.
      - assert (Hno : forall c', ~ mapped rm r lp label c') by (intros c' Hc; apply Hm in Hc; destruct Hc as [l [Hl' Hi]]; injection Hl' as <-; contradiction).
        destruct (find (fun ch => is_prefix_of ch label) (all_from r label)) as [d|].
        + destruct Hl as [L1 [L2 L3]]. split.
          * intros [<-|[]]. right. auto.
          * intros [H|[_ [H1 [H2 H3]]]]; [exfalso; eapply Hno; eauto|]. left. pose proof (L3 c H1 H2) as Ha. pose proof (H3 d L1 L2) as Hb.
            destruct H2 as [t1 T1], L2 as [t2 T2]. assert (Hcp : ch_cp c = ch_cp d).
            { rewrite T1 in T2. pose proof (f_equal (firstn (length (ch_cp c))) T2) as E. rewrite firstn_app, firstn_all, Nat.sub_diag, firstn_O, app_nil_r in E.
              replace (length (ch_cp c)) with (length (ch_cp d)) in E by lia. rewrite firstn_app, firstn_all, Nat.sub_diag, firstn_O, app_nil_r in E. exact E. }
            unfold entry in *. rewrite Hcp, L1 in H1. congruence.
        + split; [contradiction|]. intros [H|[_ [H1 [H2 _]]]]; exfalso; [eapply Hno; eauto|eapply Hl; eauto].
      - split.
        + intro H. left. apply Hm. eauto.
        + intros [H|[H _]]; [apply Hm in H; destruct H as [l [Hl' Hi]]; injection Hl' as <-; exact Hi|].
          exfalso. apply (H c0). apply Hm. exists (c0 :: l0). split; auto. left. reflexivity.
      - split; [contradiction|]. intros [H|[_ [H1 [H2 _]]]].
        + apply Hm in H. destruct H as [l [Hl' _]]. discriminate.
        + exfalso. unfold prefix_list, label in Ep. pose proof (prefix_cases_var r x Hwf) as Hp. destruct (get_chars_from_prefix r x true) as [l|e']; [discriminate|].
          destruct (starts_first c x rest H1 H2) as [t Ht]. eapply Hp; eauto. }
    assert (Hent : forall c, In c sp -> entry r c).
    { intros c Hc. apply Hsp in Hc. destruct Hc as [[H _]|[_ [H _]]]; exact H. }
    rewrite in_app_iff, in_flat_map. unfold considered. rewrite <- Hsp. split.
    - intros [H|[s [H1 H2]]]; [left; exact H|right]. apply filter_In in H1. destruct H1 as [H1 H3]. apply filter_In in H2. destruct H2 as [H2 H4].
      apply andb_true_iff in H4. destruct H4 as [H4 H5]. exists s. split; [apply Hsp; exact H1|]. split; [apply is_seq_length; auto|].
      unfold label in H2. apply all_from_In in H2. split; [apply H2|]. split; [apply starts_prefix; exact H5|]. apply Nat.ltb_lt in H4. exact H4.
    - intros [H|[s [H1 [H2 [H3 [H4 H5]]]]]]; [left; exact H|right]. apply Hsp in H1. exists s. split; [apply filter_In; split; auto; apply is_seq_length; auto|].
      apply filter_In. split; [apply all_from_In; split; auto; eapply starts_first; eauto|]. apply andb_true_iff. split; [apply Nat.ltb_lt; exact H5|apply starts_prefix; exact H4].
  Qed.
  Lemma considered_entry : forall lp label ch, considered rm r lp label ch -> entry r ch /\ starts ch label.
  Proof.
    intros lp label ch [[H|H]|[s [_ [_ [H1 [H2 _]]]]]]; [| |auto].
    - destruct H as [H1 [_ [H2 _]]]. auto.
    - destruct H as [_ [H1 [H2 _]]]. auto.
  Qed.

  (** The runs of the generator. *)
  Definition pp (p : perm) : piece := let '(pc, _, _, _) := p in pc.
  Definition pds (p : perm) : dispset := let '(_, ds, _, _) := p in ds.
  Definition pisv (p : perm) : bool := let '(_, _, v, _) := p in v.
  Definition pflt (p : perm) : option sfilter := let '(_, _, _, f) := p in f.
  Inductive run : cps -> cps -> bool -> option sfilter -> list (char * perm) -> Prop :=
  | run_last : forall lp ch first flt p, considered rm r lp (ch_cp ch) ch ->
      In p (char_perms rm script lp (ch_cp ch) first flt ch) -> run lp (ch_cp ch) first flt [(ch, p)]
  | run_step : forall lp ch tail first flt p l, considered rm r lp (ch_cp ch ++ tail) ch ->
      In p (char_perms rm script lp (ch_cp ch ++ tail) first flt ch) ->
      run (lp ++ piece_cp (pp p)) tail false (pflt p) l -> run lp (ch_cp ch ++ tail) first flt ((ch, p) :: l).
  Fixpoint emit (hv : bool) (l : list (char * perm)) : bool :=
    match l with
    | [] => false
    | (ch, p) :: l' => match l' with [] => hv || has_variant ch | _ => emit (pisv p || hv) l' end
    end.
  Fixpoint out (l : list (char * perm)) : vlabel :=
    match l with
    | [] => mkVL [] [] true []
    | (ch, p) :: l' =>
        match l' with
        | [] => mkVL (piece_cp (pp p)) (pds p) (pisv p) [pp p]
        | _ => let w := out l' in mkVL (piece_cp (pp p) ++ vl_cp w) (vl_disp w ++ pds p) (pisv p && vl_only w) (pp p :: vl_chars w)
        end
    end.
  Lemma run_nonempty : forall lp label first flt l, run lp label first flt l -> label <> [] /\ l <> [].
  Proof.
    intros lp label first flt l H. destruct H as [lp ch first flt p Hc _|lp ch tail first flt p l Hc _ _]; (split; [|discriminate]);
      apply considered_entry in Hc; destruct Hc as [He _]; apply entry_nonempty in He; intro Hx; apply He; [exact Hx|].
    apply app_eq_nil in Hx. apply Hx.
  Qed.

  Lemma gen_spec : forall fuel lp label hv first flt, (length label <= fuel)%nat ->
    exists ws, gen_variants rm r script fuel lp label hv first flt = Some ws /\
      forall w, In w ws <-> exists l, run lp label first flt l /\ emit hv l = true /\ w = out l.
  Proof.
    induction fuel as [|f IH]; intros lp label hv first flt Hf.
    { destruct label; [|cbn in Hf; lia]. exists []. split; [reflexivity|]. intro w. split; [contradiction|]. intros [l [H _]].
      apply run_nonempty in H. destruct H as [H _]. contradiction. }
    destruct label as [|x rest].
    { exists []. split; [reflexivity|]. intro w. split; [contradiction|]. intros [l [H _]]. apply run_nonempty in H. destruct H as [H _]. contradiction. }
    cbn [gen_variants]. pose proof (same_prefix_In lp x rest) as Hsp. set (label := x :: rest) in *.
    match goal with |- exists ws, flat_mapM ?G _ = _ /\ _ => set (g := G) end.
    assert (Hg : forall ch, In ch (same_prefix rm r lp label) -> exists y, g ch = Some y /\
       forall w, In w y <-> exists p l, run lp label first flt ((ch, p) :: l) /\ emit hv ((ch, p) :: l) = true /\ w = out ((ch, p) :: l)).
    { intros ch Hch. apply Hsp in Hch. destruct (considered_entry _ _ _ Hch) as [He Hst]. pose proof (starts_split _ _ Hst) as Hsplit.
      pose proof (entry_nonempty _ _ He) as Hne. assert (Hpos : (0 < ch_len ch)%nat) by (unfold ch_len; destruct (ch_cp ch); [contradiction|cbn; lia]).
      assert (Hll : length label = (ch_len ch + length (skipn (ch_len ch) label))%nat) by (rewrite Hsplit at 1; rewrite app_length; reflexivity).
      unfold g. destruct (Nat.ltb_spec (ch_len ch) (length label)) as [Hlt|Hge].
      - match goal with |- exists y, flat_mapM ?K _ = _ /\ _ => set (k := K) end.
        assert (Hk : forall p, exists y, k p = Some y /\ forall w, In w y <-> exists l, run (lp ++ piece_cp (pp p)) (skipn (ch_len ch) label) false (pflt p) l /\
                       emit (pisv p || hv) l = true /\ w = mkVL (piece_cp (pp p) ++ vl_cp (out l)) (vl_disp (out l) ++ pds p) (pisv p && vl_only (out l)) (pp p :: vl_chars (out l))).
        { intros [[[pc ds] isv] flt']. unfold k. cbn [pp pds pisv pflt].
          destruct (IH (lp ++ piece_cp pc) (skipn (ch_len ch) label) (isv || hv)%bool false flt') as [ws [W1 W2]]; [lia|].
          rewrite W1. eexists. split; [reflexivity|]. intro w. rewrite in_map_iff. split.
          - intros [w' [<- Hw']]. apply W2 in Hw'. destruct Hw' as [l [L1 [L2 ->]]]. exists l. auto.
          - intros [l [L1 [L2 ->]]]. exists (out l). split; auto. apply W2. eauto. }
        destruct (flat_mapM_spec k (char_perms rm script lp label first flt ch)) as [ys [Y1 Y2]].
        { intros p _. destruct (Hk p) as [y [Hy _]]. eauto. }
        exists ys. split; [exact Y1|]. intro w. rewrite Y2. split.
        + intros [p [y [Hp [Hy Hw]]]]. destruct (Hk p) as [y' [K1 K2]]. assert (y' = y) by congruence. subst y'. apply K2 in Hw.
          destruct Hw as [l [L1 [L2 ->]]]. destruct (run_nonempty _ _ _ _ _ L1) as [_ Hln]. exists p, l. split; [|split].
          * rewrite Hsplit. apply run_step; [rewrite <- Hsplit; exact Hch|rewrite <- Hsplit; exact Hp|exact L1].
          * cbn [emit]. destruct l; [contradiction|exact L2].
          * cbn [out]. destruct l; [contradiction|reflexivity].
        + intros [p [l [R1 [R2 ->]]]]. remember ((ch, p) :: l) as full eqn:Efull. revert Efull R2.
          assert (Hin : forall lp' lab' fi' fl' full', run lp' lab' fi' fl' full' -> full' = (ch, p) :: l -> lab' = label ->
             In p (char_perms rm script lp' lab' fi' fl' ch) /\ run (lp' ++ piece_cp (pp p)) (skipn (ch_len ch) label) false (pflt p) l).
          { intros lp' lab' fi' fl' full' H. destruct H as [lp' ch' fi' fl' p' C1 C2|lp' ch' tl fi' fl' p' l' C1 C2 C3]; intros Ef El; injection Ef as -> -> Ef.
            - exfalso. pose proof (f_equal (@length N) El) as Hl. unfold ch_len in Hlt. rewrite Hl in Hlt. lia.
            - subst l'. split; auto. rewrite <- El. unfold ch_len. rewrite skipn_app_len. exact C3. }
          intros -> R2. destruct (Hin _ _ _ _ _ R1 eq_refl eq_refl) as [P1 P2]. destruct (run_nonempty _ _ _ _ _ P2) as [_ Hln].
          destruct (Hk p) as [y [K1 K2]]. exists p, y. split; auto. split; auto. apply K2. exists l. split; auto. cbn [emit] in R2. cbn [out].
          destruct l; [contradiction|]. auto.
      - assert (Htail : skipn (ch_len ch) label = []) by (apply length_zero_iff_nil; lia).
        assert (Hcp : label = ch_cp ch) by (rewrite Htail, app_nil_r in Hsplit; exact Hsplit).
        assert (Hrun : forall p l, run lp label first flt ((ch, p) :: l) <-> l = [] /\ In p (char_perms rm script lp label first flt ch)).
        { intros p l. split.
          - assert (Hin : forall lp' lab' fi' fl' full', run lp' lab' fi' fl' full' -> full' = (ch, p) :: l -> lab' = label -> lp' = lp -> fi' = first -> fl' = flt ->
               l = [] /\ In p (char_perms rm script lp label first flt ch)).
            { intros lp' lab' fi' fl' full' H. destruct H as [lp' ch' fi' fl' p' C1 C2|lp' ch' tl fi' fl' p' l' C1 C2 C3]; intros Ef El E1 E2 E3; injection Ef as -> -> Ef; subst.
              - rewrite El in C2. auto.
              - exfalso. apply run_nonempty in C3. destruct C3 as [C3 _]. apply C3. rewrite Hcp in El. pose proof (f_equal (@length N) El) as Hl. rewrite app_length in Hl.
                apply length_zero_iff_nil. lia. }
            intro H. eapply Hin; eauto.
          - intros [-> Hp]. rewrite Hcp in *. apply run_last; auto. }
        destruct (hv || has_variant ch)%bool eqn:Ehv.
        + eexists. split; [reflexivity|]. intro w. rewrite in_map_iff. split.
          * intros [p [<- Hp]]. exists p, []. split; [apply Hrun; auto|]. split; [cbn [emit]; exact Ehv|]. destruct p as [[[pc ds] isv] fl']. reflexivity.
          * intros [p [l [R1 [R2 ->]]]]. apply Hrun in R1. destruct R1 as [-> R1]. exists p. split; auto. destruct p as [[[pc ds] isv] fl']. reflexivity.
        + exists []. split; [reflexivity|]. intro w. split; [contradiction|]. intros [p [l [R1 [R2 _]]]]. apply Hrun in R1. destruct R1 as [-> _]. cbn [emit] in R2. congruence. }
    destruct (flat_mapM_spec g (same_prefix rm r lp label)) as [ws [W1 W2]].
    { intros ch Hch. destruct (Hg ch Hch) as [y [Hy _]]. eauto. }
    exists ws. split; [exact W1|]. intro w. rewrite W2. split.
    - intros [ch [y [Hch [Hy Hw]]]]. destruct (Hg ch Hch) as [y' [G1 G2]]. assert (y' = y) by congruence. subst y'. apply G2 in Hw. destruct Hw as [p [l H]]. eauto.
    - intros [l [R1 [R2 ->]]]. destruct (run_nonempty _ _ _ _ _ R1) as [_ Hln]. destruct l as [|[ch p] l]; [contradiction|].
      assert (Hch : In ch (same_prefix rm r lp label)).
      { apply Hsp. inversion R1; subst; auto; match goal with h : considered _ _ _ ?a _ |- considered _ _ _ ?b _ => replace b with a; auto end. }
      destruct (Hg ch Hch) as [y [G1 G2]]. exists ch, y. split; auto. split; auto. apply G2. eauto.
  Qed.
End Gen.
