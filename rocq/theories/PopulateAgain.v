(** Populating twice. *)
From Verif Require Import Base BaseFacts CharModel RepSpec RepProofs VariantProofs IterProofs.
From Verif Require Import RefModel LgrModel LgrSpec LgrProofs LgrReach LgrInv LgrRefs Rfc7940Model.
From Verif Require Import ValidateModel ValidateSpec ValidateProofs PopulateModel PopulateSpec PopulateProofs PopulateSteps PopulateLoop PopulateBalance PopulateFinal.
Open Scope string_scope.
Open Scope list_scope.

(** A mapping from [a] to [b] with a context of this kind. *)
Definition cond (get : variant -> option string) (g : lgr) (a b : cps) : Prop := exists v, mapping (lg_rep g) a b v /\ truthy (get v) = true.
Definition either_way (get : variant -> option string) (gs : lgr) (a b : cps) : Prop := cond get gs a b \/ cond get gs b a.
Definition conditional (v : variant) : Prop := truthy (v_when v) = true \/ truthy (v_not_when v) = true.

Section Sweep.
  Variable gs : lgr.
  Record sane (g : lgr) : Prop := mkSane {
    sn_re : lgr_reachable g;
    sn_when : forall a b, cond v_when g a b -> either_way v_when gs a b;
    sn_not : forall a b, cond v_not_when g a b -> either_way v_not_when gs a b }.
  Definition grows (g g' : lgr) : Prop :=
    (forall a b v, mapping (lg_rep g) a b v -> conditional v -> mapping (lg_rep g') a b v) /\
    (forall a, lk (lg_rep g) a <> None -> lk (lg_rep g') a <> None).
  Lemma grows_refl : forall g, grows g g.
  Proof. intro g. split; auto. Qed.
  Lemma grows_trans : forall a b c, grows a b -> grows b c -> grows a c.
  Proof. intros a b c [A1 A2] [B1 B2]. split; [intros x y v H K; apply B1; [apply A1|]; assumption|auto]. Qed.
  Lemma cond_when : forall g g' a b, grows g g' -> cond v_when g a b -> cond v_when g' a b.
  Proof. intros g g' a b [H _] [v [H1 H2]]. exists v. split; [apply H; [exact H1|left; exact H2]|exact H2]. Qed.
  Lemma cond_not : forall g g' a b, grows g g' -> cond v_not_when g a b -> cond v_not_when g' a b.
  Proof. intros g g' a b [H _] [v [H1 H2]]. exists v. split; [apply H; [exact H1|right; exact H2]|exact H2]. Qed.
  Lemma either_comm : forall get a b, either_way get gs a b -> either_way get gs b a.
  Proof. intros get a b [H|H]; [right|left]; exact H. Qed.
  Lemma updated_lives : forall g g' c ch', updated g g' c ch' -> forall a, lk (lg_rep g) a <> None -> lk (lg_rep g') a <> None.
  Proof. intros g g' c ch' [_ H] a Ha. rewrite H. destruct (cps_eqb a c); [discriminate|exact Ha]. Qed.

  Lemma put_sane : forall g b a ty w nw cm rf g', sane g -> lk (lg_rep g) b <> None -> lk (lg_rep g) a <> None ->
    (truthy w = true -> either_way v_when gs a b) -> (truthy nw = true -> either_way v_not_when gs a b) ->
    put_variant g b a ty w nw cm rf = (g', Ok tt) ->
    sane g' /\ grows g g' /\ mapping (lg_rep g') b a (mkVariant a ty w nw cm rf).
  Proof.
    intros g b a ty w nw cm rf g' [Hre S1 S2] Hb Ha Hw Hnw E. destruct (lk (lg_rep g) b) as [ch|] eqn:Eb; [|congruence].
    pose proof (put_variant_spec g b ch a ty w nw cm rf Hre Eb (entry_accepted g a Hre Ha)) as K. rewrite E in K. destruct K as [Hre' [[_ [_ [ch' [U [_ V]]]]]|[e [K _]]]]; [|discriminate].
    assert (M : forall x y u, mapping (lg_rep g') x y u <-> (x = b /\ y = a /\ u = mkVariant a ty w nw cm rf) \/ mapping (lg_rep g) x y u).
    { intros x y u. rewrite (updated_mapping _ _ _ _ x y u U). rewrite V. split.
      - intros [[H1 [[H2|H2] H3]]|[_ H]]; [|right|right; exact H].
        + left. subst u. cbn [v_cp] in H3. auto.
        + subst x. apply mapping_lk. exists ch. auto.
      - intros [[H1 [H2 H3]]|H].
        + left. subst. cbn [v_cp]. auto.
        + destruct (cps_eq_dec x b) as [D|D]; [left|right; auto]. subst x. apply mapping_lk in H. destruct H as [c [H1 [H2 H3]]]. rewrite Eb in H1. injection H1 as <-. auto. }
    split; [|split].
    - constructor; [exact Hre'| |].
      + intros x y [u [H1 H2]]. apply M in H1. destruct H1 as [[-> [-> ->]]|H1]; [apply either_comm, Hw; exact H2|apply S1; exists u; auto].
      + intros x y [u [H1 H2]]. apply M in H1. destruct H1 as [[-> [-> ->]]|H1]; [apply either_comm, Hnw; exact H2|apply S2; exists u; auto].
    - split; [intros x y u H _; apply M; right; exact H|exact (updated_lives _ _ _ _ U)].
    - apply M. left. auto.
  Qed.
  Lemma del_sane : forall g b a g' x, sane g -> lk (lg_rep g) b <> None -> a <> [] -> lgr_del_variant g b a None None = (g', Ok x) -> sane g' /\ grows g g'.
  Proof.
    intros g b a g' x [Hre S1 S2] Hb Ha E. destruct (lk (lg_rep g) b) as [ch|] eqn:Eb; [|congruence].
    pose proof (del_variant_spec g b ch a Hre Eb Ha) as K. rewrite E in K. destruct K as [Hre' [[_ [y [_ [ch' [U [_ V]]]]]]|[e [K _]]]]; [|discriminate].
    assert (M : forall p q u, mapping (lg_rep g') p q u <-> mapping (lg_rep g) p q u /\ (p = b -> vkey u <> (a, None, None))).
    { intros p q u. rewrite (updated_mapping _ _ _ _ p q u U). rewrite V. split.
      - intros [[-> [[H1 H2] H3]]|[H1 H2]]; [|split; [exact H2|congruence]]. split; [|intros _; exact H2]. apply mapping_lk. exists ch. auto.
      - intros [H1 H2]. destruct (cps_eq_dec p b) as [D|D]; [left|right; auto]. subst p. apply mapping_lk in H1. destruct H1 as [c [K1 [K2 K3]]]. rewrite Eb in K1. injection K1 as <-. auto. }
    split; [constructor; [exact Hre'| |]|split; [|exact (updated_lives _ _ _ _ U)]].
    - intros p q [u [H1 H2]]. apply M in H1. apply S1. exists u. tauto.
    - intros p q [u [H1 H2]]. apply M in H1. apply S2. exists u. tauto.
    - intros p q u H C. apply M. split; [exact H|]. intros _ K. unfold vkey in K. injection K as _ K1 K2. destruct C as [C|C]; rewrite ?K1, ?K2 in C; discriminate.
  Qed.
  Lemma replace_sane : forall g b r a w nw g', sane g -> lk (lg_rep g) b <> None -> lk (lg_rep g) a <> None -> v_cp r = a ->
    (truthy w = true -> either_way v_when gs a b) -> (truthy nw = true -> either_way v_not_when gs a b) ->
    replace_variant g b r w nw = (g', Ok tt) ->
    sane g' /\ grows g g' /\ exists u, mapping (lg_rep g') b a u /\ v_when u = w /\ v_not_when u = nw.
  Proof.
    intros g b r a w nw g' S Hb Ha Er Hw Hnw E. unfold replace_variant in E. rewrite Er in E.
    assert (Hne : a <> []) by (intros ->; apply Ha; reflexivity).
    destruct (lgr_del_variant g b a None None) as [g1 [x|e]] eqn:D; [|discriminate]. destruct (del_sane g b a g1 x S Hb Hne D) as [S1 G1].
    destruct (put_sane g1 b a _ w nw _ _ g' S1 (proj2 G1 _ Hb) (proj2 G1 _ Ha) Hw Hnw E) as [S2 [G2 M]].
    split; [exact S2|]. split; [exact (grows_trans _ _ _ G1 G2)|]. eexists. split; [exact M|]. auto.
  Qed.

  Definition done (g : lgr) (a : cps) (v : variant) : Prop :=
    (truthy (v_when v) = true -> cond v_when g (v_cp v) a) /\ (truthy (v_not_when v) = true -> cond v_not_when g (v_cp v) a).
  Definition due (a : cps) (v : variant) : Prop :=
    (truthy (v_when v) = true -> either_way v_when gs a (v_cp v)) /\ (truthy (v_not_when v) = true -> either_way v_not_when gs a (v_cp v)).
  Lemma done_grows : forall g g' a v, grows g g' -> done g a v -> done g' a v.
  Proof. intros g g' a v G [D1 D2]. split; intro T; [eapply cond_when|eapply cond_not]; eauto. Qed.
  Lemma get_variants_entry : forall g b vs, lgr_reachable g -> lgr_get_variants g b = Ok vs -> exists ch, lk (lg_rep g) b = Some ch /\ vs = get_variants ch.
  Proof.
    intros g b vs Hre H. destruct (lk (lg_rep g) b) as [ch|] eqn:E.
    - exists ch. split; [reflexivity|]. rewrite (get_variants_present g Hre b ch E) in H. congruence.
    - exfalso. unfold lgr_get_variants in H. destruct (check_convert g b) as [c|e] eqn:C; cbn [bind] in H; [|discriminate].
      destruct (check_convert_id g b c C) as [-> Hne]. unfold rep_get_variants in H. rewrite get_char_lk in H by exact Hne. rewrite E in H. discriminate.
  Qed.
  Lemma step_sane : forall g a v g', sane g -> lk (lg_rep g) a <> None -> due a v -> symmetry_step g a v = (g', Ok tt) -> sane g' /\ grows g g' /\ done g' a v.
  Proof.
    intros g a v g' S Ha [D1 D2] E. unfold symmetry_step in E. destruct (lgr_get_variants g (v_cp v)) as [vs|e] eqn:V; [|discriminate].
    destruct (get_variants_entry g _ vs (sn_re _ S) V) as [ch [Eb ->]]. set (b := v_cp v) in *. set (reverse := filter (fun u => cps_eqb a (v_cp u)) (get_variants ch)) in *.
    assert (Hb : lk (lg_rep g) b <> None) by congruence.
    assert (Hrev : forall u, In u reverse -> mapping (lg_rep g) b a u).
    { intros u H. unfold reverse in H. apply filter_In in H. destruct H as [H1 H2]. apply cps_eqb_eq in H2. apply mapping_lk. exists ch. auto. }
    assert (Hlast : forall get, truthy (last_rule get reverse) = true -> cond get g b a).
    { intros get H. rewrite last_rule_truthy in H. apply existsb_exists in H. destruct H as [u [H1 H2]]. exists u. split; [apply Hrev; exact H1|exact H2]. }
    destruct reverse as [|r rs] eqn:Er.
    { destruct (put_sane g b a _ _ _ _ _ g' S Hb Ha D1 D2 E) as [S1 [G1 M]]. split; [exact S1|]. split; [exact G1|].
      split; intro T; eexists; (split; [exact M|exact T]). }
    rewrite <- Er in *. assert (Hr : v_cp r = a) by (assert (K : In r reverse) by (rewrite Er; left; reflexivity); apply Hrev, mapping_lk in K; destruct K as [c [_ [_ K]]]; exact K).
    destruct (symmetry_when g a v reverse) as [g1 [[]|e]] eqn:E1; cbn [andthen] in E; [|discriminate].
    assert (W : sane g1 /\ grows g g1 /\ (truthy (v_when v) = true -> cond v_when g1 b a)).
    { unfold symmetry_when in E1. fold b in E1. destruct (truthy (v_when v)) eqn:T; cbn [andb] in E1; [|injection E1 as <-; split; [exact S|split; [apply grows_refl|discriminate]]].
      destruct (truthy (last_rule v_when reverse)) eqn:L; cbn [negb] in E1; [injection E1 as <-; split; [exact S|split; [apply grows_refl|intros _; apply Hlast; exact L]]|].
      destruct (truthy (last_rule v_not_when reverse)) eqn:L2.
      - destruct (put_sane g b a _ (v_when v) None _ _ g1 S Hb Ha (fun _ => D1 eq_refl) ltac:(discriminate) E1) as [S1 [G1 M]]. split; [exact S1|]. split; [exact G1|]. intros _. eexists. split; [exact M|exact T].
      - rewrite Er in E1. destruct (replace_sane g b r a (v_when v) None g1 S Hb Ha Hr (fun _ => D1 eq_refl) ltac:(discriminate) E1) as [S1 [G1 [u [M [M1 _]]]]].
        split; [exact S1|]. split; [exact G1|]. intros _. exists u. split; [exact M|]. rewrite M1. exact T. }
    destruct W as [S1 [G1 W]].
    assert (X : sane g' /\ grows g1 g' /\ (truthy (v_not_when v) = true -> cond v_not_when g' b a)).
    { unfold symmetry_not_when in E. fold b in E. destruct (truthy (v_not_when v)) eqn:T; cbn [andb] in E; [|injection E as <-; split; [exact S1|split; [apply grows_refl|discriminate]]].
      destruct (truthy (last_rule v_not_when reverse)) eqn:L; cbn [negb] in E; [injection E as <-; split; [exact S1|split; [apply grows_refl|intros _; eapply cond_not; [exact G1|apply Hlast; exact L]]]|].
      pose proof (proj2 G1 _ Hb) as Hb1. pose proof (proj2 G1 _ Ha) as Ha1.
      destruct (truthy (last_rule v_when reverse)) eqn:L2.
      - destruct (put_sane g1 b a _ None (v_not_when v) _ _ g' S1 Hb1 Ha1 ltac:(discriminate) (fun _ => D2 eq_refl) E) as [S2 [G2 M]]. split; [exact S2|]. split; [exact G2|]. intros _. eexists. split; [exact M|exact T].
      - rewrite Er in E. destruct (replace_sane g1 b r a None (v_not_when v) g' S1 Hb1 Ha1 Hr ltac:(discriminate) (fun _ => D2 eq_refl) E) as [S2 [G2 [u [M [_ M1]]]]].
        split; [exact S2|]. split; [exact G2|]. intros _. exists u. split; [exact M|]. rewrite M1. exact T. }
    destruct X as [S2 [G2 X]]. split; [exact S2|]. split; [exact (grows_trans _ _ _ G1 G2)|]. split; [intro T; eapply cond_when; [exact G2|apply W; exact T]|exact X].
  Qed.

  Lemma variants_sane : forall a l g g', sane g -> lk (lg_rep g) a <> None -> (forall v, In v l -> due a v) -> each_variant symmetry_step g a l = (g', Ok tt) ->
    sane g' /\ grows g g' /\ forall v, In v l -> done g' a v.
  Proof.
    intros a l. induction l as [|v l IH]; intros g g' S Ha D E; cbn [each_variant] in E.
    - injection E as <-. split; [exact S|]. split; [apply grows_refl|intros v []].
    - destruct (symmetry_step g a v) as [g1 [[]|e]] eqn:E1; [|discriminate]. destruct (step_sane g a v g1 S Ha (D v (or_introl eq_refl)) E1) as [S1 [G1 P1]].
      destruct (IH g1 g' S1 (proj2 G1 _ Ha) (fun u Hu => D u (or_intror Hu)) E) as [S2 [G2 P2]]. split; [exact S2|]. split; [exact (grows_trans _ _ _ G1 G2)|].
      intros u [<-|Hu]; [exact (done_grows _ _ _ _ G2 P1)|exact (P2 u Hu)].
  Qed.
  Lemma mapping_due : forall g a v, sane g -> mapping (lg_rep g) a (v_cp v) v -> due a v.
  Proof. intros g a v S M. split; intro T; [apply (sn_when _ S)|apply (sn_not _ S)]; exists v; auto. Qed.
  Lemma chars_sane : forall l g g', sane g -> (forall c, In c l -> lk (lg_rep g) (ch_cp c) <> None) -> each_char symmetry_step g l = (g', Ok tt) ->
    sane g' /\ grows g g' /\ forall c v, In c l -> mapping (lg_rep g) (ch_cp c) (v_cp v) v -> conditional v -> done g' (ch_cp c) v.
  Proof.
    induction l as [|c l IH]; intros g g' S Hl E; cbn [each_char] in E.
    - injection E as <-. split; [exact S|]. split; [apply grows_refl|intros c v []].
    - pose proof (Hl c (or_introl eq_refl)) as Hc. destruct (lk (lg_rep g) (ch_cp c)) as [cur|] eqn:L; [|congruence].
      assert (Hne : ch_cp c <> []) by (intro H; rewrite H in L; discriminate). rewrite get_char_lk in E by exact Hne. rewrite L in E.
      destruct (each_variant symmetry_step g (ch_cp c) (get_variants cur)) as [g1 [[]|e]] eqn:E1; [|discriminate].
      assert (D : forall v, In v (get_variants cur) -> due (ch_cp c) v) by (intros v Hv; apply (mapping_due g); [exact S|apply mapping_lk; exists cur; auto]).
      assert (Hc' : lk (lg_rep g) (ch_cp c) <> None) by congruence. destruct (variants_sane _ _ g g1 S Hc' D E1) as [S1 [G1 P1]].
      destruct (IH g1 g' S1 (fun d Hd => proj2 G1 _ (Hl d (or_intror Hd))) E) as [S2 [G2 P2]]. split; [exact S2|]. split; [exact (grows_trans _ _ _ G1 G2)|].
      intros d v [<-|Hd] M C.
      + apply (done_grows _ _ _ _ G2), P1. apply mapping_lk in M. destruct M as [x [M1 [M2 _]]]. rewrite L in M1. injection M1 as <-. exact M2.
      + apply P2; [exact Hd|apply (proj1 G1); assumption|exact C].
  Qed.
  Lemma keys_sane : forall ks g last g', sane g -> each_key symmetry_step g last ks = (g', Ok tt) ->
    sane g' /\ grows g g' /\ forall k t v, In k ks -> mapping (lg_rep g) (k :: t) (v_cp v) v -> conditional v -> done g' (k :: t) v.
  Proof.
    induction ks as [|k ks IH]; intros g last g' S E; cbn [each_key] in E.
    - injection E as <-. split; [exact S|]. split; [apply grows_refl|intros k t v []].
    - set (last1 := match last with Some lc => if N.ltb lc k then None else Some lc | None => None end) in E.
      pose proof (lgr_reachable_wf g (sn_re _ S)) as Hwf.
      pose proof (iter_bucket_sub (isort len_leb (bucket (lg_rep g) k)) last1) as Hsub.
      pose proof (iter_bucket_nonrange (isort len_leb (bucket (lg_rep g) k)) last1) as Hnr.
      destruct (iter_bucket last1 (isort len_leb (bucket (lg_rep g) k))) as [last' out]. cbn [snd] in Hsub, Hnr.
      assert (Hout : forall c, In c out -> lk (lg_rep g) (ch_cp c) <> None).
      { intros c Hc. apply Hsub in Hc. apply isort_In in Hc. assert (Hin : In c (all_chars (lg_rep g))) by (apply all_chars_bucket; eauto).
        apply in_all_chars_lk in Hin; [congruence|exact Hwf]. }
      destruct (each_char symmetry_step g out) as [g1 [[]|e]] eqn:E1; [|discriminate].
      destruct (chars_sane out g g1 S Hout E1) as [S1 [G1 P1]]. destruct (IH g1 last' g' S1 E) as [S2 [G2 P2]].
      split; [exact S2|]. split; [exact (grows_trans _ _ _ G1 G2)|]. intros k' t v [<-|Hk] M C; [|apply P2; [exact Hk|apply (proj1 G1); assumption|exact C]].
      pose proof M as M'. apply mapping_lk in M'. destruct M' as [x [M1 [M2 _]]]. pose proof (lk_cp _ _ _ M1) as Hcp. apply (done_grows _ _ _ _ G2). rewrite <- Hcp. apply P1; [|rewrite Hcp; exact M|exact C].
      apply Hnr.
      + apply isort_In. simpl in M1. apply find_some in M1. apply M1.
      + destruct (is_range x) eqn:Er; [|reflexivity]. rewrite (range_get_variants x (lk_wf _ _ _ Hwf M1) Er) in M2. contradiction.
  Qed.
End Sweep.

(** ** After the pass *)
Definition both_ways (g : lgr) : Prop :=
  (forall a b, cond v_when g a b -> cond v_when g b a) /\ (forall a b, cond v_not_when g a b -> cond v_not_when g b a).
Lemma sweep_both_ways : forall g g', lgr_reachable g -> add_symmetry g = (g', Ok tt) -> both_ways g'.
Proof.
  intros g g' Hre E. unfold add_symmetry, each_mapping in E.
  assert (S : sane g g) by (constructor; [exact Hre|intros; left; assumption|intros; left; assumption]).
  destruct (keys_sane g _ g None g' S E) as [S' [G P]].
  assert (A : forall a v, mapping (lg_rep g) a (v_cp v) v -> conditional v -> done g' a v).
  { intros a v M C. pose proof M as M'. apply mapping_lk in M'. destruct M' as [x [M1 _]]. destruct a as [|k t]; [discriminate|]. apply P; [|exact M|exact C]. apply isort_In.
    simpl in M1. apply find_some in M1. destruct M1 as [M1 _]. unfold bucket in M1.
    destruct (dget N.eqb k (rep_chars (lg_rep g))) eqn:D; [|contradiction]. apply (dget_In _ N_eqb_iff) in D. apply (in_map fst) in D. exact D. }
  assert (B : forall a b v, mapping (lg_rep g) a b v -> conditional v -> done g' a v /\ v_cp v = b).
  { intros a b v M C. assert (V : v_cp v = b) by (apply mapping_lk in M; destruct M as [x [_ [_ M]]]; exact M). subst b. split; [apply A; assumption|reflexivity]. }
  split; intros a b H.
  - destruct (sn_when _ _ S' a b H) as [[v [M T]]|K]; [|exact (cond_when _ _ _ _ G K)]. destruct (B a b v M (or_introl T)) as [[D _] <-]. exact (D T).
  - destruct (sn_not _ _ S' a b H) as [[v [M T]]|K]; [|exact (cond_not _ _ _ _ G K)]. destruct (B a b v M (or_intror T)) as [[_ D] <-]. exact (D T).
Qed.
Lemma mirrored_both_ways : forall g, rules_mirrored (lg_rep g) -> both_ways g.
Proof.
  intros g H. split; intros a b [v [M T]]; destruct (H a b v M) as [H1 H2].
  - destruct (H1 T) as [w [W1 W2]]. exists w. split; [exact W1|rewrite W2; exact T].
  - destruct (H2 T) as [w [W1 W2]]. exists w. split; [exact W1|rewrite W2; exact T].
Qed.
Lemma sweep_idle : forall g, lgr_reachable g -> symmetric (lg_rep g) -> both_ways g -> add_symmetry g = (g, Ok tt).
Proof.
  intros g Hre Hs [B1 B2]. apply each_mapping_idle; [exact Hre|]. intros a v M. destruct (Hs a (v_cp v) (ex_intro _ v M)) as [_ [u U]].
  pose proof U as U'. apply mapping_lk in U'. destruct U' as [ch [Eb [U1 U2]]]. unfold symmetry_step. rewrite (get_variants_present g Hre _ ch Eb).
  set (reverse := filter (fun u => cps_eqb a (v_cp u)) (get_variants ch)).
  assert (I : forall w, mapping (lg_rep g) (v_cp v) a w -> In w reverse).
  { intros w W. apply mapping_lk in W. destruct W as [c [W1 [W2 W3]]]. rewrite Eb in W1. injection W1 as <-. unfold reverse. apply filter_In. split; [exact W2|]. apply cps_eqb_eq. congruence. }
  assert (L : forall get, cond get g (v_cp v) a -> truthy (last_rule get reverse) = true).
  { intros get [w [W1 W2]]. destruct (truthy (last_rule get reverse)) eqn:K; [reflexivity|]. pose proof (last_rule_none _ _ _ K (I w W1)). congruence. }
  pose proof (I u U) as Iu. destruct reverse as [|r rs] eqn:Er; [destruct Iu|]. rewrite <- Er in *. unfold symmetry_when.
  assert (K1 : (truthy (v_when v) && negb (truthy (last_rule v_when reverse)) = false)%bool).
  { destruct (truthy (v_when v)) eqn:T; [|reflexivity]. rewrite (L v_when); [reflexivity|]. apply B1. exists v. auto. }
  assert (K2 : (truthy (v_not_when v) && negb (truthy (last_rule v_not_when reverse)) = false)%bool).
  { destruct (truthy (v_not_when v)) eqn:T; [|reflexivity]. rewrite (L v_not_when); [reflexivity|]. apply B2. exists v. auto. }
  rewrite K1. cbn [andthen]. unfold symmetry_not_when. rewrite K2. reflexivity.
Qed.
Theorem populate_settled : forall g, lgr_reachable g -> symmetric (lg_rep g) -> transitive (lg_rep g) -> both_ways g -> populate g = (g, Ok tt).
Proof.
  intros g Hre Hs Ht Hm. unfold populate. rewrite each_mapping_idle; [|exact Hre|].
  2:{ intros a v Hv. unfold add_missing. destruct (Hs a (v_cp v)) as [Hp _]; [exists v; exact Hv|]. rewrite lookup_lk in Hp.
      destruct (lk (lg_rep g) (v_cp v)) as [cb|] eqn:E; [|congruence]. rewrite (get_variants_present g Hre _ cb E). reflexivity. }
  cbn [andthen].
  assert (Hb : balance (rep_len (lg_rep g) * rep_len (lg_rep g)) g = (g, Ok tt)).
  { pose proof (balanced_iff g Hre Hs Ht) as Hb. destruct (rep_len (lg_rep g) * rep_len (lg_rep g))%nat; cbn [balance]; rewrite Hb; reflexivity. }
  rewrite Hb. cbn [andthen]. destruct (passed_symmetry g false Hre) as [[] [E _]]; rewrite E; [reflexivity|]. apply sweep_idle; assumption.
Qed.
Theorem populate_both_ways : forall g g', lgr_reachable g -> populate g = (g', Ok tt) -> both_ways g'.
Proof.
  intros g g' Hre E. pose proof E as E0. unfold populate in E. destruct (each_mapping add_missing g) as [g1 [u|e]] eqn:E1; cbn [andthen] in E; [|discriminate].
  destruct (balance (rep_len (lg_rep g1) * rep_len (lg_rep g1)) g1) as [g2 [u2|e]] eqn:E2; cbn [andthen] in E; [|discriminate].
  assert (Hre2 : lgr_reachable g2).
  { destruct (phase1_spec g Hre) as [h [[K [HI [Hc Hk]]]|[e [K _]]]]; rewrite E1 in K; [|discriminate]. injection K as <- _.
    set (V := map ch_cp (all_chars (lg_rep g1))) in *.
    assert (HV : covers V g).
    { intros a Ha. cut (lk (lg_rep g1) a <> None).
      - destruct (lk (lg_rep g1) a) as [ch|] eqn:El; [|congruence]. intros _. apply in_map_iff. exists ch. split; [apply (lk_cp _ _ _ El)|]. eapply lk_in_all; [apply lgr_reachable_wf, (i_re _ _ HI)|exact El].
      - destruct Ha as [Ha|[x Hx]].
        + rewrite lookup_lk in Ha. eapply keeps_lk; [apply (i_keep _ _ HI)|exact Ha].
        + apply (Hc x). eapply kept_target; eauto. }
    assert (F : (gaps V g1 <= rep_len (lg_rep g1) * rep_len (lg_rep g1))%nat).
    { rewrite rep_len_all. replace (length (all_chars (lg_rep g1))) with (length V) by (apply map_length). apply gaps_total. }
    destruct (balance_spec g V HV _ g1 (conj HI Hc) F) as [HI2 _]. rewrite E2 in HI2. exact (i_re _ _ HI2). }
  destruct (passed_symmetry g2 false Hre2) as [ok [P [_ [P2 _]]]]. rewrite P in E. destruct ok.
  - injection E as <-. apply mirrored_both_ways, P2; reflexivity.
  - exact (sweep_both_ways g2 g' Hre2 E).
Qed.

(** ** Statements *)
Lemma both_ways_rules : forall g, both_ways g <-> rules_both_ways (lg_rep g).
Proof.
  intro g. split.
  - intros [H1 H2] a b v M. split; intro T; [apply H1|apply H2]; exists v; auto.
  - intro H. split; intros a b [v [M T]]; destruct (H a b v M) as [H1 H2]; [exact (H1 T)|exact (H2 T)].
Qed.
Theorem populate_rules_both_ways : forall g g', lgr_reachable g -> populate g = (g', Ok tt) -> rules_both_ways (lg_rep g').
Proof. intros g g' Hre E. apply both_ways_rules. exact (populate_both_ways g g' Hre E). Qed.
Theorem populate_fixed : forall g, lgr_reachable g -> symmetric (lg_rep g) -> transitive (lg_rep g) -> rules_both_ways (lg_rep g) -> populate g = (g, Ok tt).
Proof. intros g H1 H2 H3 H4. apply populate_settled; try assumption. apply both_ways_rules. exact H4. Qed.
Theorem populate_twice : forall g g', lgr_reachable g -> populate g = (g', Ok tt) -> populate g' = (g', Ok tt).
Proof.
  intros g g' Hre E. destruct (populate_completes g g' Hre E) as [H1 [H2 _]]. destruct (populate_respects g g' _ Hre E) as [H3 _].
  apply populate_fixed; try assumption. exact (populate_rules_both_ways g g' Hre E).
Qed.
(** Changed by nothing else: the conditions say when an LGR is left as it is. *)
Theorem populate_fixed_iff : forall g, lgr_reachable g ->
  (populate g = (g, Ok tt) <-> symmetric (lg_rep g) /\ transitive (lg_rep g) /\ rules_both_ways (lg_rep g)).
Proof.
  intros g Hre. split.
  - intro E. destruct (populate_completes g g Hre E) as [H1 [H2 _]]. split; [exact H1|]. split; [exact H2|]. exact (populate_rules_both_ways g g Hre E).
  - intros [H1 [H2 H3]]. exact (populate_fixed g Hre H1 H2 H3).
Qed.
