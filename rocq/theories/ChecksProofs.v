(** Proofs about the miscellaneous checks (C55). *)
From Verif Require Import Base BaseFacts CharModel RepSpec RepProofs IterProofs ActionModel LgrModel LgrSpec LgrReach LgrInv LgrFinal Rfc7940Model Rfc7940Spec
  ValidateSpec ValidateProofs StatsProofs CompareModel MetaModel ChecksModel ChecksSpec.
From Coq Require Import Ascii.
Open Scope string_scope.
Open Scope list_scope.

Lemma has_space_iff : forall t, has_space t = true <-> exists a b, t = (a ++ String " " b)%string.
Proof.
  induction t as [|c t IH]; cbn [has_space].
  - split; [discriminate|]. intros [a [b H]]. destruct a; discriminate.
  - destruct (Ascii.eqb_spec c " ") as [E|E].
    + subst c. split; [intros _; exists "", t; reflexivity|reflexivity].
    + rewrite IH. split; intros [a [b H]].
      * exists (String c a), b. cbn [String.append]. rewrite H. reflexivity.
      * destruct a as [|c' a]; cbn [String.append] in H; injection H as H1 H2; [congruence|]. exists a, b. exact H2.
Qed.
Lemma bad_type_iff : forall t, bad_type t = true <-> unusable t.
Proof.
  intro t. unfold bad_type, unusable. destruct (has_space t) eqn:E.
  - split; [|reflexivity]. intros _. right. right. apply has_space_iff. exact E.
  - assert (N : ~ exists a b, t = (a ++ String " " b)%string) by (rewrite <- has_space_iff; congruence).
    destruct t as [|c r]; [split; [left; reflexivity|reflexivity]|]. destruct (Ascii.eqb_spec c "_") as [F|F].
    + subst c. split; [intros _; right; left; exists r; reflexivity|reflexivity].
    + split; [discriminate|]. intros [H|[[r' H]|H]]; [discriminate|injection H as H _; congruence|contradiction].
Qed.

(** ** Numbers *)
Lemma digit_spec : forall c d, digit c = Some d <-> (d < 10)%N /\ c = ascii_of_N (48 + d).
Proof.
  intros c d. unfold digit. cbv zeta. pose proof (N_ascii_bounded c) as Hb. split.
  - destruct ((48 <=? N_of_ascii c) && (N_of_ascii c <=? 57))%N eqn:E; [|discriminate]. intro H. injection H as H.
    apply andb_prop in E. destruct E as [E1 E2]. apply N.leb_le in E1, E2. split; [lia|].
    rewrite <- (ascii_N_embedding c). f_equal. lia.
  - intros [H1 H2]. subst c. rewrite N_ascii_embedding by lia.
    replace ((48 <=? 48 + d) && (48 + d <=? 57))%N with true by (symmetry; apply andb_true_intro; split; apply N.leb_le; lia).
    f_equal. lia.
Qed.
Lemma digit_lf : forall c, N_of_ascii c = 10%N -> digit c = None.
Proof. intros c H. unfold digit. rewrite H. reflexivity. Qed.
Lemma digits_spec : forall s acc b n, digits s acc b = Some n <->
  exists ds, (b = true \/ ds <> []) /\ Forall (fun d => d < 10)%N ds /\ fold_left (fun a d => a * 10 + d)%N ds acc = n /\
             (s = written ds \/ s = (written ds ++ LF)%string).
Proof.
  induction s as [|c s IH]; intros acc b n; cbn [digits].
  - split.
    + destruct b; [|discriminate]. intro H. injection H as H. exists []. split; [left; reflexivity|]. split; [constructor|]. split; [exact H|left; reflexivity].
    + intros [ds [H1 [_ [H3 H4]]]]. destruct ds as [|d ds]; [|destruct H4; discriminate].
      destruct H1 as [H1|H1]; [|contradiction]. subst b. cbn [fold_left] in H3. congruence.
  - destruct (digit c) as [d|] eqn:Ed.
    + rewrite IH. apply digit_spec in Ed. destruct Ed as [Hd Hc]. split.
      * intros [ds [_ [H2 [H3 H4]]]]. exists (d :: ds). split; [right; discriminate|]. split; [constructor; assumption|]. split; [exact H3|].
        cbn [written String.append]. rewrite <- Hc. destruct H4 as [H4|H4]; rewrite H4; auto.
      * intros [ds [_ [H2 [H3 H4]]]]. destruct ds as [|d' ds].
        -- cbn [written String.append] in H4. destruct H4 as [H4|H4]; [discriminate|]. unfold LF in H4. injection H4 as H4 _.
           rewrite Hc in H4. assert (K : N_of_ascii (ascii_of_N (48 + d)) = N_of_ascii (ascii_of_N 10)) by (rewrite H4; reflexivity).
           rewrite !N_ascii_embedding in K by lia. lia.
        -- inversion H2 as [|? ? K1 K2]; subst. cbn [written String.append fold_left] in H4 |- *.
           assert (E : ascii_of_N (48 + d) = ascii_of_N (48 + d')) by (destruct H4 as [H4|H4]; injection H4 as H4 _; exact H4).
           assert (E' : d = d').
           { assert (K : N_of_ascii (ascii_of_N (48 + d)) = N_of_ascii (ascii_of_N (48 + d'))) by (rewrite E; reflexivity).
             rewrite !N_ascii_embedding in K by lia. lia. }
           subst d'. exists ds. split; [left; reflexivity|]. split; [exact K2|]. split; [reflexivity|].
           destruct H4 as [H4|H4]; injection H4 as H4; auto.
    + split.
      * destruct ((N_of_ascii c =? 10)%N && (s =? "")%string && b)%bool eqn:E; [|discriminate]. intro H. injection H as H.
        apply andb_prop in E. destruct E as [E E3]. apply andb_prop in E. destruct E as [E1 E2].
        apply N.eqb_eq in E1. apply String.eqb_eq in E2. subst s b. exists []. split; [left; reflexivity|]. split; [constructor|]. split; [exact H|].
        right. cbn [written String.append]. unfold LF. rewrite <- E1, ascii_N_embedding. reflexivity.
      * intros [ds [H1 [H2 [H3 H4]]]]. destruct ds as [|d ds].
        -- destruct H1 as [H1|H1]; [|contradiction]. subst b. destruct H4 as [H4|H4]; [discriminate|]. cbn [written String.append] in H4.
           unfold LF in H4. injection H4 as H5 H6. subst c s. cbn [fold_left] in H3. cbn. congruence.
        -- exfalso. inversion H2 as [|? ? K1 K2]; subst. cbn [written String.append] in H4.
           assert (E : c = ascii_of_N (48 + d)) by (destruct H4 as [H4|H4]; injection H4 as H4 _; exact H4).
           assert (K : digit c = Some d) by (apply digit_spec; split; assumption). congruence.
Qed.
Lemma as_number_iff : forall s n, as_number s = Some n <-> numeral s n.
Proof.
  intros s n. unfold as_number, numeral. rewrite digits_spec. split; intros [ds [H1 H2]]; exists ds.
  - destruct H1 as [H1|H1]; [discriminate|]. split; assumption.
  - split; [right; exact H1|exact H2].
Qed.
Lemma ref_ascending_iff : forall l last, ref_ascending last l = true <->
  ascending l /\ match l, last with s :: _, Some p => forall j, numeral s j -> (p < j)%N | _, _ => True end.
Proof.
  induction l as [|s l IH]; intro last; cbn [ref_ascending].
  - split; [|reflexivity]. intros _. split; [|exact I]. intros before p n after i j H. destruct before; discriminate.
  - destruct (as_number s) as [m|] eqn:E.
    + pose proof (proj1 (as_number_iff _ _) E) as Em.
      assert (Hlast : match last with None => true | Some p => (p <? m)%N end = true <-> match last with Some p => forall j, numeral s j -> (p < j)%N | None => True end).
      { destruct last as [p|]; [|split; auto]. rewrite N.ltb_lt. split.
        - intros H j Hj. apply as_number_iff in Hj. congruence.
        - intro H. apply H. exact Em. }
      assert (Hasc : ascending (s :: l) <-> ascending l /\ match l with t :: _ => forall j, numeral t j -> (m < j)%N | [] => True end).
      { split.
        - intro H. split.
          + intros before p n after i j K B. apply (H (s :: before) p n after i j); [rewrite K; reflexivity|].
            intros u [Hu|Hu]; [subst u; exists m; exact Em|apply B; exact Hu].
          + destruct l as [|t l]; [exact I|]. intros j Hj. apply (H [] s t l m j); auto. intros u [].
        - intros [H1 H2] before p n after i j K B Hp Hn. destruct before as [|b before].
          + injection K as K1 K2. subst p l. apply as_number_iff in Hp. rewrite E in Hp. injection Hp as Hp. subst i. apply H2. exact Hn.
          + injection K as K1 K2. apply (H1 before p n after i j K2); auto. intros u Hu. apply B. right. exact Hu. }
      destruct (match last with None => true | Some p => (p <? m)%N end).
      * rewrite IH, Hasc. assert (Hl : match last with Some p => forall j, numeral s j -> (p < j)%N | None => True end) by (apply Hlast; reflexivity).
        destruct l, last; tauto.
      * split; [discriminate|]. intros [_ H]. apply Hlast. destruct last; auto.
    + split; [|reflexivity]. intros _. split.
      * intros before p n after i j K B Hp Hn. destruct before as [|b before]; injection K as K1 K2; subst.
        -- apply as_number_iff in Hp. congruence.
        -- destruct (B b (or_introl eq_refl)) as [k Hk]. apply as_number_iff in Hk. congruence.
      * destruct last; [|exact I]. intros j Hj. apply as_number_iff in Hj. congruence.
Qed.
Lemma ascending_iff : forall l, ref_ascending None l = true <-> ascending l.
Proof. intro l. rewrite ref_ascending_iff. destruct l; tauto. Qed.

(** ** IDNA properties *)
Lemma idna_ok_iff : forall db x, memb String.eqb (ucd_idna db x) valid_idna_values = true <-> idna_ok db x.
Proof.
  intros db x. rewrite (memb_In _ _ string_eqb_iff). unfold valid_idna_values, idna_ok. cbn [In]. split; intros H; repeat destruct H as [H|H]; auto; contradiction.
Qed.
Lemma idna_loop_all : forall db l d, let '(b, inv) := idna_valid_loop db true l d in
  (b = true <-> inv = []) /\ forall x, In x (dkeys inv) <-> In x (dkeys d) \/ (In x l /\ ~ idna_ok db x).
Proof.
  intros db. induction l as [|c l IH]; intro d; cbn [idna_valid_loop].
  - split; [destruct d; split; congruence|]. intro x. cbn [In]. tauto.
  - destruct (memb String.eqb (ucd_idna db c) valid_idna_values) eqn:E.
    + specialize (IH d). destruct (idna_valid_loop db true l d) as [b inv]. destruct IH as [H1 H2]. split; [exact H1|].
      intro x. rewrite H2. cbn [In]. apply idna_ok_iff in E. split; intros [H|H]; auto.
      * right. tauto.
      * destruct H as [[H|H] K]; [subst x; contradiction|right; auto].
    + assert (Hn : ~ idna_ok db c) by (rewrite <- idna_ok_iff; congruence).
      specialize (IH (dset N.eqb c (ucd_idna db c) d)). destruct (idna_valid_loop db true l _) as [b inv]. destruct IH as [H1 H2].
      split; [exact H1|]. intro x. rewrite H2. rewrite (dset_keys_iff _ N_eqb_iff). cbn [In]. split.
      * intros [[H|H]|H]; auto. { subst x. right. auto. } right. tauto.
      * intros [H|[[H|H] K]]; auto.
Qed.
Lemma idna_loop_first : forall db l d, fst (idna_valid_loop db false l d) = true <-> d = [] /\ forall x, In x l -> idna_ok db x.
Proof.
  intros db. induction l as [|c l IH]; intro d; cbn [idna_valid_loop].
  - cbn [fst]. split; [destruct d; [|discriminate]; intros _; split; [reflexivity|intros x []]|]. intros [H _]. subst. reflexivity.
  - destruct (memb String.eqb (ucd_idna db c) valid_idna_values) eqn:E.
    + rewrite IH. apply idna_ok_iff in E. split; intros [H1 H2]; split; auto.
      * intros x [H|H]; [subst x; exact E|auto].
      * intros x H. apply H2. right. exact H.
    + cbn [fst]. split; [discriminate|]. intros [_ H]. exfalso. specialize (H c (or_introl eq_refl)). apply idna_ok_iff in H. congruence.
Qed.

(** ** The walk over the repertoire *)
Section Walk.
  Variable g : lgr.
  Hypothesis Ht : tidy g.
  Let r := lg_rep g.
  Lemma walk_wf : wf_rep r.
  Proof. apply lgr_reachable_wf, tidy_reachable. exact Ht. Qed.
  Lemma walk_entry : forall c, In c (rep_iter r) -> lk r (ch_cp c) = Some c.
  Proof. intros c H. pose proof walk_wf as Hwf. apply in_all_chars_lk; [exact Hwf|]. destruct (iter_general r Hwf) as [_ [_ [H3 _]]]. auto. Qed.
  Lemma walk_cover : forall a ch, lk r a = Some ch -> exists c, In c (rep_iter r) /\ In ch (members c).
  Proof.
    intros a ch H. pose proof walk_wf as Hwf. pose proof (tidy_rinv g Ht) as Hi.
    assert (He : enumerates r (all_chars r)).
    { split; [apply (NoDup_map_inv ch_cp); apply all_chars_NoDup; exact Hwf|]. intro d. rewrite lookup_lk. apply in_all_chars_lk. exact Hwf. }
    pose proof (members_perm r (all_chars r) Hwf Hi He) as P.
    assert (In ch (flat_map members (rep_iter r))).
    { apply (Permutation_in _ (Permutation_sym P)). eapply lk_in_all; eauto. }
    apply in_flat_map in H0. exact H0.
  Qed.
  Lemma members_plain : forall c, is_range c = false -> members c = [c].
  Proof. intros c H. unfold members, is_range in *. destruct (ch_kind c); congruence. Qed.
  Lemma range_no_variants : forall c, In c (rep_iter r) -> is_range c = true -> get_variants c = [].
  Proof.
    intros c H Hr. pose proof (lk_wf _ _ _ walk_wf (walk_entry c H)) as [_ Hw]. unfold is_range in Hr. destruct (ch_kind c) eqn:E; try discriminate.
    destruct Hw as [_ [_ Hv]]. unfold get_variants. rewrite Hv. reflexivity.
  Qed.
  (** Every mapping belongs to a yielded entry that is not a range. *)
  Lemma walk_mapping : forall a b v, mapping r a b v -> exists c, In c (rep_iter r) /\ is_range c = false /\ In v (get_variants c) /\ v_cp v = b /\ ch_cp c = a.
  Proof.
    intros a b v H. apply mapping_lk in H. destruct H as [ch [H1 [H2 H3]]]. destruct (walk_cover a ch H1) as [c [Hc Hm]].
    destruct (members_In r c ch walk_wf (tidy_rinv g Ht) (walk_entry c Hc) Hm) as [_ [_ [M3 [_ M5]]]].
    destruct (is_range c) eqn:E; [rewrite (M5 eq_refl) in H2; destruct H2|]. rewrite (M3 eq_refl) in *.
    exists c. repeat split; auto. eapply lk_cp; eauto.
  Qed.
  Lemma walk_mapping_back : forall c v, In c (rep_iter r) -> In v (get_variants c) -> mapping r (ch_cp c) (v_cp v) v.
  Proof. intros c v H Hv. apply mapping_lk. exists c. split; [apply walk_entry; exact H|]. auto. Qed.

  Lemma types_walk : snd (check_types (rep_iter r)) = true <-> types_ok g.
  Proof.
    unfold check_types. cbn [snd]. rewrite forallb_forall. split.
    - intros H t [a [b [v [Hm Hv]]]] Hu. destruct (walk_mapping a b v Hm) as [c [Hc [Hr [Hin _]]]]. specialize (H c Hc). rewrite Hr in H.
      apply bad_type_iff in Hu. assert (K : In ("data_variant_type", false) (type_failures c)).
      { unfold type_failures. apply in_flat_map. exists v. split; [exact Hin|]. rewrite Hv, Hu. left. reflexivity. }
      destruct (type_failures c); [destruct K|discriminate].
    - intros H c Hc. destruct (is_range c) eqn:Er; [reflexivity|]. destruct (type_failures c) as [|p l] eqn:E; [reflexivity|exfalso].
      assert (K : In p (type_failures c)) by (rewrite E; left; reflexivity). unfold type_failures in K. apply in_flat_map in K. destruct K as [v [Hv Hp]].
      destruct (v_type v) as [t|] eqn:Et; [|destruct Hp]. destruct (bad_type t) eqn:Eb; [|destruct Hp]. apply bad_type_iff in Eb.
      apply (H t); [|exact Eb]. exists (ch_cp c), (v_cp v), v. split; [apply walk_mapping_back; assumption|exact Et].
  Qed.
  Lemma types_failed : In ("data_variant_type", false) (fst (check_types (rep_iter r))) <-> ~ types_ok g.
  Proof.
    rewrite <- types_walk. unfold check_types. cbn [fst snd]. rewrite in_flat_map. split.
    - intros [c [Hc Hin]] H. rewrite forallb_forall in H. specialize (H c Hc). unfold types_of_char in Hin. destruct (is_range c); [destruct Hin|].
      apply in_app_iff in Hin. destruct Hin as [Hin|[Hin|[]]]; [|discriminate]. destruct (type_failures c); [destruct Hin|discriminate].
    - intro H. destruct (forallb _ _) eqn:E in H; [exfalso; apply H; reflexivity|]. clear H.
      assert (K : exists c, In c (rep_iter r) /\ (if is_range c then true else match type_failures c with [] => true | _ => false end) = false).
      { clear -E. induction (rep_iter r) as [|c l IH]; [discriminate|]. cbn [forallb] in E. apply andb_false_iff in E. destruct E as [E|E].
        - exists c. split; [left; reflexivity|exact E].
        - destruct (IH E) as [d [H1 H2]]. exists d. split; [right; exact H1|exact H2]. }
      destruct K as [c [Hc K]]. exists c. split; [exact Hc|]. unfold types_of_char. destruct (is_range c); [discriminate|].
      apply in_app_iff. left. destruct (type_failures c) as [|p l] eqn:F; [discriminate|].
      assert (Hp : In p (type_failures c)) by (rewrite F; left; reflexivity). unfold type_failures in Hp. apply in_flat_map in Hp.
      destruct Hp as [v [_ Hp]]. destruct (v_type v) as [t|]; [|destruct Hp]. destruct (bad_type t); [|destruct Hp]. destruct Hp as [Hp|[]]. subst p. left. reflexivity.
  Qed.
  Lemma types_executed : executed (fst (check_types (rep_iter r))) "data_variant_type" <->
    exists c ch, lookup r c = Some ch /\ is_range ch = false.
  Proof.
    unfold executed, check_types. cbn [fst]. split.
    - intros [b H]. apply in_flat_map in H. destruct H as [c [Hc H]]. unfold types_of_char in H. destruct (is_range c) eqn:E; [destruct H|].
      exists (ch_cp c), c. split; [rewrite lookup_lk; apply walk_entry; exact Hc|exact E].
    - intros [c [ch [H E]]]. rewrite lookup_lk in H. destruct (walk_cover c ch H) as [d [Hd Hm]].
      destruct (members_In r d ch walk_wf (tidy_rinv g Ht) (walk_entry d Hd) Hm) as [_ [M2 _]].
      exists true. apply in_flat_map. exists d. split; [exact Hd|]. unfold types_of_char, is_range in *. rewrite M2. destruct (ch_kind ch); try discriminate;
        apply in_app_iff; right; left; reflexivity.
  Qed.

  Lemma to_check_In : forall x, In x (to_check (rep_iter r)) <-> used_code_point g x.
  Proof.
    intro x. unfold to_check. rewrite (dedup_In _ _ N_eqb_iff). rewrite in_flat_map. split.
    - intros [c [Hc Hx]]. pose proof (walk_entry c Hc) as He. destruct (ch_kind c) as [| |f l] eqn:Ek.
      1,2: apply in_app_iff in Hx; destruct Hx as [Hx|Hx];
           [left; exists (ch_cp c); split; [rewrite lookup_lk; fold r; congruence|exact Hx]
           |right; apply in_flat_map in Hx; destruct Hx as [v [Hv Hx]]; exists (ch_cp c), (v_cp v), v; split; [apply walk_mapping_back; assumption|exact Hx]].
      left. apply nrange_In in Hx. exists [x]. split; [|left; reflexivity]. rewrite lookup_lk. fold r.
      rewrite (member_of r c f l walk_wf (tidy_rinv g Ht) He Ek x Hx). discriminate.
    - intros [[c [H1 H2]]|[a [b [v [H1 H2]]]]].
      + rewrite lookup_lk in H1. fold r in H1. destruct (lk r c) as [ch|] eqn:E; [|congruence]. destruct (walk_cover c ch E) as [d [Hd Hm]].
        exists d. split; [exact Hd|]. pose proof (lk_cp _ _ _ E) as Hcp.
        unfold members in Hm. destruct (ch_kind d) as [| |f l] eqn:Ek.
        * destruct Hm as [Hm|[]]. subst d. apply in_app_iff. left. rewrite Hcp. exact H2.
        * destruct Hm as [Hm|[]]. subst d. apply in_app_iff. left. rewrite Hcp. exact H2.
        * apply in_map_iff in Hm. destruct Hm as [y [Hm Hy]]. subst ch. cbn [ch_cp] in Hcp. subst c. destruct H2 as [H2|[]]. subst y. exact Hy.
      + destruct (walk_mapping a b v H1) as [c [Hc [Hr [Hv [Hb Ha]]]]]. exists c. split; [exact Hc|].
        unfold is_range in Hr. destruct (ch_kind c); try discriminate; apply in_app_iff; right; apply in_flat_map; exists v; subst b; auto.
  Qed.
  Lemma refs_walk : forall refs, In refs (ref_lists (rep_iter r)) <-> used_refs g refs.
  Proof.
    intro refs. unfold ref_lists. rewrite in_flat_map. split.
    - intros [c [Hc [H|H]]].
      + left. exists (ch_cp c), c. split; [rewrite lookup_lk; apply walk_entry; exact Hc|auto].
      + right. apply in_map_iff in H. destruct H as [v [H Hv]]. exists (ch_cp c), (v_cp v), v. split; [apply walk_mapping_back; assumption|auto].
    - intros [[c [ch [H1 H2]]]|[a [b [v [H1 H2]]]]].
      + rewrite lookup_lk in H1. fold r in H1. destruct (walk_cover c ch H1) as [d [Hd Hm]]. exists d. split; [exact Hd|]. left. subst refs.
        unfold members in Hm. destruct (ch_kind d); try (destruct Hm as [Hm|[]]; subst; reflexivity).
        apply in_map_iff in Hm. destruct Hm as [y [Hm _]]. subst ch. reflexivity.
      + destruct (walk_mapping a b v H1) as [c [Hc [_ [Hv _]]]]. exists c. split; [exact Hc|]. right. subst refs. apply in_map. exact Hv.
  Qed.
End Walk.

Lemma existsb_false_forall : forall {A} (p : A -> bool) l, forallb p l = false <-> exists x, In x l /\ p x = false.
Proof.
  intros A p. induction l as [|a l IH]; cbn [forallb].
  - split; [discriminate|]. intros [x [[] _]].
  - rewrite andb_false_iff, IH. split.
    + intros [H|[x [H1 H2]]]; [exists a; split; [left; reflexivity|exact H]|exists x; split; [right; exact H1|exact H2]].
    + intros [x [[H|H] K]]; [subst; left; exact K|right; exists x; auto].
Qed.
Lemma refs_verdict : forall g, tidy g ->
  let '(rs, b) := check_refs (rep_iter (lg_rep g)) in
  (b = true <-> refs_ok g) /\ executed rs "ref_attribute_ascending" /\ (failed rs "ref_attribute_ascending" <-> ~ refs_ok g) /\
  (forall t b', In (t, b') rs -> t = "ref_attribute_ascending").
Proof.
  intros g Ht. unfold check_refs.
  assert (V : forallb (ref_ascending None) (ref_lists (rep_iter (lg_rep g))) = true <-> refs_ok g).
  { rewrite forallb_forall. unfold refs_ok. split; intros H refs Hr.
    - apply ascending_iff. apply H. apply refs_walk; assumption.
    - apply ascending_iff. apply H. apply refs_walk in Hr; assumption. }
  split; [exact V|]. split; [exists true; apply in_app_iff; right; left; reflexivity|]. split.
  - rewrite <- V. unfold failed. rewrite in_app_iff, in_flat_map. split.
    + intros [[refs [H1 H2]]|[H|[]]]; [|discriminate]. intro H. rewrite forallb_forall in H. rewrite (H refs H1) in H2. destruct H2.
    + intro H. left. apply not_true_iff_false, existsb_false_forall in H. destruct H as [refs [H1 H2]]. exists refs. split; [exact H1|]. rewrite H2. left. reflexivity.
  - intros t b' H. apply in_app_iff in H. destruct H as [H|[H|[]]]; [|congruence]. apply in_flat_map in H. destruct H as [refs [_ H]].
    destruct (ref_ascending None refs); [destruct H|]. destruct H as [H|[]]. congruence.
Qed.
Lemma same_version_iff : forall db d, match md_unicode (doc_meta d) with Some v => cps_eqb (ucd_version db) v | None => false end = true <-> same_version db d.
Proof.
  intros db d. unfold same_version. destruct (md_unicode (doc_meta d)) as [v|]; [|split; discriminate]. rewrite cps_eqb_eq. split; [intro; subst; reflexivity|congruence].
Qed.
Lemma code_points_verdict : forall db d g, doc_lgr d = g -> tidy g ->
  let '(rs, b) := check_code_points db (md_unicode (doc_meta d)) (rep_iter (lg_rep g)) in
  (b = true <-> (same_version db d -> code_points_ok db g)) /\
  (executed rs "codepoint_valid" <-> same_version db d) /\
  (executed rs "valid_unicode_version" <-> same_version db d) /\ ~ failed rs "valid_unicode_version" /\
  (failed rs "codepoint_valid" <-> same_version db d /\ ~ code_points_ok db g) /\
  (forall t b', In (t, b') rs -> t = "codepoint_valid" \/ t = "valid_unicode_version").
Proof.
  intros db d g Hg Ht. unfold check_code_points. pose proof (same_version_iff db d) as Hv.
  destruct (match md_unicode (doc_meta d) with Some v => cps_eqb (ucd_version db) v | None => false end).
  - assert (V : same_version db d) by (apply Hv; reflexivity). clear Hv. unfold is_idna_valid.
    pose proof (idna_loop_all db (to_check (rep_iter (lg_rep g))) []) as K. destruct (idna_valid_loop db true _ []) as [b0 inv]. destruct K as [_ K]. cbn [snd].
    assert (V2 : inv = [] <-> code_points_ok db g).
    { unfold code_points_ok. split.
      - intros H x Hx. subst inv. destruct (in_dec string_dec (ucd_idna db x) valid_idna_values) as [Hi|Hi].
        + apply idna_ok_iff. apply (memb_In _ _ string_eqb_iff). exact Hi.
        + exfalso. apply (proj2 (K x)). right. split; [apply to_check_In; assumption|]. rewrite <- idna_ok_iff, (memb_In _ _ string_eqb_iff). exact Hi.
      - intro H. destruct inv as [|[k p] inv]; [reflexivity|exfalso]. destruct (proj1 (K k) (or_introl eq_refl)) as [[]|[H1 H2]].
        apply H2, H. apply to_check_In in H1; assumption. }
    split; [destruct inv; split; [intros _ _; apply V2; reflexivity|reflexivity|discriminate|intro H; apply V2 in H; [discriminate|exact V]]|].
    split; [split; [intros _; exact V|intros _; exists true; apply in_app_iff; right; apply in_app_iff; right; left; reflexivity]|].
    split; [split; [intros _; exact V|intros _; exists true; left; reflexivity]|].
    assert (D : forall t b', In (t, b') ([("valid_unicode_version", true)] ++ map (fun _ => ("codepoint_valid", false)) inv ++ [("codepoint_valid", true)]) ->
                (t = "valid_unicode_version" /\ b' = true) \/ (t = "codepoint_valid" /\ (b' = false -> inv <> []))).
    { intros t b' H. apply in_app_iff in H. destruct H as [[H|[]]|H]; [injection H as H1 H2; subst; left; auto|]. right.
      apply in_app_iff in H. destruct H as [H|[H|[]]].
      - apply in_map_iff in H. destruct H as [y [H Hy]]. injection H as H1 H2. subst. split; [reflexivity|]. intros _ E. subst inv. destruct Hy.
      - injection H as H1 H2. subst. split; [reflexivity|discriminate]. }
    split; [intro H; destruct (D _ _ H) as [[_ H1]|[H1 _]]; discriminate|].
    split; [|intros t b' H; destruct (D _ _ H) as [[H1 _]|[H1 _]]; auto].
    split.
    + intro H. split; [exact V|]. rewrite <- V2. destruct (D _ _ H) as [[H1 _]|[_ H1]]; [discriminate|]. apply H1. reflexivity.
    + intros [_ H]. rewrite <- V2 in H. unfold failed. apply in_app_iff. right. apply in_app_iff. left. destruct inv as [|k inv]; [contradiction|]. left. reflexivity.
  - assert (V : ~ same_version db d) by (rewrite <- Hv; discriminate).
    split; [split; [intros _ H; contradiction|reflexivity]|].
    split; [split; [intros [b []]|contradiction]|]. split; [split; [intros [b []]|contradiction]|]. split; [intros []|].
    split; [split; [intros []|intros [H _]; contradiction]|intros t b' []].
Qed.
Lemma rules_verdict : forall d, let '(rs, b) := check_lgr_rules d in
  (b = true <-> rules_ok d) /\ executed rs "standard_dispositions" /\ (failed rs "standard_dispositions" <-> ~ rules_ok d) /\
  (forall t b', In (t, b') rs -> t = "standard_dispositions").
Proof.
  intro d. unfold check_lgr_rules.
  assert (S1 : forall s, memb String.eqb s standard_dispositions = true <-> standard s).
  { intro s. rewrite (memb_In _ _ string_eqb_iff). unfold standard, standard_dispositions. cbn [In]. split; intro H; repeat destruct H as [H|H]; auto 6; contradiction. }
  set (bad := filter (fun a => negb (memb String.eqb (a_disp a) standard_dispositions)) (doc_actions d)).
  assert (V : bad = [] <-> rules_ok d).
  { unfold rules_ok. split.
    - intros H a Ha. apply S1. destruct (memb String.eqb (a_disp a) standard_dispositions) eqn:E; [reflexivity|exfalso].
      assert (K : In a bad) by (apply filter_In; split; [exact Ha|rewrite E; reflexivity]). rewrite H in K. destruct K.
    - intro H. destruct bad as [|a l] eqn:E; [reflexivity|exfalso]. assert (K : In a bad) by (rewrite E; left; reflexivity).
      apply filter_In in K. destruct K as [K1 K2]. apply H, S1 in K1. rewrite K1 in K2. discriminate. }
  split; [rewrite <- V; destruct bad; split; congruence|]. split; [exists true; apply in_app_iff; right; left; reflexivity|]. split.
  - rewrite <- V. unfold failed. rewrite in_app_iff. split.
    + intros [H|[H|[]]]; [|discriminate]. intro E. rewrite E in H. destruct H.
    + intro H. left. destruct bad; [contradiction|]. left. reflexivity.
  - intros t b' H. apply in_app_iff in H. destruct H as [H|[H|[]]]; [|congruence]. apply in_map_iff in H. destruct H as [y [H _]]. congruence.
Qed.

(** The verdict. *)
Lemma misc_verdict : forall db d, tidy (doc_lgr d) ->
  exists b, snd (check_miscellaneous (Some db) d) = Ok b /\
    (b = true <-> rules_ok d /\ types_ok (doc_lgr d) /\ (same_version db d -> code_points_ok db (doc_lgr d)) /\ refs_ok (doc_lgr d)).
Proof.
  intros db d Ht. unfold check_miscellaneous, check_lgr_data. pose proof (rules_verdict d) as R. destruct (check_lgr_rules d) as [r0 b0]. destruct R as [R _].
  destruct b0.
  - pose proof (types_walk (doc_lgr d) Ht) as T. destruct (check_types _) as [r1 b1]. cbn [snd] in T.
    pose proof (code_points_verdict db d _ eq_refl Ht) as C. destruct (check_code_points _ _ _) as [r2 b2]. destruct C as [C _].
    pose proof (refs_verdict _ Ht) as F. destruct (check_refs _) as [r3 b3]. destruct F as [F _]. cbn [snd]. eexists. split; [reflexivity|].
    rewrite !andb_true_iff, T, C, F. assert (rules_ok d) by (apply R; reflexivity). tauto.
  - cbn [snd]. exists false. split; [reflexivity|]. split; [discriminate|]. intros [H _]. apply R in H. discriminate.
Qed.
(** What is recorded. *)
Lemma misc_recorded : forall db d, tidy (doc_lgr d) -> let g := doc_lgr d in
  let rs := fst (check_miscellaneous (Some db) d) in
  executed rs "standard_dispositions" /\ (failed rs "standard_dispositions" <-> ~ rules_ok d) /\
  (executed rs "data_variant_type" <-> rules_ok d /\ exists c ch, lookup (lg_rep g) c = Some ch /\ is_range ch = false) /\
  (failed rs "data_variant_type" <-> rules_ok d /\ ~ types_ok g) /\
  (executed rs "codepoint_valid" <-> rules_ok d /\ same_version db d) /\
  (failed rs "codepoint_valid" <-> rules_ok d /\ same_version db d /\ ~ code_points_ok db g) /\
  (executed rs "valid_unicode_version" <-> rules_ok d /\ same_version db d) /\ ~ failed rs "valid_unicode_version" /\
  (executed rs "ref_attribute_ascending" <-> rules_ok d) /\
  (failed rs "ref_attribute_ascending" <-> rules_ok d /\ ~ refs_ok g) /\
  (forall t, executed rs t -> In t ["standard_dispositions"; "data_variant_type"; "codepoint_valid"; "valid_unicode_version"; "ref_attribute_ascending"]).
Proof.
  intros db d Ht. cbv zeta. unfold check_miscellaneous, check_lgr_data. pose proof (rules_verdict d) as R. destruct (check_lgr_rules d) as [r0 b0].
  destruct R as [R1 [R2 [R3 R4]]]. destruct b0.
  - assert (OK : rules_ok d) by (apply R1; reflexivity).
    pose proof (types_failed (doc_lgr d) Ht) as T1. pose proof (types_executed (doc_lgr d) Ht) as T2.
    assert (T3 : forall t b', In (t, b') (fst (check_types (rep_iter (lg_rep (doc_lgr d))))) -> t = "data_variant_type").
    { intros t b' H. unfold check_types in H. cbn [fst] in H. apply in_flat_map in H. destruct H as [c [_ H]]. unfold types_of_char in H.
      destruct (is_range c); [destruct H|]. apply in_app_iff in H. destruct H as [H|[H|[]]]; [|congruence]. unfold type_failures in H. apply in_flat_map in H.
      destruct H as [v [_ H]]. destruct (v_type v) as [s|]; [|destruct H]. destruct (bad_type s); [|destruct H]. destruct H as [H|[]]. congruence. }
    destruct (check_types _) as [r1 b1]. cbn [fst] in T1, T2, T3.
    pose proof (code_points_verdict db d _ eq_refl Ht) as C. destruct (check_code_points _ _ _) as [r2 b2]. destruct C as [_ [C1 [C2 [C3 [C4 C5]]]]].
    pose proof (refs_verdict _ Ht) as F. destruct (check_refs _) as [r3 b3]. destruct F as [_ [F1 [F2 F3]]]. cbn [fst].
    assert (SPLIT : forall t b', In (t, b') (r0 ++ r1 ++ r2 ++ r3) <-> In (t, b') r0 \/ In (t, b') r1 \/ In (t, b') r2 \/ In (t, b') r3).
    { intros t b'. rewrite !in_app_iff. tauto. }
    assert (N0 : forall t b', t <> "standard_dispositions" -> ~ In (t, b') r0) by (intros t b' H K; apply R4 in K; contradiction).
    assert (N1 : forall t b', t <> "data_variant_type" -> ~ In (t, b') r1) by (intros t b' H K; apply T3 in K; contradiction).
    assert (N2 : forall t b', t <> "codepoint_valid" -> t <> "valid_unicode_version" -> ~ In (t, b') r2) by (intros t b' H H' K; apply C5 in K; tauto).
    assert (N3 : forall t b', t <> "ref_attribute_ascending" -> ~ In (t, b') r3) by (intros t b' H K; apply F3 in K; contradiction).
    assert (E0 : forall b', In ("standard_dispositions", b') (r0 ++ r1 ++ r2 ++ r3) <-> In ("standard_dispositions", b') r0).
    { intro b'. rewrite SPLIT. split; [|auto]. intros [H|[H|[H|H]]]; auto; exfalso; [apply N1 in H|apply N2 in H|apply N3 in H]; auto; discriminate. }
    assert (E1 : forall b', In ("data_variant_type", b') (r0 ++ r1 ++ r2 ++ r3) <-> In ("data_variant_type", b') r1).
    { intro b'. rewrite SPLIT. split; [|auto]. intros [H|[H|[H|H]]]; auto; exfalso; [apply N0 in H|apply N2 in H|apply N3 in H]; auto; discriminate. }
    assert (E2 : forall b', In ("codepoint_valid", b') (r0 ++ r1 ++ r2 ++ r3) <-> In ("codepoint_valid", b') r2).
    { intro b'. rewrite SPLIT. split; [|auto]. intros [H|[H|[H|H]]]; auto; exfalso; [apply N0 in H|apply N1 in H|apply N3 in H]; auto; discriminate. }
    assert (E3 : forall b', In ("valid_unicode_version", b') (r0 ++ r1 ++ r2 ++ r3) <-> In ("valid_unicode_version", b') r2).
    { intro b'. rewrite SPLIT. split; [|auto]. intros [H|[H|[H|H]]]; auto; exfalso; [apply N0 in H|apply N1 in H|apply N3 in H]; auto; discriminate. }
    assert (E4 : forall b', In ("ref_attribute_ascending", b') (r0 ++ r1 ++ r2 ++ r3) <-> In ("ref_attribute_ascending", b') r3).
    { intro b'. rewrite SPLIT. split; [|auto]. intros [H|[H|[H|H]]]; auto; exfalso; [apply N0 in H|apply N1 in H|apply N2 in H]; auto; discriminate. }
    unfold executed, failed in *.
    split; [destruct R2 as [b' H]; exists b'; apply E0; exact H|]. split; [rewrite E0; exact R3|].
    split; [rewrite <- T2; split; [intros [b' H]; split; [exact OK|exists b'; apply E1; exact H]|intros [_ [b' H]]; exists b'; apply E1; exact H]|].
    split; [rewrite E1, T1; tauto|].
    split; [rewrite <- C1; split; [intros [b' H]; split; [exact OK|exists b'; apply E2; exact H]|intros [_ [b' H]]; exists b'; apply E2; exact H]|].
    split; [rewrite E2, C4; tauto|].
    split; [rewrite <- C2; split; [intros [b' H]; split; [exact OK|exists b'; apply E3; exact H]|intros [_ [b' H]]; exists b'; apply E3; exact H]|].
    split; [rewrite E3; exact C3|].
    split; [split; [intros _; exact OK|intros _; destruct F1 as [b' H]; exists b'; apply E4; exact H]|].
    split; [rewrite E4, F2; tauto|].
    intros t [b' H]. apply SPLIT in H. destruct H as [H|[H|[H|H]]]; [apply R4 in H|apply T3 in H|apply C5 in H|apply F3 in H]; try (destruct H as [H|H]); subst t; cbn [In]; tauto.
  - assert (OK : ~ rules_ok d) by (rewrite <- R1; discriminate). cbn [fst].
    assert (N0 : forall t b', t <> "standard_dispositions" -> ~ In (t, b') r0) by (intros t b' H K; apply R4 in K; contradiction).
    unfold executed, failed in *.
    split; [exact R2|]. split; [exact R3|].
    split; [split; [intros [b' H]; apply N0 in H; [destruct H|discriminate]|tauto]|].
    split; [split; [intro H; apply N0 in H; [destruct H|discriminate]|tauto]|].
    split; [split; [intros [b' H]; apply N0 in H; [destruct H|discriminate]|tauto]|].
    split; [split; [intro H; apply N0 in H; [destruct H|discriminate]|tauto]|].
    split; [split; [intros [b' H]; apply N0 in H; [destruct H|discriminate]|tauto]|].
    split; [intro H; apply N0 in H; [destruct H|discriminate]|].
    split; [split; [intros [b' H]; apply N0 in H; [destruct H|discriminate]|tauto]|].
    split; [split; [intro H; apply N0 in H; [destruct H|discriminate]|tauto]|].
    intros t [b' H]. apply R4 in H. subst t. left. reflexivity.
Qed.
