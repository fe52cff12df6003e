From Coq Require Import Sorting.Sorted Permutation.
From Verif Require Import Base BaseFacts CharModel RepSpec RepProofs RangeProofs VariantProofs UtilsModel UtilsSpec UtilsProofs RefModel LgrModel LgrSpec LgrProofs LgrReach LgrRange.

Record rinv (r : repertoire) : Prop := {
  ri_mem : forall f l, In (f, l) (rep_ranges r) -> f < l /\ exists p, forall x, f <= x <= l ->
     lk r [x] = Some (mkChar [x] (KRange f l) (ch_comment p) (ch_refs p) (ch_tags p) (ch_when p) (ch_not_when p) []);
  ri_reg : forall c ch f l, lk r c = Some ch -> ch_kind ch = KRange f l -> In (f, l) (rep_ranges r);
  ri_nd : NoDup (rep_ranges r)
}.

Lemma rinv_empty : rinv empty_rep.
Proof. split; simpl; try (intros; contradiction); [intros [|x c] ch f l H; discriminate|constructor]. Qed.

Lemma rinv_ext : forall r r', (forall c, lk r' c = lk r c) -> Permutation (rep_ranges r') (rep_ranges r) -> rinv r -> rinv r'.
Proof.
  intros r r' Hl Hp [H1 H2 H3]. split.
  - intros f l Hin. apply (Permutation_in _ Hp) in Hin. destruct (H1 f l Hin) as [A [p B]]. split; auto. exists p.
    intros x Hx. rewrite Hl. auto.
  - intros c ch f l Hc Hk. rewrite Hl in Hc. apply (Permutation_in _ (Permutation_sym Hp)). eauto.
  - eapply Permutation_NoDup; [apply Permutation_sym; exact Hp|exact H3].
Qed.

(** One entry that is not a member of a range before or after changes. *)
Lemma rinv_upd : forall r r' c o, rinv r ->
  (forall d, lk r' d = if cps_eqb d c then o else lk r d) ->
  Permutation (rep_ranges r') (rep_ranges r) ->
  (forall ch f l, lk r c = Some ch -> ch_kind ch <> KRange f l) ->
  (forall ch f l, o = Some ch -> ch_kind ch <> KRange f l) -> rinv r'.
Proof.
  intros r r' c o [H1 H2 H3] Hl Hp Hold Hnew. split.
  - intros f l Hin. apply (Permutation_in _ Hp) in Hin. destruct (H1 f l Hin) as [A [p B]]. split; auto. exists p.
    intros x Hx. rewrite Hl. destruct (cps_eqb [x] c) eqn:E; [|auto]. apply cps_eqb_eq in E. subst c.
    exfalso. eapply Hold; [apply B; exact Hx|]. reflexivity.
  - intros d ch f l Hc Hk. rewrite Hl in Hc. apply (Permutation_in _ (Permutation_sym Hp)).
    destruct (cps_eqb d c); [|eauto]. exfalso. eapply Hnew; eauto.
  - eapply Permutation_NoDup; [apply Permutation_sym; exact Hp|exact H3].
Qed.

Lemma rinv_ins : forall r c, rinv r -> ch_cp c <> [] -> lk r (ch_cp c) = None ->
  (forall f l, ch_kind c <> KRange f l) -> rinv (ins r c).
Proof.
  intros r c Hr Hne Hn Hk. apply (rinv_upd r _ (ch_cp c) (Some c)); auto.
  - intro d. apply lk_ins; auto.
  - unfold ins. destruct (ch_cp c); apply Permutation_refl.
  - intros ch f l H. congruence.
  - intros ch f l H. injection H as H. subst. apply Hk.
Qed.

Lemma kind_of_norange : forall c f l, kind_of c <> KRange f l.
Proof. intros [|x [|y t]] f l; discriminate. Qed.

(** ** Ranges inserted from a disjoint list *)
Lemma find_range_disjoint : forall rs a b x, NoDup (expand_ranges_list rs) -> In (a, b) rs -> a <= x <= b ->
  find (fun p => N.leb (fst p) x && N.leb x (snd p)) rs = Some (a, b).
Proof.
  induction rs as [|[f l] rs IH]; intros a b x Hnd Hin Hx; [contradiction|].
  change (expand_ranges_list ((f, l) :: rs)) with (nrange f l ++ expand_ranges_list rs) in Hnd.
  apply NoDup_app_iff in Hnd. destruct Hnd as [N1 [N2 N3]]. cbn [find fst snd].
  destruct (N.leb f x && N.leb x l)%bool eqn:E.
  - destruct Hin as [Hin|Hin]; [congruence|]. exfalso. apply (N3 x).
    + apply nrange_In. apply andb_true_iff in E. rewrite !N.leb_le in E. exact E.
    + unfold expand_ranges_list. apply in_flat_map. exists (a, b). split; auto. apply nrange_In. exact Hx.
  - destruct Hin as [Hin|Hin]; [|apply IH; auto]. injection Hin as E1 E2. subst.
    apply andb_false_iff in E. rewrite !N.leb_gt in E. lia.
Qed.

Lemma kind_in_range : forall rs c a b, kind_in rs c = KRange a b -> In (a, b) (true_ranges rs) /\ a <= c <= b.
Proof.
  intros rs c a b H. unfold kind_in in H.
  destruct (find (fun p => N.leb (fst p) c && N.leb c (snd p))%bool rs) as [[f l]|] eqn:E; [|discriminate].
  apply find_some in E. destruct E as [E1 E2]. simpl in E2. apply andb_true_iff in E2. rewrite !N.leb_le in E2.
  destruct (N.eqb_spec f l); [discriminate|]. injection H as H1 H2. subst. split; auto.
  unfold true_ranges. apply filter_In. split; auto. simpl. destruct (N.eqb_spec a b); auto.
Qed.

Lemma true_ranges_NoDup : forall rs, NoDup (expand_ranges_list rs) -> Forall (fun p => fst p <= snd p) rs -> NoDup (true_ranges rs).
Proof.
  intros rs Hnd Hf. unfold true_ranges. apply NoDup_filter.
  induction rs as [|[f l] rs IH]; [constructor|]. inversion Hf as [|? ? H1 H2]; subst. simpl in H1.
  change (expand_ranges_list ((f, l) :: rs)) with (nrange f l ++ expand_ranges_list rs) in Hnd.
  apply NoDup_app_iff in Hnd. destruct Hnd as [N1 [N2 N3]]. constructor; auto. intro Hin. apply (N3 f).
  - apply nrange_In. lia.
  - unfold expand_ranges_list. apply in_flat_map. exists (f, l). split; auto. apply nrange_In. simpl. lia.
Qed.

Lemma insert_ranges_rinv : forall rs r cm rf tg w nw r', wf_rep r -> rinv r ->
  NoDup (expand_ranges_list rs) -> Forall (fun p => fst p <= snd p) rs ->
  insert_ranges r cm rf tg w nw rs = (r', Ok tt) -> rinv r'.
Proof.
  intros rs r cm rf tg w nw r' Hwf [R1 R2 R3] Hnd Hf H.
  apply insert_ranges_spec in H; auto. destruct H as [[_ [A [B C]]]|[pre [c [post [_ [H _]]]]]]; [|discriminate].
  assert (Hnew : forall a b, In (a, b) (true_ranges rs) -> In (a, b) rs /\ a < b).
  { intros a b Hin. unfold true_ranges in Hin. apply filter_In in Hin. destruct Hin as [H1 H2]. split; auto.
    rewrite Forall_forall in Hf. specialize (Hf _ H1). simpl in *. destruct (N.eqb_spec a b); [discriminate|lia]. }
  split.
  - intros f l Hin. apply (Permutation_in _ C) in Hin. apply in_app_iff in Hin. destruct Hin as [Hin|Hin].
    + destruct (Hnew f l Hin) as [H1 H2]. split; auto. exists (mkChar [] KChar cm rf tg w nw []). intros x Hx. rewrite B.
      assert (Hm : memb N.eqb x (expand_ranges_list rs) = true).
      { apply (memb_In _ _ N_eqb_iff). unfold expand_ranges_list. apply in_flat_map. exists (f, l). split; auto. apply nrange_In. exact Hx. }
      rewrite Hm. simpl. unfold kind_in. rewrite (find_range_disjoint rs f l x) by auto.
      destruct (N.eqb_spec f l); [lia|reflexivity].
    + destruct (R1 f l Hin) as [H1 [p H2]]. split; auto. exists p. intros x Hx. rewrite B.
      destruct (memb N.eqb x (expand_ranges_list rs)) eqn:Em; auto. apply (memb_In _ _ N_eqb_iff) in Em.
      specialize (H2 x Hx). rewrite A in H2 by exact Em. discriminate.
  - intros c ch f l Hc Hk. apply (Permutation_in _ (Permutation_sym C)). apply in_app_iff. rewrite B in Hc.
    destruct c as [|x [|y c]]; try (right; eapply R2; eassumption).
    destruct (memb N.eqb x (expand_ranges_list rs)); [|right; eapply R2; eassumption].
    left. injection Hc as Hc. subst ch. simpl in Hk. apply kind_in_range in Hk. tauto.
  - eapply Permutation_NoDup; [apply Permutation_sym; exact C|]. apply NoDup_app_iff. split; [apply true_ranges_NoDup; auto|].
    split; auto. intros [a b] H1 H2. destruct (Hnew a b H1) as [H3 H4]. destruct (R1 a b H2) as [_ [p H5]].
    assert (Hx : a <= a <= b) by lia. specialize (H5 a Hx). rewrite A in H5; [discriminate|].
    unfold expand_ranges_list. apply in_flat_map. exists (a, b). split; auto. apply nrange_In. exact Hx.
Qed.

(** ** Deleting and expanding a registered range *)
Lemma rinv_disjoint : forall r a b c d x, rinv r -> In (a, b) (rep_ranges r) -> In (c, d) (rep_ranges r) ->
  a <= x <= b -> c <= x <= d -> (a, b) = (c, d).
Proof.
  intros r a b c d x [R1 _ _] H1 H2 H3 H4. destruct (R1 a b H1) as [_ [p Hp]]. destruct (R1 c d H2) as [_ [q Hq]].
  specialize (Hp x H3). specialize (Hq x H4). rewrite Hp in Hq. injection Hq as E1 E2. congruence.
Qed.

Lemma del_range_rinv : forall r f l, wf_rep r -> rinv r -> rinv (fst (rep_del_range r f l)) /\
  (forall r' x, rep_del_range r f l = (r', x) ->
     (x = Ok tt /\ In (f, l) (rep_ranges r) /\
      (forall d, lk r' d = match d with [c] => if (N.leb f c && N.leb c l)%bool then None else lk r d | _ => lk r d end) /\
      Permutation (rep_ranges r) ((f, l) :: rep_ranges r')) \/
     (r' = r /\ exists e, x = Raise e)).
Proof.
  intros r f l Hwf Hr. pose proof Hr as [R1 R2 R3].
  assert (Hcase : (f < l /\ In (f, l) (rep_ranges r)) \/ exists e, rep_del_range r f l = (r, Raise e)).
  { unfold rep_del_range. destruct (N.ltb_spec f l); [|right; eauto].
    destruct (memb pair_eqb (f, l) (rep_ranges r)) eqn:E; [|right; eauto].
    left. apply (memb_In _ _ pair_eqb_iff) in E. auto. }
  destruct Hcase as [[Hfl Hin]|[e He]].
  2:{ rewrite He. split; [exact Hr|]. intros r' x H. injection H as H1 H2. subst. right. eauto. }
  destruct (R1 f l Hin) as [_ [p Hp]].
  destruct (rep_del_range_present r f l Hwf Hfl Hin) as [r1 [H1 [H2 H3]]].
  { intros c Hc. rewrite lookup_lk, Hp by exact Hc. discriminate. }
  assert (Hlk : forall d, lk r1 d = match d with [c] => if (N.leb f c && N.leb c l)%bool then None else lk r d | _ => lk r d end).
  { intro d. rewrite <- lookup_lk, H2. destruct d as [|c [|c2 d]]; rewrite ?lookup_lk; reflexivity. }
  rewrite H1. split.
  - assert (Hnd1 : NoDup ((f, l) :: rep_ranges r1)) by (eapply Permutation_NoDup; eauto).
    inversion Hnd1 as [|? ? Hni Hnd2]; subst. cbn [fst]. split.
    + intros a b Hab. assert (Hab' : In (a, b) (rep_ranges r)).
      { apply (Permutation_in _ (Permutation_sym H3)). right. exact Hab. }
      destruct (R1 a b Hab') as [H4 [q Hq]]. split; auto. exists q. intros x Hx. rewrite Hlk.
      destruct (N.leb f x && N.leb x l)%bool eqn:E; auto. exfalso. apply andb_true_iff in E. rewrite !N.leb_le in E.
      apply Hni. rewrite (rinv_disjoint r f l a b x Hr Hin Hab' E Hx). exact Hab.
    + intros c ch a b Hc Hk. rewrite Hlk in Hc.
      assert (Hc' : lk r c = Some ch /\ forall x, c = [x] -> ~ (f <= x <= l)).
      { destruct c as [|x [|y c]]; try (split; [exact Hc|intros z Hz; discriminate]).
        destruct (N.leb f x && N.leb x l)%bool eqn:E; [discriminate|]. split; auto. intros z Hz. injection Hz as Hz. subst z.
        apply andb_false_iff in E. rewrite !N.leb_gt in E. lia. }
      destruct Hc' as [Hc' Hno]. pose proof (R2 c ch a b Hc' Hk) as Hreg.
      apply (Permutation_in _ H3) in Hreg. destruct Hreg as [Hreg|Hreg]; auto. injection Hreg as E1 E2. subst a b.
      exfalso. pose proof (lk_wf r c ch Hwf Hc') as [_ Hw]. rewrite Hk in Hw. destruct Hw as [_ [[x [Hx1 Hx2]] _]].
      rewrite (lk_cp _ _ _ Hc') in Hx1. apply (Hno x Hx1 Hx2).
    + exact Hnd2.
  - intros r' x H. injection H as E1 E2. subst. left. auto.
Qed.

Lemma readd_loop_spec : forall l r ch, NoDup l -> (forall x, In x l -> lk r [x] = None) ->
  exists r', readd_loop r ch l = (r', Ok tt) /\
    (forall d, lk r' d = match d with
      | [x] => if memb N.eqb x l then Some (mkChar [x] KChar (ch_comment ch) (ch_refs ch) (ch_tags ch) (ch_when ch) (ch_not_when ch) []) else lk r d
      | _ => lk r d end) /\ rep_ranges r' = rep_ranges r.
Proof.
  induction l as [|x l IH]; intros r ch Hnd Hab; cbn [readd_loop].
  - exists r. split; auto. split; auto. intros [|y [|z d]]; reflexivity.
  - inversion Hnd as [|? ? Hni Hnd']; subst. rewrite rep_add_char_lk by discriminate.
    rewrite (Hab x (or_introl eq_refl)). cbn [kind_of].
    set (c1 := mkChar [x] KChar (ch_comment ch) (ch_refs ch) (ch_tags ch) (ch_when ch) (ch_not_when ch) []).
    assert (Hlk : forall d, lk (ins r c1) d = if cps_eqb d [x] then Some c1 else lk r d).
    { intro d. apply (lk_ins r c1); [discriminate|]. apply Hab. left. reflexivity. }
    destruct (IH (ins r c1) ch Hnd') as [r' [H1 [H2 H3]]].
    { intros y Hy. rewrite Hlk. destruct (cps_eqb [y] [x]) eqn:E; [apply cps_eqb_eq in E; injection E as E; subst; contradiction|].
      apply Hab. right. exact Hy. }
    exists r'. split; auto. split; [|rewrite H3; reflexivity].
    intro d. rewrite H2. destruct d as [|y [|z d]].
    + rewrite Hlk. reflexivity.
    + unfold memb. cbn [existsb]. fold (memb N.eqb y l). rewrite Hlk.
      destruct (N.eqb_spec y x) as [E|E].
      * subst y. rewrite cps_eqb_refl. cbn [orb]. destruct (memb N.eqb x l); reflexivity.
      * cbn [orb]. destruct (memb N.eqb y l); auto. destruct (cps_eqb [y] [x]) eqn:E2; auto.
        apply cps_eqb_eq in E2. congruence.
    + rewrite Hlk. destruct (cps_eqb (y :: z :: d) [x]) eqn:E; auto. apply cps_eqb_eq in E. discriminate.
Qed.

(** [g] accepts the code points of all its entries. *)
Definition accepting (g : lgr) : Prop :=
  lg_raise g = true -> forall c x, lk (lg_rep g) c <> None -> In x c -> ~ idna_invalid g x.

Lemma accepting_convert : forall g c, accepting g -> c <> [] -> lk (lg_rep g) c <> None -> check_convert g c = Ok c.
Proof.
  intros g c Ha Hne Hc. destruct (check_convert_cases g c) as [[e [H1 [H2|[_ H2]]]]|[H1 _]]; auto.
  - destruct H2 as [H2 _]. contradiction.
  - destruct H2 as [Hr [x [Hx _]]]. apply first_such_In in Hx. exfalso. apply (Ha Hr c x Hc); tauto.
Qed.

Lemma expand_range_rinv : forall g f l, wf_rep (lg_rep g) -> rinv (lg_rep g) ->
  (exists e, lgr_expand_range g f l = (g, Raise e)) \/
  (exists r', lgr_expand_range g f l = (set_rep g r', Ok tt) /\ rinv r' /\ In (f, l) (rep_ranges (lg_rep g)) /\
    (forall d, lk r' d = match d with
      | [c] => if (N.leb f c && N.leb c l)%bool then option_map single (lk (lg_rep g) d) else lk (lg_rep g) d
      | _ => lk (lg_rep g) d end) /\
    Permutation (rep_ranges (lg_rep g)) ((f, l) :: rep_ranges r')).
Proof.
  intros g f l Hwf Hr. unfold lgr_expand_range. destruct (N.ltb_spec l f); [left; eauto|].
  destruct (bind (check_convert g [f]) _) as [ch|e] eqn:Eb; [|left; eauto].
  destruct (check_convert g [f]) as [c1|e] eqn:Ec; [|discriminate]. cbn [bind] in Eb.
  apply check_convert_id in Ec. destruct Ec as [Ec _]. subst c1. rewrite get_char_lk in Eb by discriminate.
  destruct (lk (lg_rep g) [f]) as [ch'|] eqn:El; [|discriminate]. injection Eb as Eb. subst ch'.
  destruct (del_range_rinv (lg_rep g) f l Hwf Hr) as [Hr1 Hd].
  destruct (rep_del_range (lg_rep g) f l) as [r x] eqn:E. destruct (Hd r x eq_refl) as [[Hx [Hin [Hlk Hrg]]]|[Hx [e He]]].
  2:{ subst. left. exists e. rewrite set_rep_id. reflexivity. }
  subst x. cbn [fst] in Hr1. pose proof Hr as [R1 _ _]. destruct (R1 f l Hin) as [Hfl [p Hp]].
  assert (Hff : f <= f <= l) by lia.
  destruct (readd_loop_spec (nrange f l) r ch (nrange_NoDup f l)) as [r' [H1 [H2 H3]]].
  { intros x Hx. apply nrange_In in Hx. rewrite Hlk. destruct (N.leb_spec f x), (N.leb_spec x l); simpl; auto; lia. }
  right. exists r'. rewrite H1. split; [reflexivity|].
  pose proof (Hp f Hff) as Hpf. rewrite El in Hpf. injection Hpf as Hpf.
  assert (Hall : forall d, lk r' d = match d with
      | [c] => if (N.leb f c && N.leb c l)%bool then option_map single (lk (lg_rep g) d) else lk (lg_rep g) d
      | _ => lk (lg_rep g) d end).
  { intro d. rewrite H2. destruct d as [|c [|c2 d]]; try (rewrite Hlk; reflexivity). rewrite memb_nrange, Hlk.
    destruct (N.leb f c && N.leb c l)%bool eqn:Ecl; auto. apply andb_true_iff in Ecl. rewrite !N.leb_le in Ecl.
    rewrite (Hp c Ecl). subst ch. reflexivity. }
  split; [|split; [exact Hin|split; [exact Hall|rewrite H3; exact Hrg]]].
  (* rinv r' from rinv r : only fresh KChar entries added *)
  destruct Hr1 as [Q1 Q2 Q3]. split.
  - intros a b Hab. rewrite H3 in Hab. destruct (Q1 a b Hab) as [H4 [q Hq]]. split; auto. exists q. intros y Hy. rewrite H2.
    destruct (memb N.eqb y (nrange f l)) eqn:Em; auto. exfalso. rewrite memb_nrange in Em.
    specialize (Hq y Hy). rewrite Hlk, Em in Hq. discriminate.
  - intros c c' a b Hc Hk. rewrite H3. rewrite H2 in Hc. destruct c as [|y [|z c]]; try (eapply Q2; eassumption).
    destruct (memb N.eqb y (nrange f l)); [|eapply Q2; eassumption]. injection Hc as Hc. subst c'. discriminate.
  - rewrite H3. exact Q3.
Qed.

(** ** Every operation keeps the database and the flag *)
Lemma add_cp_db : forall g c cm rf tg w nw vr ov fo,
  let g' := fst (lgr_add_cp g c cm rf tg w nw vr ov fo) in lg_db g' = lg_db g /\ lg_raise g' = lg_raise g.
Proof.
  intros. subst g'. destruct (add_cp_unfold g c cm rf tg w nw vr ov fo) as [r [_ H]]. rewrite H. destruct r; auto.
Qed.
Lemma add_range_db : forall g f l cm rf tg w nw vr ov fo,
  let g' := fst (lgr_add_range g f l cm rf tg w nw vr ov fo) in lg_db g' = lg_db g /\ lg_raise g' = lg_raise g.
Proof.
  intros. subst g'. destruct (add_range_unfold g f l cm rf tg w nw vr ov fo) as [r [_ H]].
  destruct r; [rewrite H; auto|]. destruct H as [ks [rs [_ [_ [_ [_ H]]]]]]. rewrite H.
  destruct (insert_ranges _ _ _ _ _ _ rs) as [r' [u|e]]; cbn [fst]; auto.
  pose proof (fold_tags_db tg ks (set_rep g r')) as [H1 [H2 _]]. rewrite H1, H2. auto.
Qed.
Lemma expand_range_db : forall g f l,
  let g' := fst (lgr_expand_range g f l) in lg_db g' = lg_db g /\ lg_raise g' = lg_raise g.
Proof.
  intros. subst g'. unfold lgr_expand_range. destruct (N.ltb l f); auto. destruct (bind _ _); auto.
  destruct (rep_del_range (lg_rep g) f l) as [r [u|e]]; auto. destruct (readd_loop r a (nrange f l)); auto.
Qed.
Lemma expand_loop_db : forall l g,
  let g' := fst (expand_loop g l) in lg_db g' = lg_db g /\ lg_raise g' = lg_raise g.
Proof.
  induction l as [|[f la] l IH]; intro g; cbn [expand_loop]; auto. pose proof (expand_range_db g f la) as H.
  destruct (lgr_expand_range g f la) as [g1 [u|e]]; auto. specialize (IH g1). simpl in *.
  destruct IH as [I1 I2]. destruct H as [H1 H2]. rewrite I1, I2. auto.
Qed.
Lemma add_collapsed_db : forall l g cm rf tg,
  let g' := fst (add_collapsed g cm rf tg l) in lg_db g' = lg_db g /\ lg_raise g' = lg_raise g.
Proof.
  induction l as [|[f la] l IH]; intros g cm rf tg; cbn [add_collapsed]; auto.
  destruct (N.eqb f la).
  - pose proof (add_cp_db g [f] cm rf tg None None None false false) as H.
    destruct (lgr_add_cp g [f] cm rf tg None None None false false) as [g1 [u|e]]; auto.
    specialize (IH g1 cm rf tg). simpl in *. destruct IH as [I1 I2]. destruct H as [H1 H2]. rewrite I1, I2. auto.
  - pose proof (add_range_db g f la cm rf tg None None None false false) as H.
    destruct (lgr_add_range g f la cm rf tg None None None false false) as [g1 [u|e]]; auto.
    specialize (IH g1 cm rf tg). simpl in *. destruct IH as [I1 I2]. destruct H as [H1 H2]. rewrite I1, I2. auto.
Qed.

Lemma step_db : forall g o, o <> LCopy -> let g' := fst (lgr_step g o) in lg_db g' = lg_db g /\ lg_raise g' = lg_raise g.
Proof.
  intros g o Hc. destruct o as [c cm rf tg w nw vr ov fo|c|f l cm rf tg w nw vr ov fo|f l|f l| |c v ty w nw cm rf vr ov fo|c v w nw|l cm rf tg|v c id|ref|t|];
    unfold lgr_step.
  - pose proof (add_cp_db g c cm rf tg w nw vr ov fo) as H. destruct (lgr_add_cp _ _ _ _ _ _ _ _ _ _). exact H.
  - unfold lgr_del_cp. destruct (check_convert g c) as [c1|e]; auto. destruct (rep_get_char (lg_rep g) c1); auto.
    destruct (rep_del_char (lg_rep g) c1) as [r [u|e]]; auto.
  - pose proof (add_range_db g f l cm rf tg w nw vr ov fo) as H. destruct (lgr_add_range _ _ _ _ _ _ _ _ _ _ _). exact H.
  - unfold lgr_del_range. destruct (N.ltb l f); auto. destruct (rep_del_range (lg_rep g) f l); auto.
  - pose proof (expand_range_db g f l) as H. destruct (lgr_expand_range g f l). exact H.
  - unfold lgr_expand_ranges. pose proof (expand_loop_db (rep_ranges (lg_rep g)) g) as H.
    destruct (expand_loop g (rep_ranges (lg_rep g))). exact H.
  - unfold lgr_add_variant. destruct (bind _ _) as [[c1 v1]|e]; auto.
    destruct (_ && is_some nw)%bool; auto. destruct (check_validating vr ov fo c1 v1); auto.
    destruct (collect_refs (lg_refs g) fo rf) as [rs|e]; auto. destruct (has_dup rs && negb fo)%bool; auto.
    destruct (rep_add_variant _ _ _) as [r [u|e]]; auto.
  - unfold lgr_del_variant. destruct (check_convert g c) as [c1|e]; auto. destruct (rep_del_variant _ _ _ _ _); auto.
  - unfold lgr_add_codepoints. destruct l as [|x l]; auto. destruct (collapse_codepoints (x :: l)) as [rs|e]; auto.
    pose proof (add_collapsed_db rs g cm rf tg) as H. destruct (add_collapsed g cm rf tg rs). exact H.
  - unfold lgr_add_reference. destruct (rm_add (lg_refs g) v c id); auto.
  - unfold lgr_del_reference. destruct (rm_del _ ref); auto.
  - auto.
  - congruence.
Qed.

(** ** Entries only appear with accepted code points *)
Definition grows_ok (g g' : lgr) : Prop :=
  lg_db g' = lg_db g /\ lg_raise g' = lg_raise g /\
  forall c, lk (lg_rep g') c <> None -> lk (lg_rep g) c <> None \/
     (lg_raise g = true -> forall x, In x c -> ~ idna_invalid g x).

Lemma grows_ok_sub : forall g g', lg_db g' = lg_db g /\ lg_raise g' = lg_raise g ->
  (forall c, lk (lg_rep g') c <> None -> lk (lg_rep g) c <> None) -> grows_ok g g'.
Proof. intros g g' [H1 H2] H3. split; auto. Qed.

Lemma grows_ok_trans : forall a b c, grows_ok a b -> grows_ok b c -> grows_ok a c.
Proof.
  intros a b c [A1 [A2 A3]] [B1 [B2 B3]]. split; [congruence|]. split; [congruence|]. intros x Hx.
  destruct (B3 x Hx) as [H|H]; [apply A3; exact H|]. right. intros Hr y Hy Hi. apply H with (x := y); auto; [congruence|].
  destruct Hi as [d [Hd1 Hd2]]. exists d. split; auto. congruence.
Qed.

Lemma grows_accepting : forall g g', accepting g -> grows_ok g g' -> accepting g'.
Proof.
  intros g g' Ha [H1 [H2 H3]] Hr c x Hc Hx Hi. rewrite H2 in Hr.
  assert (Hi' : idna_invalid g x) by (destruct Hi as [d [Hd1 Hd2]]; exists d; split; auto; congruence).
  destruct (H3 c Hc) as [H|H]; [apply (Ha Hr c x H Hx Hi')|apply (H Hr x Hx Hi')].
Qed.

Lemma add_cp_grows : forall g c cm rf tg w nw vr ov fo, grows_ok g (fst (lgr_add_cp g c cm rf tg w nw vr ov fo)).
Proof.
  intros. split; [apply add_cp_db|]. split; [apply add_cp_db|].
  destruct (add_cp_spec g c cm rf tg w nw vr ov fo) as [r [H1 H2]].
  destruct (lgr_add_cp g c cm rf tg w nw vr ov fo) as [g' x]. destruct r as [e|].
  - destruct H2 as [_ H2]. subst. simpl. auto.
  - destruct H2 as [_ [_ [H2 _]]]. simpl. intros d Hd. destruct (cps_eq_dec d c) as [E|E].
    + subst d. right. intros Hr y Hy Hi. unfold add_cp_checks in H1. cbn [first_failing] in H1.
      destruct H1 as [[e [_ H]]|[_ H1]]; [discriminate|].
      destruct H1 as [[e [_ H]]|[H1 _]]; [discriminate|].
      destruct (lg_db g) as [d|] eqn:Ed.
      * destruct (find_first_such N _ (idna_invalid g) (fun y => idna_invalid_iff g d y Ed) c) as [[z [_ Hz]]|[_ Hz]].
        -- apply (H1 (CharInvalidIdnaProperty [z])). split; auto. exists z. auto.
        -- apply (Hz y Hy Hi).
      * destruct Hi as [d [Hd' _]]. congruence.
    + left. rewrite <- lookup_lk, <- H2 by exact E. rewrite lookup_lk. exact Hd.
Qed.

Lemma to_insert_accepted : forall g vr ov fo y, to_insert g vr ov fo y -> lg_raise g = true -> ~ idna_invalid g y.
Proof.
  intros g vr ov fo y [H|[[H _]|[H1 H2]]] Hr; [inversion H; auto|inversion H; auto|congruence].
Qed.

Lemma add_range_grows : forall g f l cm rf tg w nw vr ov fo, wf_rep (lg_rep g) ->
  grows_ok g (fst (lgr_add_range g f l cm rf tg w nw vr ov fo)).
Proof.
  intros g f l cm rf tg w nw vr ov fo Hwf. split; [apply add_range_db|]. split; [apply add_range_db|].
  destruct (add_range_unfold g f l cm rf tg w nw vr ov fo) as [r [_ H]].
  destruct r as [e|]; [rewrite H; auto|]. destruct H as [ks [rs [Hs [Hks [Hex [Hf Heq]]]]]]. rewrite Heq.
  destruct (insert_ranges (lg_rep g) cm (kept_refs g rf) tg w nw rs) as [r' x] eqn:Ei.
  apply insert_ranges_spec in Ei; auto; [|rewrite Hex; apply sorted_NoDup; exact Hs].
  rewrite Hex in Ei. intros d Hd.
  assert (Hg : lk r' d <> None).
  { destruct x as [u|e]; cbn [fst] in Hd; [rewrite fold_tags_rep in Hd|]; exact Hd. }
  clear Hd. destruct Ei as [[_ [_ [B _]]]|[pre [c [post [A0 [_ [_ [_ B]]]]]]]]; rewrite B in Hg.
  - destruct d as [|y [|z d]]; auto. destruct (memb N.eqb y ks) eqn:Em; auto. right. intros Hr z [Hz|[]]. subst z.
    apply (memb_In _ _ N_eqb_iff) in Em. apply Hks in Em. eapply to_insert_accepted; [apply Em|exact Hr].
  - destruct d as [|y [|z d]]; auto. destruct (memb N.eqb y pre) eqn:Em; auto. right. intros Hr z [Hz|[]]. subst z.
    apply (memb_In _ _ N_eqb_iff) in Em. assert (Hy : In y ks) by (rewrite A0; apply in_app_iff; auto).
    apply Hks in Hy. eapply to_insert_accepted; [apply Hy|exact Hr].
Qed.

Lemma rep_step_sub : forall r o c, wf_rep r ->
  match o with OpAddChar _ _ _ _ _ _ | OpAddRange _ _ _ _ _ _ _ _ => False | _ => True end ->
  lk (fst (rep_step r o)) c <> None -> lk r c <> None.
Proof.
  intros r o c Hwf Ho H. pose proof (step_refines r (abst r) o (agree_abst r Hwf)) as HS.
  destruct (rep_step r o) as [r1 x]. destruct (a_step (abst r) o) as [a1 y] eqn:E.
  destruct HS as [[_ [Hlk _]] _]. simpl in H. rewrite Hlk in H.
  destruct o as [? ? ? ? ? ?|d| ? ? ? ? ? ? ? ?|f l|d v|d v w nw|ref|t]; try contradiction; unfold a_step in E; simpl in E.
  - destruct d as [|d0 d]; [injection E as E1 E2; subst; exact H|].
    destruct (lk r (d0 :: d)); injection E as E1 E2; subst; simpl in H; auto.
    unfold upd in H. destruct (cps_eqb c (d0 :: d)); congruence.
  - destruct (N.ltb f l); [|injection E as E1 E2; subst; exact H].
    destruct (memb pair_eqb (f, l) (rep_ranges r)); [|injection E as E1 E2; subst; exact H].
    destruct (a_delete_range (lk r) (nrange f l)) as [m z] eqn:Ed.
    assert (Hm : forall c, m c <> None -> lk r c <> None).
    { clear - Ed. revert Ed. generalize (lk r). generalize (nrange f l). induction l0 as [|x l0 IH]; simpl; intros o Ed.
      - injection Ed as E1 E2. subst. auto.
      - destruct (o [x]) eqn:Eo; [|injection Ed as E1 E2; subst; auto].
        intros c0 Hc. specialize (IH _ Ed c0 Hc). unfold upd in IH. destruct (cps_eqb c0 [x]) eqn:Ec; [congruence|exact IH]. }
    apply Hm. destruct z; injection E as E1 E2; subst; exact H.
  - destruct d as [|d0 d]; [injection E as E1 E2; subst; exact H|].
    destruct (lk r (d0 :: d)) as [ch|] eqn:El; [|injection E as E1 E2; subst; exact H].
    destruct (char_add_variant ch v); injection E as E1 E2; subst; simpl in H; auto.
    unfold upd in H. destruct (cps_eqb c (d0 :: d)) eqn:Ec; [|auto]. apply cps_eqb_eq in Ec. subst. congruence.
  - destruct d as [|d0 d]; [injection E as E1 E2; subst; exact H|].
    destruct (lk r (d0 :: d)) as [ch|] eqn:El; [|injection E as E1 E2; subst; exact H].
    destruct (char_del_variant ch v w nw) as [[ch' b]|e]; injection E as E1 E2; subst; simpl in H; auto.
    unfold upd in H. destruct (cps_eqb c (d0 :: d)) eqn:Ec; [|auto]. apply cps_eqb_eq in Ec. subst. congruence.
  - injection E as E1 E2. subst. simpl in H. destruct (lk r c); simpl in H; congruence.
  - injection E as E1 E2. subst. simpl in H. destruct (lk r c); simpl in H; congruence.
Qed.

Lemma readd_sub : forall l r ch d, lk (fst (readd_loop r ch l)) d <> None ->
  lk r d <> None \/ exists x, d = [x] /\ In x l.
Proof.
  induction l as [|x l IH]; intros r ch d H; cbn [readd_loop] in H; [auto|].
  rewrite rep_add_char_lk in H by discriminate. destruct (lk r [x]) as [c0|] eqn:E; [auto|].
  apply IH in H. destruct H as [H|[y [H1 H2]]]; [|right; exists y; split; [auto|right; auto]].
  rewrite lk_ins in H by (cbn; auto; discriminate). cbn [ch_cp] in H. destruct (cps_eqb d [x]) eqn:E2; [|auto].
  apply cps_eqb_eq in E2. right. exists x. split; [auto|left; auto].
Qed.

Lemma expand_range_grows : forall g f l, wf_rep (lg_rep g) -> grows_ok g (fst (lgr_expand_range g f l)).
Proof.
  intros g f l Hwf. apply grows_ok_sub; [apply expand_range_db|]. intros c H. unfold lgr_expand_range in H.
  destruct (N.ltb l f); [exact H|]. destruct (bind _ _) as [ch|e]; [|exact H].
  pose proof (rep_step_sub (lg_rep g) (OpDelRange f l) c Hwf I) as Hsub. unfold rep_step in Hsub.
  destruct (rep_del_range (lg_rep g) f l) as [r x] eqn:Ed. cbn [fst] in Hsub.
  pose proof (rep_del_range_cases _ _ _ _ _ Hwf Ed) as Hc. destruct x as [u|e]; [|auto].
  pose proof (readd_sub (nrange f l) r ch c) as Hre. destruct (readd_loop r ch (nrange f l)) as [r' y].
  cbn [fst lg_rep set_rep] in *. destruct (Hre H) as [H1|[x [H1 H2]]]; [auto|]. subst. rewrite <- lookup_lk. apply Hc.
  apply nrange_In. exact H2.
Qed.

Lemma expand_loop_grows : forall l g, wf_rep (lg_rep g) -> grows_ok g (fst (expand_loop g l)).
Proof.
  induction l as [|[f la] l IH]; intros g Hwf; cbn [expand_loop]; [apply grows_ok_sub; auto|].
  pose proof (expand_range_grows g f la Hwf) as H. pose proof (rsteps_expand g f la) as Hs.
  destruct (lgr_expand_range g f la) as [g1 [u|e]]; auto. cbn [fst] in *.
  eapply grows_ok_trans; [exact H|]. apply IH. eapply rsteps_wf; eauto.
Qed.

Lemma add_collapsed_grows : forall l g cm rf tg, wf_rep (lg_rep g) -> grows_ok g (fst (add_collapsed g cm rf tg l)).
Proof.
  induction l as [|[f la] l IH]; intros g cm rf tg Hwf; cbn [add_collapsed]; [apply grows_ok_sub; auto|].
  destruct (N.eqb f la).
  - pose proof (add_cp_grows g [f] cm rf tg None None None false false) as H.
    pose proof (rsteps_lgr_add_cp g [f] cm rf tg None None None false false) as Hs.
    destruct (lgr_add_cp g [f] cm rf tg None None None false false) as [g1 [u|e]]; auto. cbn [fst] in *.
    eapply grows_ok_trans; [exact H|]. apply IH. eapply rsteps_wf; eauto.
  - pose proof (add_range_grows g f la cm rf tg None None None false false Hwf) as H.
    pose proof (rsteps_lgr_add_range g f la cm rf tg None None None false false) as Hs.
    destruct (lgr_add_range g f la cm rf tg None None None false false) as [g1 [u|e]]; auto. cbn [fst] in *.
    eapply grows_ok_trans; [exact H|]. apply IH. eapply rsteps_wf; eauto.
Qed.

Lemma step_grows : forall g o, wf_rep (lg_rep g) -> o <> LCopy -> grows_ok g (fst (lgr_step g o)).
Proof.
  intros g o Hwf Hc. pose proof (step_db g o Hc) as Hdb.
  destruct o as [c cm rf tg w nw vr ov fo|c|f l cm rf tg w nw vr ov fo|f l|f l| |c v ty w nw cm rf vr ov fo|c v w nw|l cm rf tg|v c id|ref|t|];
    unfold lgr_step in *.
  - pose proof (add_cp_grows g c cm rf tg w nw vr ov fo) as H. destruct (lgr_add_cp _ _ _ _ _ _ _ _ _ _). exact H.
  - apply grows_ok_sub; [exact Hdb|]. clear Hdb. intros d. unfold lgr_del_cp. destruct (check_convert g c) as [c1|e]; auto.
    destruct (rep_get_char (lg_rep g) c1); auto. pose proof (rep_step_sub (lg_rep g) (OpDelChar c1) d Hwf I) as H. unfold rep_step in H.
    destruct (rep_del_char (lg_rep g) c1) as [r [u|e]]; auto.
  - pose proof (add_range_grows g f l cm rf tg w nw vr ov fo Hwf) as H. destruct (lgr_add_range _ _ _ _ _ _ _ _ _ _ _). exact H.
  - apply grows_ok_sub; [exact Hdb|]. clear Hdb. intros d. unfold lgr_del_range. destruct (N.ltb l f); auto.
    pose proof (rep_step_sub (lg_rep g) (OpDelRange f l) d Hwf I) as H. unfold rep_step in H. destruct (rep_del_range (lg_rep g) f l); auto.
  - pose proof (expand_range_grows g f l Hwf) as H. destruct (lgr_expand_range g f l). exact H.
  - unfold lgr_expand_ranges. pose proof (expand_loop_grows (rep_ranges (lg_rep g)) g Hwf) as H.
    destruct (expand_loop g (rep_ranges (lg_rep g))). exact H.
  - apply grows_ok_sub; [exact Hdb|]. clear Hdb. intros d. unfold lgr_add_variant. destruct (bind _ _) as [[c1 v1]|e]; auto.
    destruct (_ && is_some nw)%bool; auto. destruct (check_validating vr ov fo c1 v1); auto.
    destruct (collect_refs (lg_refs g) fo rf) as [rs|e]; auto. destruct (has_dup rs && negb fo)%bool; auto.
    pose proof (rep_step_sub (lg_rep g) (OpAddVariant c1 (mkVariant v1 ty w nw cm rs)) d Hwf I) as H. unfold rep_step in H.
    destruct (rep_add_variant _ _ _) as [r [u|e]]; auto.
  - apply grows_ok_sub; [exact Hdb|]. clear Hdb. intros d. unfold lgr_del_variant. destruct (check_convert g c) as [c1|e]; auto.
    pose proof (rep_step_sub (lg_rep g) (OpDelVariant c1 v w nw) d Hwf I) as H. unfold rep_step in H.
    destruct (rep_del_variant _ _ _ _ _); auto.
  - unfold lgr_add_codepoints. destruct l as [|x l]; [apply grows_ok_sub; auto|]. destruct (collapse_codepoints (x :: l)) as [rs|e]; [|apply grows_ok_sub; auto].
    pose proof (add_collapsed_grows rs g cm rf tg Hwf) as H. destruct (add_collapsed g cm rf tg rs). exact H.
  - apply grows_ok_sub; [exact Hdb|]. unfold lgr_add_reference. destruct (rm_add (lg_refs g) v c id); auto.
  - apply grows_ok_sub; [exact Hdb|]. intro d. unfold lgr_del_reference. destruct (rm_del _ ref).
    apply (rep_step_sub (lg_rep g) (OpDelReference ref) d Hwf I).
  - apply grows_ok_sub; [exact Hdb|]. intro d. apply (rep_step_sub (lg_rep g) (OpDelTag t) d Hwf I).
  - congruence.
Qed.

Lemma copy_accepting : forall g, accepting (lgr_copy g).
Proof. intros g _ c x _ _ [d [Hd _]]. discriminate. Qed.

Lemma step_accepting : forall g o, wf_rep (lg_rep g) -> accepting g -> accepting (fst (lgr_step g o)).
Proof.
  intros g o Hwf Ha. assert (D : o = LCopy \/ o <> LCopy) by (destruct o; [right; discriminate..|left; reflexivity]).
  destruct D as [D|D]; [subst; apply copy_accepting|]. exact (grows_accepting g _ Ha (step_grows g o Hwf D)).
Qed.

Lemma accepting_new : forall db al, accepting (new_lgr db al).
Proof. intros db al _ [|x c] y H; exfalso; apply H; reflexivity. Qed.

Lemma reachable_accepting : forall g, lgr_reachable g -> accepting g.
Proof.
  intros g [db [al [ops H]]]. subst.
  assert (Hg : forall ops g, wf_rep (lg_rep g) -> accepting g -> accepting (fst (lgr_run g ops))).
  { clear ops. induction ops as [|o ops IH]; intros g Hwf Ha; simpl; auto.
    pose proof (step_accepting g o Hwf Ha) as Hg. pose proof (lgr_step_rsteps g o) as Hs.
    destruct (lgr_step g o) as [g1 x]. cbn [fst] in *. pose proof (rsteps_wf _ _ Hwf Hs) as Hwf1.
    specialize (IH g1 Hwf1 Hg). destruct (lgr_run g1 ops). exact IH. }
  apply Hg; [apply wf_empty|apply accepting_new].
Qed.

(** ** Tidy histories keep every range whole *)
Lemma add_cp_rinv : forall g c cm rf tg w nw vr ov fo, rinv (lg_rep g) ->
  rinv (lg_rep (fst (lgr_add_cp g c cm rf tg w nw vr ov fo))).
Proof.
  intros g c cm rf tg w nw vr ov fo Hr. destruct (add_cp_spec g c cm rf tg w nw vr ov fo) as [r [H1 H2]].
  destruct (lgr_add_cp g c cm rf tg w nw vr ov fo) as [g' x]. destruct r as [e|]; [destruct H2; subst; exact Hr|].
  destruct H2 as [_ [H2 [H3 [H4 _]]]]. simpl.
  apply (rinv_upd (lg_rep g) _ c (Some (mkChar c (kind_of c) cm (kept_refs g rf) tg w nw []))); auto.
  - intro d. destruct (cps_eqb d c) eqn:E; [apply cps_eqb_eq in E; subst; rewrite <- lookup_lk; exact H2|].
    rewrite <- !lookup_lk. apply H3. intro Hd. subst. rewrite cps_eqb_refl in E. discriminate.
  - rewrite H4. apply Permutation_refl.
  - intros ch f l Hc. exfalso. unfold add_cp_checks in H1. cbn [first_failing] in H1.
    do 8 (destruct H1 as [[e [_ H]]|[_ H1]]; [discriminate|]).
    destruct H1 as [[e [_ H]]|[H _]]; [discriminate|]. apply (H (CharAlreadyExists c)). split; auto.
    apply present_lk. congruence.
  - intros ch f l Hc. injection Hc as Hc. subst. simpl. apply kind_of_norange.
Qed.

Lemma add_range_ok_rinv : forall g f l cm rf tg w nw vr ov fo g', wf_rep (lg_rep g) -> rinv (lg_rep g) ->
  lgr_add_range g f l cm rf tg w nw vr ov fo = (g', Ok tt) -> rinv (lg_rep g').
Proof.
  intros g f l cm rf tg w nw vr ov fo g' Hwf Hr H.
  destruct (add_range_unfold g f l cm rf tg w nw vr ov fo) as [r [_ H2]].
  destruct r as [e|]; [congruence|]. destruct H2 as [ks [rs [Hs [Hks [Hex [Hf Heq]]]]]]. rewrite Heq in H.
  destruct (insert_ranges (lg_rep g) cm (kept_refs g rf) tg w nw rs) as [r' [[]|e]] eqn:Ei; [|discriminate].
  injection H as H. subst g'. rewrite fold_tags_rep. cbn [lg_rep set_rep].
  eapply insert_ranges_rinv; [exact Hwf|exact Hr| |exact Hf|exact Ei]. rewrite Hex. apply sorted_NoDup. exact Hs.
Qed.

Lemma add_collapsed_ok_rinv : forall l g cm rf tg g', wf_rep (lg_rep g) -> rinv (lg_rep g) ->
  add_collapsed g cm rf tg l = (g', Ok tt) -> rinv (lg_rep g').
Proof.
  induction l as [|[f la] l IH]; intros g cm rf tg g' Hwf Hr H; cbn [add_collapsed] in H.
  - injection H as H. subst. exact Hr.
  - destruct (N.eqb f la).
    + pose proof (add_cp_rinv g [f] cm rf tg None None None false false Hr) as H1.
      pose proof (rsteps_lgr_add_cp g [f] cm rf tg None None None false false) as Hs.
      destruct (lgr_add_cp g [f] cm rf tg None None None false false) as [g1 [u|e]]; [|discriminate]. cbn [fst] in *.
      eapply IH; [|exact H1|exact H]. eapply rsteps_wf; eauto.
    + pose proof (rsteps_lgr_add_range g f la cm rf tg None None None false false) as Hs.
      destruct (lgr_add_range g f la cm rf tg None None None false false) as [g1 [[]|e]] eqn:E; [|discriminate]. cbn [fst] in *.
      eapply IH; [| |exact H]; [eapply rsteps_wf; eauto|]. eapply add_range_ok_rinv; eauto.
Qed.

Lemma map_chars_rinv : forall h r, (forall c, ch_cp (h c) = ch_cp c) -> (forall c, ch_kind (h c) = ch_kind c) ->
  (forall (u : unit) k p, exists q, forall x, h (mkChar [x] k (ch_comment p) (ch_refs p) (ch_tags p) (ch_when p) (ch_not_when p) []) =
                      mkChar [x] k (ch_comment q) (ch_refs q) (ch_tags q) (ch_when q) (ch_not_when q) []) ->
  rinv r -> rinv (map_chars h r).
Proof.
  intros h r Hcp Hk Hh [R1 R2 R3]. split.
  - intros f l Hin. change (In (f, l) (rep_ranges r)) in Hin. destruct (R1 f l Hin) as [H1 [p H2]]. split; auto.
    destruct (Hh tt (KRange f l) p) as [q Hq]. exists q. intros x Hx. rewrite lk_map_chars by exact Hcp. rewrite H2 by exact Hx.
    simpl. rewrite Hq. reflexivity.
  - intros c ch f l Hc He. change (In (f, l) (rep_ranges r)). rewrite lk_map_chars in Hc by exact Hcp.
    destruct (lk r c) as [c0|] eqn:E; [|discriminate]. simpl in Hc. injection Hc as Hc. subst ch. rewrite Hk in He. eapply R2; eauto.
  - exact R3.
Qed.

Lemma put_rinv : forall r c ch ch', rinv r -> lk r c = Some ch -> is_range ch = false -> ch_cp ch' = c ->
  ch_kind ch' = ch_kind ch -> rinv (rep_put r c ch').
Proof.
  intros r c ch ch' Hr Hc Hk Hcp Hk'. apply (rinv_upd r _ c (Some ch')); auto.
  - intro d. apply lk_put; auto. congruence.
  - rewrite rep_put_ranges. apply Permutation_refl.
  - intros ch0 f l H. assert (ch0 = ch) by congruence. subst. unfold is_range in Hk. destruct (ch_kind ch); discriminate.
  - intros ch0 f l H. injection H as H. subst. unfold is_range in Hk. rewrite Hk'. destruct (ch_kind ch); discriminate.
Qed.

Lemma add_variant_rinv : forall r c v, rinv r -> rinv (fst (rep_add_variant r c v)).
Proof.
  intros r c v Hr. unfold rep_add_variant. destruct c as [|x t]; [exact Hr|].
  rewrite get_char_lk by discriminate. destruct (lk r (x :: t)) as [ch|] eqn:E; [|exact Hr].
  destruct (char_add_variant ch v) as [ch'|e] eqn:Ev; [|exact Hr]. simpl fst.
  unfold char_add_variant in Ev. destruct (is_range ch) eqn:Er; [discriminate|].
  eapply put_rinv; eauto.
  - destruct (v_cp v); [discriminate|]. destruct (dget _ _ _); [destruct (memb _ _ _); [discriminate|]|];
      injection Ev as Ev; subst; simpl; eapply lk_cp; exact E.
  - destruct (v_cp v); [discriminate|]. destruct (dget _ _ _); [destruct (memb _ _ _); [discriminate|]|];
      injection Ev as Ev; subst; reflexivity.
Qed.

Lemma del_variant_rinv : forall r c v w nw, rinv r -> rinv (fst (rep_del_variant r c v w nw)).
Proof.
  intros r c v w nw Hr. unfold rep_del_variant. destruct c as [|x t]; [exact Hr|].
  rewrite get_char_lk by discriminate. destruct (lk r (x :: t)) as [ch|] eqn:E; [|exact Hr].
  destruct (char_del_variant ch v w nw) as [[ch' b]|e] eqn:Ev; [|exact Hr]. simpl fst.
  unfold char_del_variant in Ev. destruct (is_range ch) eqn:Er; [discriminate|].
  assert (Hx : ch_cp ch' = ch_cp ch /\ ch_kind ch' = ch_kind ch).
  { destruct v as [|v0 v]; [discriminate|]. destruct (dget _ _ _); [|injection Ev as E1 E2; subst; auto].
    destruct (memb _ _ _); [|injection Ev as E1 E2; subst; auto].
    destruct (remove1 _ _ _); injection Ev as E1 E2; subst; auto. }
  destruct Hx as [Hx1 Hx2]. eapply put_rinv; eauto. rewrite Hx1. eapply lk_cp. exact E.
Qed.

Lemma expand_range_any_rinv : forall g f l, wf_rep (lg_rep g) -> rinv (lg_rep g) -> rinv (lg_rep (fst (lgr_expand_range g f l))).
Proof.
  intros g f l Hwf Hr. destruct (expand_range_rinv g f l Hwf Hr) as [[e H]|[r' [H [H1 _]]]]; rewrite H; auto.
Qed.

Lemma expand_loop_rinv : forall l g, wf_rep (lg_rep g) -> rinv (lg_rep g) -> rinv (lg_rep (fst (expand_loop g l))).
Proof.
  induction l as [|[f la] l IH]; intros g Hwf Hr; cbn [expand_loop]; auto.
  pose proof (expand_range_any_rinv g f la Hwf Hr) as H. pose proof (rsteps_expand g f la) as Hs.
  destruct (lgr_expand_range g f la) as [g1 [u|e]]; auto. cbn [fst] in *. apply IH; auto. eapply rsteps_wf; eauto.
Qed.

Lemma tidy_step_rinv : forall g o, wf_rep (lg_rep g) -> rinv (lg_rep g) -> tidy_op g o -> rinv (lg_rep (fst (lgr_step g o))).
Proof.
  intros g o Hwf Hr Ht. destruct o as [c cm rf tg w nw vr ov fo|c|f l cm rf tg w nw vr ov fo|f l|f l| |c v ty w nw cm rf vr ov fo|c v w nw|l cm rf tg|v c id|ref|t|];
    unfold lgr_step in *; cbn [tidy_op lgr_step] in Ht.
  - pose proof (add_cp_rinv g c cm rf tg w nw vr ov fo Hr) as H. destruct (lgr_add_cp _ _ _ _ _ _ _ _ _ _). exact H.
  - unfold lgr_del_cp. destruct (check_convert g c) as [c1|e] eqn:Ec; auto. apply check_convert_id in Ec. destruct Ec as [Ec Hne]. subst c1.
    rewrite get_char_lk by exact Hne. destruct (lk (lg_rep g) c) as [ch|] eqn:E; auto.
    unfold rep_del_char. destruct c as [|x t]; [congruence|]. rewrite del_char_unfold, E. simpl fst. cbn [lg_rep del_cp_from_tag_classes set_tags set_rep].
    apply (rinv_upd (lg_rep g) _ (x :: t) None); auto.
    + intro d. apply lk_del. exact Hwf.
    + unfold del. destruct (remove1 _ _ _); apply Permutation_refl.
    + intros ch0 f l H. specialize (Ht ch0). rewrite lookup_lk in Ht. specialize (Ht H). unfold is_range in Ht. destruct (ch_kind ch0); discriminate.
    + intros ch0 f l H. discriminate.
  - destruct (lgr_add_range g f l cm rf tg w nw vr ov fo) as [g' [[]|e]] eqn:E; cbn [fst snd] in *.
    + eapply add_range_ok_rinv; eauto.
    + destruct Ht as [Ht|Ht]; [discriminate|]. subst. exact Hr.
  - unfold lgr_del_range. destruct (N.ltb l f); auto. destruct (del_range_rinv (lg_rep g) f l Hwf Hr) as [H _].
    destruct (rep_del_range (lg_rep g) f l); exact H.
  - pose proof (expand_range_any_rinv g f l Hwf Hr) as H. destruct (lgr_expand_range g f l). exact H.
  - unfold lgr_expand_ranges. pose proof (expand_loop_rinv (rep_ranges (lg_rep g)) g Hwf Hr) as H.
    destruct (expand_loop g (rep_ranges (lg_rep g))). exact H.
  - unfold lgr_add_variant. destruct (bind _ _) as [[c1 v1]|e]; auto.
    destruct (_ && is_some nw)%bool; auto. destruct (check_validating vr ov fo c1 v1); auto.
    destruct (collect_refs (lg_refs g) fo rf) as [rs|e]; auto. destruct (has_dup rs && negb fo)%bool; auto.
    pose proof (add_variant_rinv (lg_rep g) c1 (mkVariant v1 ty w nw cm rs) Hr) as H.
    destruct (rep_add_variant _ _ _) as [r [u|e]]; exact H.
  - unfold lgr_del_variant. destruct (check_convert g c) as [c1|e]; auto.
    pose proof (del_variant_rinv (lg_rep g) c1 v w nw Hr) as H. destruct (rep_del_variant _ _ _ _ _); exact H.
  - unfold lgr_add_codepoints in *. destruct l as [|x l]; auto. destruct (collapse_codepoints (x :: l)) as [rs|e]; auto.
    destruct (add_collapsed g cm rf tg rs) as [g' [[]|e]] eqn:E; cbn [fst snd] in *.
    + eapply add_collapsed_ok_rinv; eauto.
    + destruct Ht as [Ht|Ht]; [discriminate|]. subst. exact Hr.
  - unfold lgr_add_reference. destruct (rm_add (lg_refs g) v c id); auto.
  - unfold lgr_del_reference. destruct (rm_del _ ref). cbn [fst lg_rep set_refs set_rep]. apply map_chars_rinv; auto.
    intros _ k p. exists (mkChar [] KChar (ch_comment p) (remove1 String.eqb ref (ch_refs p)) (ch_tags p) (ch_when p) (ch_not_when p) []). intro x. reflexivity.
  - cbn [fst lgr_del_tag lg_rep set_tags set_rep]. apply map_chars_rinv; auto.
    intros _ k p. exists (mkChar [] KChar (ch_comment p) (ch_refs p) (remove1 String.eqb t (ch_tags p)) (ch_when p) (ch_not_when p) []). intro x. reflexivity.
  - exact Hr.
Qed.

Lemma tidy_reachable : forall g, tidy g -> lgr_reachable g.
Proof.
  intros g H. induction H as [db al|g o H IH Ho]; [exists db, al, []; reflexivity|]. apply lgr_reachable_step. exact IH.
Qed.
Lemma tidy_rinv : forall g, tidy g -> rinv (lg_rep g).
Proof.
  intros g H. induction H as [db al|g o H IH Ho]; [apply rinv_empty|]. apply tidy_step_rinv; auto.
  apply lgr_reachable_wf. apply tidy_reachable. exact H.
Qed.

(** ** C10 *)
Lemma expand_loop_spec : forall l g, wf_rep (lg_rep g) -> rinv (lg_rep g) -> accepting g ->
  Permutation l (rep_ranges (lg_rep g)) ->
  exists r', expand_loop g l = (set_rep g r', Ok tt) /\ rep_ranges r' = [] /\
    forall d, lk r' d = option_map single (lk (lg_rep g) d).
Proof.
  induction l as [|[f la] l IH]; intros g Hwf Hr Ha Hp.
  - exists (lg_rep g). simpl. rewrite set_rep_id. apply Permutation_nil in Hp. split; auto. split; auto.
    intro d. destruct (lk (lg_rep g) d) as [ch|] eqn:E; auto. simpl. f_equal. unfold single.
    destruct (ch_kind ch) as [| |f l] eqn:Ek; [destruct ch; simpl in *; congruence|destruct ch; simpl in *; congruence|].
    exfalso. pose proof (ri_reg _ Hr d ch f l E Ek) as Hin. rewrite Hp in Hin. contradiction.
  - cbn [expand_loop]. assert (Hin : In (f, la) (rep_ranges (lg_rep g))) by (eapply Permutation_in; [exact Hp|left; reflexivity]).
    destruct (ri_mem _ Hr f la Hin) as [Hfl [p Hm]].
    destruct (expand_range_rinv g f la Hwf Hr) as [[e He]|[r1 [H1 [H2 [_ [H3 H4]]]]]].
    + exfalso. unfold lgr_expand_range in He. destruct (N.ltb_spec la f); [lia|].
      assert (Hff : f <= f <= la) by lia. pose proof (Hm f Hff) as Hmf.
      rewrite (accepting_convert g [f] Ha) in He by (try discriminate; congruence). cbn [bind] in He.
      rewrite get_char_lk in He by discriminate. rewrite Hmf in He.
      destruct (rep_del_range_present (lg_rep g) f la Hwf Hfl Hin) as [r' [D1 [D2 _]]].
      { intros c Hc. rewrite lookup_lk, (Hm c Hc). discriminate. }
      rewrite D1 in He.
      match type of He with context [readd_loop r' ?ch _] => destruct (readd_loop_spec (nrange f la) r' ch (nrange_NoDup f la)) as [r2 [E1 _]] end.
      { intros x Hx. apply nrange_In in Hx. rewrite <- lookup_lk, D2. destruct (N.leb_spec f x), (N.leb_spec x la); simpl; auto; lia. }
      rewrite E1 in He. discriminate.
    + rewrite H1. destruct (IH (set_rep g r1)) as [r' [I1 [I2 I3]]].
      * pose proof (rsteps_expand g f la) as Hs. rewrite H1 in Hs. eapply rsteps_wf; eauto.
      * exact H2.
      * eapply grows_accepting; [exact Ha|]. pose proof (expand_range_grows g f la Hwf) as Hg. rewrite H1 in Hg. exact Hg.
      * cbn [lg_rep set_rep]. eapply Permutation_cons_inv. eapply perm_trans; [exact Hp|exact H4].
      * exists r'. split; [rewrite I1; reflexivity|]. split; auto. intro d. rewrite I3. cbn [lg_rep set_rep]. rewrite H3.
        destruct d as [|x [|y d]]; auto. destruct (N.leb f x && N.leb x la)%bool; auto.
        destruct (lk (lg_rep g) [x]) as [ch|]; auto. simpl. f_equal. unfold single. simpl. destruct (ch_kind ch); reflexivity.
Qed.

Theorem expand_ranges_spec : forall g, tidy g ->
  let '(g', x) := lgr_expand_ranges g in
  x = Ok tt /\ rep_ranges (lg_rep g') = [] /\
  (forall c, lookup (lg_rep g') c = option_map single (lookup (lg_rep g) c)) /\
  lg_tags g' = lg_tags g /\ lg_refs g' = lg_refs g /\ lg_types g' = lg_types g.
Proof.
  intros g Ht. pose proof (tidy_reachable g Ht) as Hre.
  destruct (expand_loop_spec (rep_ranges (lg_rep g)) g (lgr_reachable_wf g Hre) (tidy_rinv g Ht) (reachable_accepting g Hre) (Permutation_refl _))
    as [r' [H1 [H2 H3]]].
  unfold lgr_expand_ranges. rewrite H1. split; auto. split; auto. split; auto. intro c. rewrite !lookup_lk. apply H3.
Qed.

Theorem expand_range_spec : forall g f l, tidy g ->
  let '(g', x) := lgr_expand_range g f l in
  (x = Ok tt /\ In (f, l) (rep_ranges (lg_rep g)) /\
   Permutation (rep_ranges (lg_rep g)) ((f, l) :: rep_ranges (lg_rep g')) /\
   (forall c, f <= c <= l -> lookup (lg_rep g') [c] = option_map single (lookup (lg_rep g) [c])) /\
   (forall d, (forall c, d = [c] -> ~ (f <= c <= l)) -> lookup (lg_rep g') d = lookup (lg_rep g) d)) \/
  ((exists e, x = Raise e) /\ g' = g).
Proof.
  intros g f l Ht. pose proof (tidy_reachable g Ht) as Hre.
  destruct (expand_range_rinv g f l (lgr_reachable_wf g Hre) (tidy_rinv g Ht)) as [[e He]|[r' [H1 [_ [H2 [H3 H4]]]]]].
  - rewrite He. right. eauto.
  - rewrite H1. left. cbn [lg_rep set_rep]. split; auto. split; auto. split; auto. split.
    + intros c Hc. rewrite !lookup_lk, H3. destruct (N.leb_spec f c), (N.leb_spec c l); simpl; auto; lia.
    + intros d Hd. rewrite !lookup_lk, H3. destruct d as [|c [|c2 d]]; auto.
      destruct (N.leb f c && N.leb c l)%bool eqn:E; auto. exfalso. apply (Hd c eq_refl).
      apply andb_true_iff in E. rewrite !N.leb_le in E. exact E.
Qed.

Definition lrange (f l : N) (tags : list string) := LAddRange f l None [] tags None None None false false.
(** After deleting one member of a range, expansion fails and drops entries. *)
Lemma expand_not_preserving :
  exists ops, let g := fst (lgr_run (new_lgr None true) ops) in
    snd (lgr_expand_ranges g) = Raise (NotInLGR [2]) /\
    exists c, lookup (lg_rep g) c <> None /\ lookup (lg_rep (fst (lgr_expand_ranges g))) c = None.
Proof.
  exists [lrange 1 3 []; LDelCp [2]]. cbv zeta. split; [vm_compute; reflexivity|].
  exists [1]. split; [vm_compute; discriminate|vm_compute; reflexivity].
Qed.
