(** Range insertion and deletion at repertoire level. *)
From Verif Require Import Base BaseFacts CharModel RepSpec RepProofs VariantProofs IterProofs.

(** Outcome of the abstract insertion loop. *)
Lemma a_insert_range_spec : forall mk l m m' x,
  NoDup l -> a_insert_range m mk l = (m', x) ->
  (x = OutUnit /\ (forall c, In c l -> m [c] = None) /\
   (forall d, m' d = match d with
                     | [c] => if memb N.eqb c l then Some (mk c) else m d
                     | _ => m d end))
  \/
  (exists l1 c l2, l = l1 ++ c :: l2 /\ x = OutExn (CharAlreadyExists [c]) /\ m [c] <> None /\
     (forall c', In c' l1 -> m [c'] = None) /\
     (forall d, m' d = match d with
                     | [c'] => if memb N.eqb c' l1 then Some (mk c') else m d
                     | _ => m d end)).
Proof.
  intros mk l. induction l as [|c l IH]; simpl; intros m m' x Hnd H.
  - left. injection H as H1 H2. subst. split; [reflexivity|]. split; [intros; contradiction|].
    intros [|d [|e d0]]; reflexivity.
  - inversion Hnd as [|? ? Hni Hnd']; subst. destruct (m [c]) eqn:Em.
    + injection H as H1 H2. subst. right. exists [], c, l. simpl. repeat split; auto; try congruence.
      * intros; contradiction.
      * intros [|d [|e d0]]; reflexivity.
    + assert (Hupd : forall c' , c' <> c -> upd m [c] (Some (mk c)) [c'] = m [c']).
      { intros c' Hc. unfold upd. destruct (cps_eqb [c'] [c]) eqn:E; auto.
        apply cps_eqb_eq in E. congruence. }
      assert (Hupdl : forall d, match d with [_] => False | _ => True end -> upd m [c] (Some (mk c)) d = m d).
      { intros d Hd. unfold upd. destruct (cps_eqb d [c]) eqn:E; auto.
        apply cps_eqb_eq in E. subst. contradiction. }
      assert (Hself : upd m [c] (Some (mk c)) [c] = Some (mk c)).
      { unfold upd. rewrite cps_eqb_refl. reflexivity. }
      assert (Hm : forall c' (l0 : list N), memb N.eqb c' (c :: l0) = (N.eqb c' c || memb N.eqb c' l0)%bool).
      { reflexivity. }
      apply IH in H; auto. destruct H as [[H1 [H2 H3]]|[l1 [c0 [l2 [H1 [H2 [H3 [H4 H5]]]]]]]].
      * left. repeat split; auto.
        -- intros c' [Hc|Hc]; [subst; auto|]. rewrite <- Hupd; [apply H2; exact Hc|congruence].
        -- intro d. rewrite H3. destruct d as [|d [|e d0]]; try (apply Hupdl; exact I).
           rewrite Hm. destruct (N.eqb d c) eqn:E; simpl.
           ++ apply N.eqb_eq in E. subst d.
              destruct (memb N.eqb c l) eqn:E'; auto.
           ++ destruct (memb N.eqb d l); auto. apply Hupd. apply N.eqb_neq. exact E.
      * right. subst l. exists (c :: l1), c0, l2. simpl.
        assert (Hc0 : c0 <> c).
        { intro Hc. subst. apply Hni. apply in_app_iff. right. left. reflexivity. }
        repeat split; auto.
        -- rewrite <- Hupd; auto.
        -- intros c' [Hc|Hc]; [subst; auto|]. rewrite <- Hupd; [apply H4; exact Hc|].
           intro Hx. subst. apply Hni. apply in_app_iff. left. exact Hc.
        -- intro d. rewrite H5. destruct d as [|d [|e d0]]; try (apply Hupdl; exact I).
           rewrite Hm. destruct (N.eqb d c) eqn:E; simpl.
           ++ apply N.eqb_eq in E. subst d.
              destruct (memb N.eqb c l1) eqn:E'; auto.
           ++ destruct (memb N.eqb d l1); auto. apply Hupd. apply N.eqb_neq. exact E.
Qed.

Lemma a_delete_range_spec : forall l m m' x,
  NoDup l -> a_delete_range m l = (m', x) ->
  (x = OutUnit /\ (forall c, In c l -> m [c] <> None) /\
   (forall d, m' d = match d with
                     | [c] => if memb N.eqb c l then None else m d
                     | _ => m d end))
  \/
  (exists l1 c l2, l = l1 ++ c :: l2 /\ x = OutExn (NotInLGR [c]) /\ m [c] = None /\
     (forall c', In c' l1 -> m [c'] <> None) /\
     (forall d, m' d = match d with
                     | [c'] => if memb N.eqb c' l1 then None else m d
                     | _ => m d end)).
Proof.
  intros l. induction l as [|c l IH]; simpl; intros m m' x Hnd H.
  - left. injection H as H1 H2. subst. split; [reflexivity|]. split; [intros; contradiction|].
    intros [|d [|e d0]]; reflexivity.
  - inversion Hnd as [|? ? Hni Hnd']; subst. destruct (m [c]) as [ch|] eqn:Em.
    + assert (Hupd : forall c' , c' <> c -> upd m [c] None [c'] = m [c']).
      { intros c' Hc. unfold upd. destruct (cps_eqb [c'] [c]) eqn:E; auto.
        apply cps_eqb_eq in E. congruence. }
      assert (Hupdl : forall d, match d with [_] => False | _ => True end -> upd m [c] None d = m d).
      { intros d Hd. unfold upd. destruct (cps_eqb d [c]) eqn:E; auto.
        apply cps_eqb_eq in E. subst. contradiction. }
      assert (Hself : upd m [c] None [c] = None).
      { unfold upd. rewrite cps_eqb_refl. reflexivity. }
      assert (Hm : forall c' (l0 : list N), memb N.eqb c' (c :: l0) = (N.eqb c' c || memb N.eqb c' l0)%bool).
      { reflexivity. }
      apply IH in H; auto. destruct H as [[H1 [H2 H3]]|[l1 [c0 [l2 [H1 [H2 [H3 [H4 H5]]]]]]]].
      * left. repeat split; auto.
        -- intros c' [Hc|Hc]; [subst; congruence|]. rewrite <- Hupd; [apply H2; exact Hc|congruence].
        -- intro d. rewrite H3. destruct d as [|d [|e d0]]; try (apply Hupdl; exact I).
           rewrite Hm. destruct (N.eqb d c) eqn:E; simpl.
           ++ apply N.eqb_eq in E. subst d. destruct (memb N.eqb c l) eqn:E'; auto.
           ++ destruct (memb N.eqb d l); auto. apply Hupd. apply N.eqb_neq. exact E.
      * right. subst l. exists (c :: l1), c0, l2. simpl.
        assert (Hc0 : c0 <> c).
        { intro Hc. subst. apply Hni. apply in_app_iff. right. left. reflexivity. }
        repeat split; auto.
        -- rewrite <- Hupd; auto.
        -- intros c' [Hc|Hc]; [subst; congruence|]. rewrite <- Hupd; [apply H4; exact Hc|].
           intro Hx. subst. apply Hni. apply in_app_iff. left. exact Hc.
        -- intro d. rewrite H5. destruct d as [|d [|e d0]]; try (apply Hupdl; exact I).
           rewrite Hm. destruct (N.eqb d c) eqn:E; simpl.
           ++ apply N.eqb_eq in E. subst d. destruct (memb N.eqb c l1) eqn:E'; auto.
           ++ destruct (memb N.eqb d l1); auto. apply Hupd. apply N.eqb_neq. exact E.
    + injection H as H1 H2. subst. right. exists [], c, l. simpl.
      split; [reflexivity|]. split; [reflexivity|]. split; [exact Em|]. split.
      * intros c' [].
      * intros [|d [|e d0]]; reflexivity.
Qed.

Lemma memb_nrange : forall c f l, memb N.eqb c (nrange f l) = (N.leb f c && N.leb c l)%bool.
Proof.
  intros c f l. destruct (memb N.eqb c (nrange f l)) eqn:E.
  - apply (memb_In _ _ N_eqb_iff) in E. apply nrange_In in E.
    symmetry. apply andb_true_iff. rewrite !N.leb_le. exact E.
  - apply (memb_false _ _ N_eqb_iff) in E. rewrite nrange_In in E. symmetry.
    apply andb_false_iff. rewrite !N.leb_gt. lia.
Qed.

Definition abst (r : repertoire) : astate := mkA (lk r) (rep_ranges r).
Lemma agree_abst : forall r, wf_rep r -> agree r (abst r).
Proof. intros r H. split; [exact H|]. split; simpl; auto. Qed.

(** Effect of add_range on lookups. *)
Theorem rep_add_range_spec : forall r f l cm rf tg w nw sk r' x,
  wf_rep r -> rep_add_range r f l cm rf tg w nw sk = (r', x) ->
  match x with
  | Ok _ =>
      f < l /\ (forall c, f <= c <= l -> lookup r [c] = None) /\
      (forall d, lookup r' d =
         match d with
         | [c] => if N.leb f c && N.leb c l
                  then Some (mkChar [c] (KRange f l) cm rf tg w nw []) else lookup r d
         | _ => lookup r d
         end) /\
      Permutation (rep_ranges r') ((f, l) :: rep_ranges r)
  | Raise e =>
      (e = AssertionError /\ ~ f < l /\ r' = r) \/
      (e = RangeAlreadyExists f l /\ (forall d, lookup r' d = lookup r d) /\
       Permutation (rep_ranges r') (rep_ranges r)) \/
      (exists c, e = CharAlreadyExists [c] /\ f <= c <= l /\ lookup r [c] <> None /\
         (forall c', f <= c' < c -> lookup r [c'] = None) /\
         (forall d, lookup r' d =
           match d with
           | [c'] => if N.leb f c' && N.ltb c' c
                     then Some (mkChar [c'] (KRange f l) cm rf tg w nw []) else lookup r d
           | _ => lookup r d
           end) /\
         Permutation (rep_ranges r') (rep_ranges r))
  end.
Proof.
  intros r f l cm rf tg w nw sk r' x Hwf H.
  destruct (N.ltb_spec f l) as [Hfl|Hfl].
  2:{ unfold rep_add_range in H. destruct (N.ltb_spec f l); [lia|]. injection H as H1 H2. subst.
      left. repeat split; auto. lia. }
  pose proof (step_refines r (abst r) (OpAddRange f l cm rf tg w nw sk) (agree_abst r Hwf)) as HS.
  unfold rep_step in HS. rewrite H in HS.
  unfold a_step in HS. destruct (N.ltb_spec f l) as [_|]; [|lia].
  destruct (negb sk && existsb (detected f l) (a_ranges (abst r))).
  - destruct HS as [[_ [Hlk Hrg]] Hout]. destruct x as [u|e]; [discriminate|]. simpl in Hout.
    injection Hout as Hout. subst e. right. left. split; [reflexivity|]. split.
    + intro d. rewrite !lookup_lk. apply Hlk.
    + exact Hrg.
  - destruct (a_insert_range (a_map (abst r)) (fun c => mkChar [c] (KRange f l) cm rf tg w nw []) (nrange f l)) as [m y] eqn:Ei.
    apply a_insert_range_spec in Ei; [|apply nrange_NoDup].
    destruct Ei as [[H1 [H2 H3]]|[l1 [c0 [l2 [H1 [H2 [H3 [H4 H5]]]]]]]].
    + subst y. destruct HS as [[_ [Hlk Hrg]] Hout]. destruct x as [u|e]; [|discriminate].
      split; [exact Hfl|]. split; [|split].
      * intros c Hc. rewrite lookup_lk. apply H2. apply nrange_In. exact Hc.
      * intro d. rewrite !lookup_lk, Hlk. simpl. rewrite H3. destruct d as [|d [|e d0]]; auto.
        rewrite memb_nrange. destruct (N.leb f d && N.leb d l)%bool; rewrite ?lookup_lk; reflexivity.
      * exact Hrg.
    + subst y. destruct HS as [[_ [Hlk Hrg]] Hout]. destruct x as [u|e]; [discriminate|].
      simpl in Hout. injection Hout as Hout. subst e. right. right. exists c0.
      assert (Hin : In c0 (nrange f l)) by (rewrite H1; apply in_app_iff; simpl; auto).
      apply nrange_In in Hin.
      assert (Hl1 : forall c', In c' l1 <-> f <= c' < c0).
      { assert (Hgen : forall ll a b x y, nrange a b = ll ++ x :: y -> forall z, In z ll <-> a <= z < x).
        { induction ll as [|z0 ll IHl]; intros a b x0 y Hr z.
          - simpl in Hr. split; [contradiction|]. intro Hz.
            destruct (N.leb_spec a b).
            + rewrite nrange_cons in Hr by assumption. injection Hr as Hr1 _. lia.
            + rewrite nrange_empty in Hr by assumption. discriminate.
          - destruct (N.leb_spec a b).
            + rewrite nrange_cons in Hr by assumption. simpl in Hr. injection Hr as Hr1 Hr2. subst z0.
              specialize (IHl _ _ _ _ Hr2 z). simpl. rewrite IHl.
              assert (Hx : In x0 (nrange (a + 1) b)) by (rewrite Hr2; apply in_app_iff; simpl; auto).
              apply nrange_In in Hx. lia.
            + rewrite nrange_empty in Hr by assumption. discriminate. }
        intro c'. apply (Hgen l1 f l c0 l2 H1). }
      split; [reflexivity|]. split; [exact Hin|]. split; [|split; [|split]].
      * rewrite lookup_lk. exact H3.
      * intros c' Hc'. rewrite lookup_lk. apply H4. apply Hl1. exact Hc'.
      * intro d. rewrite !lookup_lk, Hlk. simpl. rewrite H5. destruct d as [|d [|e d0]]; auto.
        destruct (memb N.eqb d l1) eqn:E.
        -- apply (memb_In _ _ N_eqb_iff) in E. apply Hl1 in E.
           destruct (N.leb_spec f d); destruct (N.ltb_spec d c0); try lia. reflexivity.
        -- apply (memb_false _ _ N_eqb_iff) in E. rewrite Hl1 in E.
           destruct (N.leb_spec f d); destruct (N.ltb_spec d c0); simpl; try lia; rewrite ?lookup_lk; reflexivity.
      * exact Hrg.
Qed.

(** Deletion of a range all of whose members are present. *)
Theorem rep_del_range_present : forall r f l,
  wf_rep r -> f < l -> In (f, l) (rep_ranges r) ->
  (forall c, f <= c <= l -> lookup r [c] <> None) ->
  exists r', rep_del_range r f l = (r', Ok tt) /\
    (forall d, lookup r' d =
       match d with
       | [c] => if N.leb f c && N.leb c l then None else lookup r d
       | _ => lookup r d
       end) /\
    Permutation (rep_ranges r) ((f, l) :: rep_ranges r').
Proof.
  intros r f l Hwf Hfl Hin Hall.
  pose proof (step_refines r (abst r) (OpDelRange f l) (agree_abst r Hwf)) as HS.
  unfold rep_step in HS. unfold a_step in HS. destruct (N.ltb_spec f l) as [_|]; [|lia].
  assert (Hm : memb pair_eqb (f, l) (a_ranges (abst r)) = true).
  { apply (memb_In _ _ pair_eqb_iff). exact Hin. }
  rewrite Hm in HS.
  destruct (rep_del_range r f l) as [r' x] eqn:E. exists r'.
  destruct (a_delete_range (a_map (abst r)) (nrange f l)) as [m y] eqn:Ed.
  apply a_delete_range_spec in Ed; [|apply nrange_NoDup].
  destruct Ed as [[H1 [H2 H3]]|[l1 [c0 [l2 [H1 [H2 [H3 _]]]]]]].
  - subst y. destruct HS as [[_ [Hlk Hrg]] Hout]. destruct x as [[]|e]; [|discriminate].
    split; [reflexivity|]. split.
    + intro d. rewrite !lookup_lk, Hlk. simpl. rewrite H3. destruct d as [|d [|e d0]]; auto.
      rewrite memb_nrange. destruct (N.leb f d && N.leb d l)%bool; rewrite ?lookup_lk; reflexivity.
    + simpl in Hrg. clear - Hrg Hin. apply Permutation_sym.
      eapply perm_trans; [constructor; exact Hrg|].
      clear Hrg. induction (rep_ranges r) as [|p ps IH]; simpl in *; [contradiction|].
      destruct (pair_eqb (f, l) p) eqn:E.
      * apply pair_eqb_iff in E. subst. apply Permutation_refl.
      * destruct Hin as [Hin|Hin].
        -- subst. assert (pair_eqb (f, l) (f, l) = true) by (apply pair_eqb_iff; reflexivity). congruence.
        -- eapply perm_trans; [apply perm_swap|]. constructor. apply IH. exact Hin.
  - exfalso. assert (Hin0 : In c0 (nrange f l)) by (rewrite H1; apply in_app_iff; simpl; auto).
    apply nrange_In in Hin0. specialize (Hall c0 Hin0). rewrite lookup_lk in Hall. apply Hall. exact H3.
Qed.

(** General form: what del_range does in every case. *)
Theorem rep_del_range_cases : forall r f l r' x, wf_rep r -> rep_del_range r f l = (r', x) ->
  match x with
  | Ok _ => f < l /\ In (f, l) (rep_ranges r) /\ (forall c, f <= c <= l -> lookup r [c] <> None)
  | Raise e => (r' = r /\ (e = AssertionError \/ e = NotInLGR [f])) \/
               (exists c, f <= c <= l /\ e = NotInLGR [c] /\ lookup r [c] = None)
  end.
Proof.
  intros r f l r' x Hwf H. unfold rep_del_range in H.
  destruct (N.ltb_spec f l) as [Hfl|Hfl].
  2:{ injection H as H1 H2. subst. auto. }
  destruct (memb pair_eqb (f, l) (rep_ranges r)) eqn:Em.
  2:{ injection H as H1 H2. subst. auto. }
  apply (memb_In _ _ pair_eqb_iff) in Em.
  pose proof (del_range_loop_refines (nrange f l) r (lk r) Hwf (fun c => eq_refl)) as HL.
  destruct (del_range_loop r (nrange f l)) as [r2 x2].
  destruct (a_delete_range (lk r) (nrange f l)) as [m y] eqn:Ed.
  destruct HL as [_ [_ [_ Hxy]]].
  apply a_delete_range_spec in Ed; [|apply nrange_NoDup].
  destruct Ed as [[H1 [H2 H3]]|[l1 [c0 [l2 [H1 [H2 [H3 _]]]]]]].
  - subst y. destruct x2 as [u|e]; [|discriminate]. injection H as Ha Hb. subst.
    repeat split; auto. intros c Hc. rewrite lookup_lk. apply H2. apply nrange_In. exact Hc.
  - subst y. destruct x2 as [u|e]; [discriminate|]. injection H as Ha Hb. subst. simpl in Hxy.
    injection Hxy as Hxy. subst e. right. exists c0. repeat split; auto.
    + assert (Hin0 : In c0 (nrange f l)) by (rewrite H1; apply in_app_iff; simpl; auto).
      apply nrange_In in Hin0. lia.
    + assert (Hin0 : In c0 (nrange f l)) by (rewrite H1; apply in_app_iff; simpl; auto).
      apply nrange_In in Hin0. lia.
    + rewrite lookup_lk. exact H3.
Qed.

(** ** Counter-examples *)
Definition addr (f l : N) := OpAddRange f l None [] [] None None false.
Definition addc (c : cps) := OpAddChar c None [] [] None None.

(** del_range after deletion of one member: raises and has deleted 1. *)
Lemma del_range_not_atomic :
  exists ops f l, let r := fst (rep_run empty_rep ops) in
    In (f, l) (rep_ranges r) /\
    exists e, snd (rep_del_range r f l) = Raise e /\
    exists c, lookup r c <> None /\ lookup (fst (rep_del_range r f l)) c = None.
Proof.
  exists [addr 1 3; OpDelChar [2]], 1, 3. cbv zeta. split; [vm_compute; auto|].
  exists (NotInLGR [2]). split; [vm_compute; reflexivity|].
  exists [1]. split; vm_compute; [discriminate|reflexivity].
Qed.

(** A range strictly containing an existing one is not detected: members
    before the collision stay inserted although the call raises. *)
Lemma overlap_not_atomic :
  exists ops f l rf rl, let r := fst (rep_run empty_rep ops) in
    In (rf, rl) (rep_ranges r) /\ f <= rf /\ rl <= l /\
    snd (rep_add_range r f l None [] [] None None false) = Raise (CharAlreadyExists [rf]) /\
    exists c, lookup r c = None /\
              lookup (fst (rep_add_range r f l None [] [] None None false)) c <> None.
Proof.
  exists [addr 5 6], 1, 10, 5, 6. cbv zeta. split; [vm_compute; auto|]. split; [lia|]. split; [lia|].
  split; [vm_compute; reflexivity|]. exists [1]. split; vm_compute; [reflexivity|discriminate].
Qed.

(** ... and is even accepted when the members of the inner one were deleted:
    two overlapping ranges are then registered. *)
Lemma overlap_accepted :
  exists ops f l rf rl, let r := fst (rep_run empty_rep ops) in
    In (rf, rl) (rep_ranges r) /\ f < rf /\ rl < l /\
    snd (rep_add_range r f l None [] [] None None false) = Ok tt.
Proof.
  exists [addr 5 6; OpDelChar [5]; OpDelChar [6]], 1, 10, 5, 6. cbv zeta.
  split; [vm_compute; auto|]. split; [lia|]. split; [lia|]. vm_compute. reflexivity.
Qed.

(** Iteration misses live entries once ranges are stale. *)
Lemma iter_incomplete :
  exists ops c f l, let r := fst (rep_run empty_rep ops) in
    In c (all_chars r) /\ ch_kind c = KRange f l /\ In (f, l) (rep_ranges r) /\
    (forall d, In d (rep_iter r) -> ch_kind d <> KRange f l).
Proof.
  exists [addr 5 6; addr 1 10].
  exists (mkChar [5] (KRange 5 6) None [] [] None None []), 5, 6.
  cbv zeta. split; [vm_compute; tauto|]. split; [reflexivity|]. split; [vm_compute; tauto|].
  intros d Hd. vm_compute in Hd. intuition (subst; discriminate).
Qed.
