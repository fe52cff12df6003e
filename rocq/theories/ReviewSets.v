(** Proofs about the review of classes and actions. *)
From Coq Require Import Permutation Lia.
From Verif Require Import Base BaseFacts CharModel ActionModel LgrModel CompareModel CompareSpec CompareProofs CompareFinal ReviewModel ReviewSpec.
Open Scope string_scope.
Open Scope list_scope.

(** ** Classes *)
Lemma inter_In : forall a b x, In x (nset_inter a b) <-> In x a /\ In x b.
Proof. intros. unfold nset_inter. apply (set_inter_In _ N_eqb_iff). Qed.
Lemma diff_In : forall a b x, In x (nset_diff a b) <-> In x a /\ ~ In x b.
Proof. intros. unfold nset_diff. apply (set_diff_In _ N_eqb_iff). Qed.
Lemma xor_In : forall a b x, In x (nset_xor a b) <-> (In x a /\ ~ In x b) \/ (In x b /\ ~ In x a).
Proof. intros. unfold nset_xor. rewrite (set_union_In _ N_eqb_iff), !diff_In. reflexivity. Qed.
Lemma nonempty_iff : forall {A} (l : list A), nonempty l = true <-> exists x, In x l.
Proof. intros A [|x l]; cbn; split; [discriminate | intros (x & []) | intros _; exists x; left; reflexivity | reflexivity]. Qed.
Lemma nonempty_false : forall {A} (l : list A), nonempty l = false <-> forall x, ~ In x l.
Proof. intros A [|x l]; cbn; split; intros H; [intros ? [] | reflexivity | discriminate H | destruct (H x); left; reflexivity]. Qed.
Lemma same_set_dec : forall a b : list N, nonempty (nset_xor a b) = false <-> same_set a b.
Proof.
  intros a b. rewrite nonempty_false. unfold same_set. split.
  - intros H x. specialize (H x). rewrite xor_In in H. destruct (in_dec N.eq_dec x a), (in_dec N.eq_dec x b); tauto.
  - intros H x Hx. apply xor_In in Hx. specialize (H x). tauto.
Qed.
Lemma disagreement_iff : forall idn ref ir rr,
  (if nonempty (nset_diff idn ref) then nonempty (nset_inter (nset_diff idn ref) rr) else false) = true \/
  (if nonempty (nset_diff ref idn) then nonempty (nset_inter (nset_diff ref idn) ir) else false) = true <-> disagreement idn ref ir rr.
Proof.
  intros idn ref ir rr. unfold disagreement.
  assert (G : forall a b c, (if nonempty (nset_diff a b) then nonempty (nset_inter (nset_diff a b) c) else false) = true <-> exists x, In x a /\ ~ In x b /\ In x c).
  { intros a b c. split.
    - destruct (nonempty (nset_diff a b)); [|discriminate]. rewrite nonempty_iff. intros (x & Hx). apply inter_In in Hx. rewrite diff_In in Hx. exists x. tauto.
    - intros (x & Ha & Hb & Hc). rewrite (proj2 (nonempty_iff (nset_diff a b))) by (exists x; apply diff_In; auto).
      apply nonempty_iff. exists x. apply inter_In. rewrite diff_In. auto. }
  rewrite !G. reflexivity.
Qed.

Lemma negb_nonempty : forall {A} (l : list A), negb (nonempty l) = true <-> l = [].
Proof. intros A [|x l]; cbn; split; intros H; congruence. Qed.
(** All outcomes of the review of a class. *)
Lemma class_cases : forall idn ref ir rr, incl idn ir -> incl ref rr ->
  (idn = [] /\ (forall x, In x ref -> ~ In x ir) /\ class_report idn ref ir rr = Ok None) \/
  exists r m, class_report idn ref ir rr = Ok (Some (r, m)) /\ (idn <> [] \/ exists x, In x ref /\ In x ir) /\
    ((r = RMatch /\ same_set idn ref) \/
     (r = RReview /\ idn <> [] /\ ref <> [] /\ disagreement idn ref ir rr) \/
     (r = RSubset /\ idn <> [] /\ ref <> [] /\ ~ disagreement idn ref ir rr /\ incl idn ref /\ ~ same_set idn ref) \/
     (r = RManual /\ ((idn = [] \/ ref = []) /\ ~ same_set idn ref \/ (~ disagreement idn ref ir rr /\ ~ incl idn ref)))).
Proof.
  intros idn ref ir rr Hi Hr. unfold class_report, class_result.
  pose proof (same_set_dec idn ref) as Sm. pose proof (disagreement_iff idn ref ir rr) as D.
  destruct (nonempty idn) eqn:Ei; cbn [negb andb].
  - right. apply nonempty_iff in Ei. destruct Ei as (x0 & Hx0). assert (Ni : idn <> []) by (intros ->; destruct Hx0).
    destruct (nonempty (nset_xor idn ref)) eqn:Ex; cbn [negb bind].
    2:{ do 2 eexists. split; [reflexivity|]. split; [left; exact Ni|]. left. split; [reflexivity | apply Sm; reflexivity]. }
    assert (NS : ~ same_set idn ref) by (intros H; apply Sm in H; congruence).
    destruct (nonempty ref) eqn:Er; cbn [negb].
    + assert (Nr : ref <> []) by (intros ->; discriminate Er).
      assert (I : nonempty (nset_diff idn ref) = false -> incl idn ref).
      { intros H x Hx. rewrite nonempty_false in H. specialize (H x). rewrite diff_In in H. destruct (in_dec N.eq_dec x ref); tauto. }
      assert (I' : nonempty (nset_diff idn ref) = true -> ~ incl idn ref).
      { intros H Hin. apply nonempty_iff in H. destruct H as (x & Hx). apply diff_In in Hx. apply (proj2 Hx), Hin, Hx. }
      destruct (if nonempty (nset_diff idn ref) then nonempty (nset_inter (nset_diff idn ref) rr) else false) eqn:Ea;
      destruct (if nonempty (nset_diff ref idn) then nonempty (nset_inter (nset_diff ref idn) ir) else false) eqn:Eb;
      try (do 2 eexists; split; [reflexivity|]; split; [left; exact Ni|]; right; left; split; [reflexivity|]; split; [exact Ni|]; split; [exact Nr|]; apply D; auto; fail).
      assert (ND : ~ disagreement idn ref ir rr) by (intros H; apply D in H; destruct H; congruence).
      destruct (nonempty (nset_diff idn ref)) eqn:Ed.
      * do 2 eexists. split; [reflexivity|]. split; [left; exact Ni|]. right. right. right. split; [reflexivity|]. right. split; [exact ND | exact (I' eq_refl)].
      * destruct (nonempty (nset_diff ref idn)) eqn:Ed'.
        -- do 2 eexists. split; [reflexivity|]. split; [left; exact Ni|]. right. right. left. repeat split; auto; apply I; reflexivity.
        -- exfalso. apply NS. intros x. rewrite nonempty_false in Ed'. specialize (Ed' x). rewrite diff_In in Ed'. split; [apply I; reflexivity|].
           intros Hx. destruct (in_dec N.eq_dec x idn); tauto.
    + pose proof (proj1 (nonempty_false ref) Er) as Er0. clear Er. rename Er0 into Er. assert (Er' : ref = []) by (destruct ref as [|y l]; [reflexivity | destruct (Er y); left; reflexivity]).
      destruct (nonempty (nset_inter idn rr)) eqn:E1.
      * do 2 eexists. split; [reflexivity|]. split; [left; exact Ni|]. right. right. right. split; [reflexivity|]. left. auto.
      * assert (E2 : nonempty (nset_xor idn rr) = true).
        { apply nonempty_iff. exists x0. apply xor_In. left. split; [exact Hx0|]. intros H. rewrite nonempty_false in E1. apply (E1 x0). apply inter_In. auto. }
        rewrite E2. do 2 eexists. split; [reflexivity|]. split; [left; exact Ni|]. right. right. right. split; [reflexivity|]. left. auto.
  - assert (Ei' : idn = []) by (destruct idn; [reflexivity | discriminate Ei]).
    destruct (nonempty (nset_inter ref ir)) eqn:E; cbn [negb].
    + right. apply nonempty_iff in E. destruct E as (x & Hx). apply inter_In in Hx.
      assert (E2 : nonempty (nset_xor idn ref) = true) by (apply nonempty_iff; exists x; apply xor_In; right; subst; split; [apply Hx | intros []]).
      rewrite E2. cbn [negb bind]. do 2 eexists. split; [reflexivity|]. split; [right; exists x; exact Hx|]. right. right. right. split; [reflexivity|].
      left. split; [auto|]. intros H. apply Sm in H. congruence.
    + left. split; [exact Ei'|]. split; [|reflexivity]. intros x Hx Hy. rewrite nonempty_false in E. apply (E x). apply inter_In. auto.
Qed.

(** ** Actions *)

Lemma same_action_sym' : forall a b, same_action a b -> same_action b a.
Proof.
  intros a b (H1 & H2 & H3 & H4 & H5 & H6). unfold same_action. repeat split; auto using same_types_sym.
Qed.
Lemma same_types_trans' : forall a b c, same_types a b -> same_types b c -> same_types a c.
Proof. intros [a|] [b|] [c|]; cbn; try contradiction; auto. intros H1 H2 t. rewrite H1. apply H2. Qed.
Lemma same_action_trans' : forall a b c, same_action a b -> same_action b c -> same_action a c.
Proof.
  intros a b c (H1 & H2 & H3 & H4 & H5 & H6) (G1 & G2 & G3 & G4 & G5 & G6). unfold same_action.
  repeat split; try congruence; eauto using same_types_trans'.
Qed.
Lemma dedup_aux_found : forall l seen a, found a l -> found a seen \/ found a (dedup_aux action_eqb seen l).
Proof.
  induction l as [|x l IH]; intros seen a (b & Hb & E); [destruct Hb|]. cbn [dedup_aux]. destruct Hb as [<- | Hb].
  - destruct (memb action_eqb x seen) eqn:M.
    + left. apply memb_action in M. destruct M as (y & Hy & Ey). exists y. split; [exact Hy | apply (same_action_trans' _ _ _ E Ey)].
    + right. exists x. split; [left; reflexivity | exact E].
  - destruct (memb action_eqb x seen) eqn:M.
    + apply IH. exists b. auto.
    + destruct (IH (x :: seen) a (ex_intro _ b (conj Hb E))) as [(y & [<- | Hy] & Ey) | (y & Hy & Ey)].
      * right. exists x. split; [left; reflexivity | exact Ey].
      * left. exists y. auto.
      * right. exists y. split; [right; exact Hy | exact Ey].
Qed.
Lemma dedup_aux_sub : forall {A} (eqb : A -> A -> bool) l seen x, In x (dedup_aux eqb seen l) -> In x l.
Proof.
  intros A eqb. induction l as [|y l IH]; intros seen x H; [exact H|]. cbn [dedup_aux] in H. destruct (memb eqb y seen); [right; eauto|].
  destruct H as [<- | H]; [left; reflexivity | right; eauto].
Qed.
Lemma matching_iff : forall idn ref a, memb action_eqb a (set_inter action_eqb idn ref) = true <-> found a idn /\ found a ref.
Proof.
  intros idn ref a. rewrite memb_action. unfold set_inter. split.
  - intros (b & Hb & E). apply filter_In in Hb. destruct Hb as [Hb M]. apply memb_action in M. destruct M as (c & Hc & Ec). split.
    + exists b. split; [apply (dedup_aux_sub _ _ _ _ Hb) | exact E].
    + exists c. split; [exact Hc | apply (same_action_trans' _ _ _ E Ec)].
  - intros [Hi (c & Hc & Ec)]. destruct (dedup_aux_found idn [] a Hi) as [(y & [] & _) | (b & Hb & E)].
    exists b. split; [|exact E]. apply filter_In. split; [exact Hb|]. apply memb_action. exists c. split; [exact Hc|].
    apply (same_action_trans' _ _ _ (same_action_sym' _ _ E) Ec).
Qed.
Lemma found_self : forall a l, In a l -> found a l.
Proof. intros a l H. exists a. split; [exact H | apply same_action_refl]. Qed.
Lemma found_iff : forall a l, memb action_eqb a l = true <-> found a l.
Proof. apply memb_action. Qed.
Lemma ordered_is : forall idn ref l, (forall a, In a l -> found a idn) ->
  filter (fun a => memb action_eqb a (set_inter action_eqb idn ref)) l = filter (fun a => memb action_eqb a ref) l.
Proof.
  intros idn ref l H. apply filter_ext_in. intros a Ha. specialize (H a Ha). destruct (memb action_eqb a ref) eqn:E.
  - apply matching_iff. split; [exact H | apply found_iff, E].
  - destruct (memb action_eqb a (set_inter action_eqb idn ref)) eqn:M; [|reflexivity]. apply matching_iff in M. destruct M as [_ M]. apply found_iff in M. congruence.
Qed.
Lemma ordered_is' : forall idn ref l, (forall a, In a l -> found a ref) ->
  filter (fun a => memb action_eqb a (set_inter action_eqb idn ref)) l = filter (fun a => memb action_eqb a idn) l.
Proof.
  intros idn ref l H. apply filter_ext_in. intros a Ha. specialize (H a Ha). destruct (memb action_eqb a idn) eqn:E.
  - apply matching_iff. split; [apply found_iff, E | exact H].
  - destruct (memb action_eqb a (set_inter action_eqb idn ref)) eqn:M; [|reflexivity]. apply matching_iff in M. destruct M as [M _]. apply found_iff in M. congruence.
Qed.
Definition shared_part (l other : list action) : list action := filter (fun a => memb action_eqb a other) l.
Lemma shared_found : forall l other a, In a l -> (memb action_eqb a (shared_part l other) = true <-> found a other).
Proof.
  intros l other a Ha. rewrite memb_action. unfold shared_part. split.
  - intros (b & Hb & E). apply filter_In in Hb. destruct Hb as [_ M]. apply memb_action in M. destruct M as (c & Hc & Ec).
    exists c. split; [exact Hc | apply (same_action_trans' _ _ _ E Ec)].
  - intros H. exists a. split; [|apply same_action_refl]. apply filter_In. split; [exact Ha | apply found_iff, H].
Qed.
Fixpoint eqs (a b : list action) : bool :=
  match a, b with [], [] => true | x :: a', y :: b' => if action_eqb x y then eqs a' b' else false | _, _ => false end.
Lemma eqs_iff : forall a b, eqs a b = true <-> Forall2 same_action a b.
Proof.
  induction a as [|x a IH]; intros [|y b]; cbn [eqs]; split; intros H; try discriminate H; try constructor; try (inversion H; fail).
  - destruct (action_eqb x y) eqn:E; [apply action_eqb_spec, E | discriminate H].
  - destruct (action_eqb x y); [apply IH, H | discriminate H].
  - inversion H; subst. rewrite (proj2 (action_eqb_spec x y)) by assumption. apply IH. assumption.
Qed.
Lemma actions_report_is : forall idn ref, actions_report idn ref =
  (map (fun p => if memb action_eqb (snd p) (shared_part idn ref) then mkActLine (fst p) true true RMatch else mkActLine (fst p) true false RManual) (numbered 1 idn)
   ++ flat_map (fun p => if memb action_eqb (snd p) (shared_part ref idn) then [] else [mkActLine (fst p) false true RManual]) (numbered 1 ref),
   match idn with [] => RManual | _ :: _ => if eqs (shared_part idn ref) (shared_part ref idn) then RMatch else RManual end).
Proof.
  intros idn ref. unfold actions_report. cbv zeta. rewrite (ordered_is idn ref idn) by (intros; apply found_self; assumption).
  rewrite (ordered_is' idn ref ref) by (intros; apply found_self; assumption). fold (shared_part idn ref). fold (shared_part ref idn). reflexivity.
Qed.
Lemma numbered_In : forall {A} (l : list A) n p, In p (numbered n l) <-> exists k, nth_error l k = Some (snd p) /\ fst p = (n + k)%nat.
Proof.
  induction l as [|x l IH]; intros n [q a]; cbn [numbered].
  - split; [intros [] | intros ([|k] & H & _); discriminate H].
  - cbn [In]. rewrite IH. cbn [fst snd]. split.
    + intros [E | (k & H & E)]; [injection E as <- <-; exists 0%nat; split; [reflexivity | lia] | exists (S k); split; [exact H | lia]].
    + intros ([|k] & H & E); [left; injection H as <-; f_equal; lia | right; exists k; split; [exact H | lia]].
Qed.
Lemma actions_lines : forall idn ref l, In l (fst (actions_report idn ref)) <->
  (exists k a, nth_error idn k = Some a /\ found a ref /\ l = mkActLine (S k) true true RMatch) \/
  (exists k a, nth_error idn k = Some a /\ ~ found a ref /\ l = mkActLine (S k) true false RManual) \/
  (exists k a, nth_error ref k = Some a /\ ~ found a idn /\ l = mkActLine (S k) false true RManual).
Proof.
  intros idn ref l. rewrite actions_report_is. cbn [fst]. rewrite in_app_iff, in_map_iff, in_flat_map. split.
  - intros [(p & E & Hp) | (p & Hp & E)]; apply numbered_In in Hp; destruct Hp as (k & Hk & Ek).
    + pose proof (shared_found idn ref (snd p) (nth_error_In _ _ Hk)) as F. destruct (memb action_eqb (snd p) (shared_part idn ref)).
      * left. exists k, (snd p). split; [exact Hk|]. split; [apply F; reflexivity|]. rewrite <- E, Ek. reflexivity.
      * right. left. exists k, (snd p). split; [exact Hk|]. split; [intros H; apply F in H; discriminate H|]. rewrite <- E, Ek. reflexivity.
    + pose proof (shared_found ref idn (snd p) (nth_error_In _ _ Hk)) as F. destruct (memb action_eqb (snd p) (shared_part ref idn)); [destruct E|].
      destruct E as [E | []]. right. right. exists k, (snd p). split; [exact Hk|]. split; [intros H; apply F in H; discriminate H|]. rewrite <- E, Ek. reflexivity.
  - intros [(k & a & Hk & F & ->) | [(k & a & Hk & F & ->) | (k & a & Hk & F & ->)]].
    + left. exists (S k, a). split; [|apply numbered_In; exists k; auto]. cbn [fst snd].
      rewrite (proj2 (shared_found idn ref a (nth_error_In _ _ Hk)) F). reflexivity.
    + left. exists (S k, a). split; [|apply numbered_In; exists k; auto]. cbn [fst snd].
      destruct (memb action_eqb a (shared_part idn ref)) eqn:M; [|reflexivity]. apply (shared_found idn ref a (nth_error_In _ _ Hk)) in M. contradiction.
    + right. exists (S k, a). split; [apply numbered_In; exists k; auto|]. cbn [fst snd].
      destruct (memb action_eqb a (shared_part ref idn)) eqn:M; [|left; reflexivity]. apply (shared_found ref idn a (nth_error_In _ _ Hk)) in M. contradiction.
Qed.
Lemma numbered_fst_lt : forall {A} (l : list A) n p, In p (numbered n l) -> (n <= fst p)%nat.
Proof. intros A l n p H. apply numbered_In in H. destruct H as (k & _ & ->). lia. Qed.

(** Each action of the table has one line, in the order of the table. *)
Lemma idn_positions : forall (f : action -> bool) l n,
  map al_pos (filter al_idn (map (fun p => if f (snd p) then mkActLine (fst p) true true RMatch else mkActLine (fst p) true false RManual) (numbered n l))) = seq n (List.length l).
Proof.
  intros f. induction l as [|a l IH]; intros n; [reflexivity|]. cbn [numbered map fst snd filter List.length seq].
  destruct (f a); cbn [al_idn map al_pos]; rewrite IH; reflexivity.
Qed.
Lemma ref_positions : forall (f : action -> bool) l n,
  filter al_idn (flat_map (fun p => if f (snd p) then [] else [mkActLine (fst p) false true RManual]) (numbered n l)) = [].
Proof. intros f. induction l as [|a l IH]; intros n; [reflexivity|]. cbn [numbered flat_map fst snd]. destruct (f a); cbn [app filter al_idn]; apply IH. Qed.
Lemma actions_positions : forall idn ref, map al_pos (filter al_idn (fst (actions_report idn ref))) = seq 1 (List.length idn).
Proof.
  intros idn ref. rewrite actions_report_is. cbn [fst]. rewrite filter_app, map_app.
  rewrite (idn_positions (fun a => memb action_eqb a (shared_part idn ref))), (ref_positions (fun a => memb action_eqb a (shared_part ref idn))), app_nil_r. reflexivity.
Qed.

(** [kept P l l']: [l'] is [l] without the elements that do not satisfy [P]. *)
Lemma kept_shared : forall l other, kept (fun a => found a other) l (shared_part l other).
Proof.
  intros l other. unfold shared_part. induction l as [|a l IH]; [constructor|]. cbn [filter]. destruct (memb action_eqb a other) eqn:M.
  - apply kept_yes; [apply found_iff, M | exact IH].
  - apply kept_no; [intros H; apply found_iff in H; congruence | exact IH].
Qed.
Lemma kept_unique : forall {A} (P : A -> Prop) l a b, kept P l a -> kept P l b -> a = b.
Proof.
  intros A P l a b H. revert b. induction H as [|x l a Hx H IH|x l a Hx H IH]; intros b Hb; inversion Hb; subst; try contradiction; try reflexivity.
  - f_equal. apply IH. assumption.
  - apply IH. assumption.
Qed.
Lemma sequence_iff : forall idn ref i r, kept (fun a => found a ref) idn i -> kept (fun a => found a idn) ref r ->
  (snd (actions_report idn ref) = RMatch <-> idn <> [] /\ Forall2 same_action i r).
Proof.
  intros idn ref i r Hi Hr. rewrite (kept_unique _ _ _ _ Hi (kept_shared idn ref)), (kept_unique _ _ _ _ Hr (kept_shared ref idn)).
  rewrite actions_report_is. cbn [snd]. rewrite <- eqs_iff. destruct idn as [|a l]; [split; [discriminate | intros [H _]; congruence]|].
  destruct (eqs _ _); split; intros H; try reflexivity; try discriminate H; [split; [discriminate | reflexivity] | destruct H as [_ H]; discriminate H].
Qed.
Lemma kept_all : forall {A} (P : A -> Prop) l, (forall a, In a l -> P a) -> kept P l l.
Proof. intros A P l. induction l as [|a l IH]; intros H; [constructor|]. apply kept_yes; [apply H; left; reflexivity | apply IH; intros; apply H; right; assumption]. Qed.
Lemma sequence_cases : forall idn ref, snd (actions_report idn ref) = RMatch \/ snd (actions_report idn ref) = RManual.
Proof. intros idn ref. rewrite actions_report_is. cbn [snd]. destruct idn; [right; reflexivity|]. destruct (eqs _ _); auto. Qed.
Lemma all_match_same : forall idn ref, (forall l, In l (fst (actions_report idn ref)) -> al_result l = RMatch) -> snd (actions_report idn ref) = RMatch ->
  Forall2 same_action idn ref.
Proof.
  intros idn ref H Hs.
  assert (F : forall a, In a idn -> found a ref).
  { intros a Ha. apply In_nth_error in Ha. destruct Ha as (k & Hk). destruct (memb action_eqb a ref) eqn:M; [apply found_iff, M|]. exfalso.
    assert (N : ~ found a ref) by (intros K; apply found_iff in K; congruence).
    specialize (H (mkActLine (S k) true false RManual)). cbn in H. discriminate H. apply actions_lines. right. left. exists k, a. auto. }
  assert (F' : forall a, In a ref -> found a idn).
  { intros a Ha. apply In_nth_error in Ha. destruct Ha as (k & Hk). destruct (memb action_eqb a idn) eqn:M; [apply found_iff, M|]. exfalso.
    assert (N : ~ found a idn) by (intros K; apply found_iff in K; congruence).
    specialize (H (mkActLine (S k) false true RManual)). cbn in H. discriminate H. apply actions_lines. right. right. exists k, a. auto. }
  apply (sequence_iff idn ref idn ref (kept_all _ _ F) (kept_all _ _ F')) in Hs. apply Hs.
Qed.
Lemma same_verdicts : forall rm a b label ds only, Forall2 same_action a b -> verdict rm a label ds only = verdict rm b label ds only.
Proof.
  intros rm a b label ds only H. induction H as [|x y a b E H IH]; [reflexivity|]. cbn [verdict]. rewrite (same_action_apply rm x y label ds only E).
  destruct (act_apply rm y label ds only); [reflexivity | exact IH].
Qed.
Lemma matching_verdicts : forall rm idn ref label ds only,
  (forall l, In l (fst (actions_report idn ref)) -> al_result l = RMatch) -> snd (actions_report idn ref) = RMatch ->
  fst (apply_actions rm idn label ds only) = fst (apply_actions rm ref label ds only).
Proof.
  intros rm idn ref label ds only H Hs. pose proof (all_match_same _ _ H Hs) as F. unfold apply_actions, effective_actions.
  rewrite !apply_verdict, !verdict_app, (same_verdicts _ _ _ _ _ _ F). reflexivity.
Qed.
Lemma actions_self : forall l, (forall x, In x (fst (actions_report l l)) -> al_result x = RMatch /\ al_idn x = true /\ al_ref x = true) /\
  (l <> [] -> snd (actions_report l l) = RMatch).
Proof.
  intros l. split.
  - intros x Hx. apply actions_lines in Hx. destruct Hx as [(k & a & Hk & _ & ->) | [(k & a & Hk & N & _) | (k & a & Hk & N & _)]]; [auto | |];
      destruct N; apply found_self, (nth_error_In _ _ Hk).
  - intros Hl. apply (sequence_iff l l l l); try (apply kept_all; intros; apply found_self; assumption). split; [exact Hl|].
    clear Hl. induction l; constructor; [apply same_action_refl | assumption].
Qed.
Lemma no_actions_sequence : actions_report [] [] = ([], RManual).
Proof. reflexivity. Qed.
Lemma same_order_needed : exists a b, snd (actions_report [a; b] [b; a]) = RManual /\ forall l, In l (fst (actions_report [a; b] [b; a])) -> al_result l = RMatch.
Proof.
  exists (mkAction "valid" None None None None None), (mkAction "blocked" None None None None None). split; [reflexivity|].
  intros l H. vm_compute in H. destruct H as [<- | [<- | []]]; reflexivity.
Qed.
