From Verif Require Import Base BaseFacts CharModel RepSpec RepProofs RefModel LgrModel LgrSpec.

Lemma set_rep_id : forall g, set_rep g (lg_rep g) = g.
Proof. intros []; reflexivity. Qed.

(** ** first_such / find *)
Lemma find_first_such : forall A (f : A -> bool) (P : A -> Prop), (forall x, f x = true <-> P x) ->
  forall l, (exists x, find f l = Some x /\ first_such P l x) \/
            (find f l = None /\ forall x, In x l -> ~ P x).
Proof.
  intros A f P Hf l. induction l as [|a l IH]; simpl; [right; split; auto|].
  destruct (f a) eqn:E.
  - left. exists a. split; auto. exists [], l. split; [reflexivity|]. split; [apply Hf; exact E|]. intros y [].
  - assert (Hna : ~ P a) by (rewrite <- Hf, E; discriminate).
    destruct IH as [[x [H1 [pre [post [H2 [H3 H4]]]]]]|[H1 H2]].
    + left. exists x. split; auto. exists (a :: pre), post. split; [rewrite H2; reflexivity|]. split; auto.
      intros y [Hy|Hy]; [subst; auto|auto].
    + right. split; auto. intros x [Hx|Hx]; [subst; auto|auto].
Qed.

Lemma first_such_unique : forall A (P : A -> Prop) l x y, first_such P l x -> first_such P l y -> x = y.
Proof.
  intros A P l x y [p1 [q1 [H1 [H2 H3]]]] [p2 [q2 [H4 [H5 H6]]]].
  revert p2 q2 H4 H6. revert l H1. induction p1 as [|a p1 IH]; intros l H1 p2 q2 H4 H6; subst l.
  - destruct p2 as [|b p2]; simpl in H4; [congruence|]. injection H4 as E1 E2. subst b.
    exfalso. apply (H6 x); [left; reflexivity|exact H2].
  - destruct p2 as [|b p2]; simpl in H4.
    + injection H4 as E1 E2. subst a. exfalso. apply (H3 y); [left; reflexivity|exact H5].
    + injection H4 as E1 E2. apply (IH (fun z Hz => H3 z (or_intror Hz)) _ eq_refl p2 q2 E2).
      intros z Hz. apply H6. right. exact Hz.
Qed.

Lemma first_such_In : forall A (P : A -> Prop) l x, first_such P l x -> In x l /\ P x.
Proof. intros A P l x [p [q [H1 [H2 _]]]]. subst. split; auto. apply in_app_iff. right. left. reflexivity. Qed.

Lemma first_such_cons_neg : forall A (P : A -> Prop) a l x, ~ P a ->
  (first_such P (a :: l) x <-> first_such P l x).
Proof.
  intros A P a l x Ha. split.
  - intros [pre [post [H1 [H2 H3]]]]. destruct pre as [|b pre]; simpl in H1; injection H1 as E1 E2; subst.
    + contradiction.
    + exists pre, post. split; auto. split; auto. intros y Hy. apply H3. right. exact Hy.
  - intros [pre [post [H1 [H2 H3]]]]. exists (a :: pre), post. subst. split; auto. split; auto.
    intros y [Hy|Hy]; [subst; auto|auto].
Qed.

Lemma first_such_here : forall A (P : A -> Prop) a l, P a -> first_such P (a :: l) a.
Proof. intros A P a l H. exists [], l. split; [reflexivity|]. split; [exact H|]. intros y []. Qed.

(** first_failing determines its result. *)
Lemma first_failing_unique : forall (checks : list (exn -> Prop)) r1 r2,
  (forall P e1 e2, In P checks -> P e1 -> P e2 -> e1 = e2) ->
  first_failing checks r1 -> first_failing checks r2 -> r1 = r2.
Proof.
  induction checks as [|P l IH]; simpl; intros r1 r2 Hf H1 H2; [congruence|].
  destruct H1 as [[e1 [A1 B1]]|[A1 B1]], H2 as [[e2 [A2 B2]]|[A2 B2]].
  - subst. f_equal. eapply Hf; eauto.
  - exfalso. apply (A2 e1 A1).
  - exfalso. apply (A1 e2 A2).
  - apply IH; auto. intros Q e1 e2 HQ. apply Hf. right. exact HQ.
Qed.

(** ** Conversion check *)
Lemma idna_invalid_iff : forall g d x, lg_db g = Some d -> (negb (db_idna_valid d x) = true <-> idna_invalid g x).
Proof.
  intros g d x Hd. unfold idna_invalid. rewrite negb_true_iff. split.
  - intro H. exists d. auto.
  - intros [d' [H1 H2]]. congruence.
Qed.

Lemma check_convert_cases : forall g c,
  (exists e, check_convert g c = Raise e /\ (chk_empty c e \/ ((forall e', ~ chk_empty c e') /\ chk_idna g c e)))
  \/
  (check_convert g c = Ok c /\ c <> [] /\ (forall e, ~ chk_empty c e) /\ (forall e, ~ chk_idna g c e)).
Proof.
  intros g c. unfold check_convert, check_convert_with. destruct c as [|x c].
  - left. eexists. split; [reflexivity|]. left. split; reflexivity.
  - assert (He : forall e', ~ chk_empty (x :: c) e') by (intros e' [H _]; discriminate).
    destruct (lg_db g) as [d|] eqn:Ed.
    + destruct (find_first_such N _ (idna_invalid g) (fun y => idna_invalid_iff g d y Ed) (x :: c))
        as [[y [H1 H2]]|[H1 H2]]; rewrite H1.
      * destruct (lg_raise g) eqn:Er.
        -- left. eexists. split; [reflexivity|]. right. split; auto. split; auto. exists y. auto.
        -- right. split; auto. split; [discriminate|]. split; auto. intros e [H _]. congruence.
      * right. split; auto. split; [discriminate|]. split; auto. intros e [_ [y [Hy _]]].
        apply first_such_In in Hy. apply (H2 y); tauto.
    + right. split; auto. split; [discriminate|]. split; auto. intros e [_ [y [Hy _]]].
      apply first_such_In in Hy. destruct Hy as [_ [d [Hd _]]]. congruence.
Qed.

Lemma check_convert_id : forall g c c', check_convert g c = Ok c' -> c' = c /\ c <> [].
Proof.
  intros g c c' H. destruct (check_convert_cases g c) as [[e [H1 _]]|[H1 [H2 _]]]; rewrite H1 in H; [discriminate|].
  injection H as H. auto.
Qed.

Lemma rep_contains_lk : forall r c, c <> [] ->
  rep_contains r c = Ok (match lk r c with Some _ => true | None => false end).
Proof.
  intros r [|x t] H; [congruence|]. unfold rep_contains, lk, bucket.
  destruct (dget N.eqb x (rep_chars r)); [rewrite memb_map_find; reflexivity|reflexivity].
Qed.

Lemma present_lk : forall g c, present g c <-> lk (lg_rep g) c <> None.
Proof. intros g c. unfold present. rewrite lookup_lk. tauto. Qed.

Lemma check_cp_cases : forall g x,
  (check_cp g [x] = Raise (CharInvalidIdnaProperty [x]) /\ lg_raise g = true /\ idna_invalid g x) \/
  (~ (lg_raise g = true /\ idna_invalid g x) /\
   ((check_cp g [x] = Ok true /\ present g [x]) \/ (check_cp g [x] = Ok false /\ ~ present g [x]))).
Proof.
  intros g x. unfold check_cp.
  destruct (check_convert_cases g [x]) as [[e [H1 [H2|[_ H2]]]]|[H1 [H2 [H3 H4]]]].
  - destruct H2 as [H2 _]. discriminate.
  - left. rewrite H1. destruct H2 as [Hr [y [Hy He]]]. apply first_such_In in Hy.
    destruct Hy as [[Hy|[]] Hp]. subst. auto.
  - right. split.
    + intros [Hr Hi]. apply (H4 (CharInvalidIdnaProperty [x])). split; auto. exists x. split; auto.
      apply first_such_here. exact Hi.
    + rewrite H1. cbn [bind]. rewrite rep_contains_lk by discriminate. rewrite present_lk.
      destruct (lk (lg_rep g) [x]); [left|right]; split; auto; congruence.
Qed.

Lemma check_against_cases : forall v ov fo whole l,
  (exists e, check_against v ov fo whole l = Raise e /\
     exists x, first_such (fun y => exists e', refused_by v ov fo whole y e') l x /\ refused_by v ov fo whole x e)
  \/
  (check_against v ov fo whole l = Ok tt /\ forall x e, In x l -> ~ refused_by v ov fo whole x e).
Proof.
  intros v ov fo whole l. induction l as [|x l IH]; simpl; [right; split; auto|].
  assert (Hskip : (forall e, ~ refused_by v ov fo whole x e) ->
    (exists e, check_against v ov fo whole l = Raise e /\
       exists y, first_such (fun y => exists e', refused_by v ov fo whole y e') (x :: l) y /\ refused_by v ov fo whole y e)
    \/ (check_against v ov fo whole l = Ok tt /\ forall y e, x = y \/ In y l -> ~ refused_by v ov fo whole y e)).
  { intro Hx. destruct IH as [[e [H1 [y [H2 H3]]]]|[H1 H2]].
    - left. exists e. split; auto. exists y. split; auto. apply first_such_cons_neg; auto. intros [e' He']. exact (Hx e' He').
    - right. split; auto. intros y e [Hy|Hy]; [subst; apply Hx|apply H2; exact Hy]. }
  destruct (check_cp_cases v x) as [[H1 [H2 H3]]|[Hn [[H1 Hp]|[H1 Hp]]]]; rewrite H1.
  - left. eexists. split; [reflexivity|]. exists x.
    assert (Hr : refused_by v ov fo whole x (CharInvalidIdnaProperty [x])) by (left; auto).
    split; auto. apply first_such_here. eauto.
  - apply Hskip. intros e [[A [B _]]|[_ [A _]]]; tauto.
  - destruct ov, fo; simpl;
      try (apply Hskip; intros e [[A [B _]]|[_ [_ [A [B _]]]]]; [tauto|discriminate]).
    left. eexists. split; [reflexivity|]. exists x.
    assert (Hr : refused_by v false false whole x (NotInRepertoire whole)) by (right; auto).
    split; auto. apply first_such_here. eauto.
Qed.

Lemma check_validating_cases : forall vr ov fo whole l,
  (exists e, check_validating vr ov fo whole l = Raise e /\ chk_validating vr ov fo whole l e) \/
  (check_validating vr ov fo whole l = Ok tt /\ forall e, ~ chk_validating vr ov fo whole l e).
Proof.
  intros [v|] ov fo whole l; simpl.
  - destruct (check_against_cases v ov fo whole l) as [[e [H1 [x [H2 H3]]]]|[H1 H2]].
    + left. exists e. split; auto. exists v, x. auto.
    + right. split; auto. intros e [v' [x [E [H3 H4]]]]. injection E as E. subst v'.
      apply first_such_In in H3. apply (H2 x e); tauto.
  - right. split; auto. intros e [v' [x [E _]]]. discriminate.
Qed.

(** ** References and duplicates *)
Lemma defined_dmem : forall g r, dmem String.eqb r (rm_refs (lg_refs g)) = true <-> defined_ref g r.
Proof. intros g r. unfold dmem, defined_ref. destruct (dget _ _ _); split; congruence. Qed.

Lemma collect_refs_cases : forall g fo refs,
  (exists e, collect_refs (lg_refs g) fo refs = Raise e /\ chk_ref_defined g fo refs e) \/
  (collect_refs (lg_refs g) fo refs = Ok (kept_refs g refs) /\ (forall e, ~ chk_ref_defined g fo refs e) /\
   (fo = false -> kept_refs g refs = refs)).
Proof.
  intros g fo refs. induction refs as [|r l IH]; simpl.
  - right. split; auto. split; auto. intros e [_ [r [Hr _]]]. apply first_such_In in Hr. destruct Hr as [[] _].
  - unfold kept_refs. cbn [filter]. fold (kept_refs g l).
    destruct (dmem String.eqb r (rm_refs (lg_refs g))) eqn:E.
    + assert (Hd : ~ ~ defined_ref g r) by (rewrite <- defined_dmem, E; tauto).
      destruct IH as [[e [H1 [H2 [y [H3 H4]]]]]|[H1 [H2 H3]]]; rewrite H1; cbn [bind].
      * left. exists e. split; auto. split; auto. exists y. split; auto. apply first_such_cons_neg; auto.
      * right. split; auto. split.
        -- intros e [H4 [y [H5 H6]]]. apply first_such_cons_neg in H5; auto. apply (H2 e). split; auto. exists y. auto.
        -- intro Hf. rewrite H3; auto.
    + assert (Hd : ~ defined_ref g r) by (rewrite <- defined_dmem, E; discriminate).
      destruct fo.
      * destruct IH as [[e [H1 [H2 _]]]|[H1 [H2 H3]]]; [discriminate|]. right. split; auto. split; [|discriminate].
        intros e [H4 _]. discriminate.
      * left. eexists. split; [reflexivity|]. split; auto. exists r. split; auto. apply first_such_here. exact Hd.
Qed.

Lemma dedup_aux_length : forall A (eqb : A -> A -> bool) l seen, (length (dedup_aux eqb seen l) <= length l)%nat.
Proof.
  intros A eqb l. induction l as [|x l IH]; intro seen; simpl; auto.
  destruct (memb eqb x seen); simpl; specialize (IH seen) as H1; specialize (IH (x :: seen)); lia.
Qed.

Lemma dedup_aux_full : forall A (eqb : A -> A -> bool), (forall a b, eqb a b = true <-> a = b) ->
  forall l seen, length (dedup_aux eqb seen l) = length l <-> NoDup l /\ forall x, In x l -> ~ In x seen.
Proof.
  intros A eqb Heq l. induction l as [|x l IH]; intro seen; simpl.
  - split; auto. intros _. split; [constructor|auto].
  - destruct (memb eqb x seen) eqn:E.
    + apply (memb_In _ _ Heq) in E. split.
      * intro H. pose proof (dedup_aux_length A eqb l seen). lia.
      * intros [_ H]. exfalso. apply (H x); auto.
    + apply (memb_false _ _ Heq) in E. simpl. split.
      * intro H. injection H as H. apply IH in H. destruct H as [H1 H2]. split.
        -- constructor; auto. intro Hx. apply (H2 x Hx). left. reflexivity.
        -- intros y [Hy|Hy]; [subst; auto|]. intro Hs. apply (H2 y Hy). right. exact Hs.
      * intros [H1 H2]. f_equal. apply IH. inversion H1 as [|? ? H3 H4]; subst. split; auto.
        intros y Hy [Hs|Hs]; [subst; auto|]. apply (H2 y); auto.
Qed.

Lemma has_dup_iff : forall l, has_dup l = true <-> ~ NoDup l.
Proof.
  intro l. unfold has_dup. rewrite negb_true_iff, Nat.eqb_neq. unfold dedup.
  rewrite (dedup_aux_full _ _ string_eqb_iff). split; intro H; [|tauto]. intro Hn. apply H. split; auto.
Qed.

Lemma has_dup_false : forall l, has_dup l = false <-> NoDup l.
Proof.
  intro l. unfold has_dup. rewrite negb_false_iff, Nat.eqb_eq. unfold dedup.
  rewrite (dedup_aux_full _ _ string_eqb_iff). split; [tauto|]. intro Hn. split; auto.
Qed.

Lemma is_some_iff : forall A (o : option A), is_some o = true <-> o <> None.
Proof. intros A [a|]; simpl; split; congruence. Qed.

Lemma rep_add_char_lk : forall r c cm rf tg w nw, c <> [] ->
  rep_add_char r c cm rf tg w nw =
  match lk r c with
  | Some _ => (r, Raise (CharAlreadyExists c))
  | None => (ins r (mkChar c (kind_of c) cm rf tg w nw []), Ok (mkChar c (kind_of c) cm rf tg w nw []))
  end.
Proof.
  intros r c cm rf tg w nw Hc. destruct c as [|x [|y t]]; [congruence| |]; unfold rep_add_char, from_cp_or_sequence.
  - rewrite add_char_unfold by discriminate. cbn [ch_cp]. destruct (lk r [x]); reflexivity.
  - rewrite add_char_unfold by discriminate. cbn [ch_cp]. destruct (lk r (x :: y :: t)); reflexivity.
Qed.

Lemma if_neg_force : forall (b fo : bool), (b && negb fo)%bool = true <-> fo = false /\ b = true.
Proof. intros [] []; simpl; split; try tauto; try discriminate; intros [? ?]; discriminate. Qed.

Lemma add_cp_unfold : forall g c cm rf tg w nw vr ov fo,
  exists r, first_failing (add_cp_checks g c rf tg w nw vr ov fo) r /\
  lgr_add_cp g c cm rf tg w nw vr ov fo =
  match r with
  | Some e => (g, Raise e)
  | None => (add_cp_to_tag_classes
               (set_rep g (ins (lg_rep g) (mkChar c (kind_of c) cm (kept_refs g rf) tg w nw []))) c tg, Ok tt)
  end.
Proof.
  intros g c cm rf tg w nw vr ov fo. unfold lgr_add_cp, add_cp_checks. cbn [first_failing].
  destruct (check_convert_cases g c) as [[e [H1 H2]]|[H1 [Hne [H2 H3]]]]; rewrite H1.
  { exists (Some e). split; auto. destruct H2 as [H2|[H2 H3]]; [left; eauto|right; split; auto; left; eauto]. }
  destruct (negb fo && is_some w && is_some nw)%bool eqn:Ec.
  { exists (Some (CharInvalidContextRule c)). split; auto.
    do 2 (right; split; auto). left. eexists. split; [|reflexivity].
    apply andb_true_iff in Ec. destruct Ec as [Ec Hnw]. apply andb_true_iff in Ec. destruct Ec as [Hf Hw].
    split; [destruct fo; auto; discriminate|]. split; [apply is_some_iff; exact Hw|]. split; [apply is_some_iff; exact Hnw|]. reflexivity. }
  assert (H4 : forall e, ~ chk_context fo w nw (CharInvalidContextRule c) e).
  { intros e [A [B [C _]]]. subst fo. apply is_some_iff in B. apply is_some_iff in C. rewrite B, C in Ec. discriminate. }
  destruct (check_validating_cases vr ov fo c c) as [[e [H5 H6]]|[H5 H6]]; rewrite H5.
  { exists (Some e). split; auto. do 3 (right; split; auto). left. eauto. }
  destruct (collect_refs_cases g fo rf) as [[e [H7 H8]]|[H7 [H8 H9]]]; rewrite H7.
  { exists (Some e). split; auto. do 4 (right; split; auto). left. eauto. }
  destruct (has_dup (kept_refs g rf) && negb fo)%bool eqn:Ed.
  { apply if_neg_force in Ed. destruct Ed as [Ef Ed]. rewrite (H9 Ef) in Ed. apply has_dup_iff in Ed.
    exists (Some (DuplicateReference c)). split; auto. do 5 (right; split; auto). left. eexists. split; [|reflexivity].
    split; auto. }
  assert (H10 : forall e, ~ chk_ref_dup fo rf (DuplicateReference c) e).
  { intros e [A [B _]]. subst fo. rewrite (H9 eq_refl) in Ed. apply has_dup_iff in B. rewrite B in Ed. discriminate. }
  destruct (Nat.ltb 1 (length c) && Nat.ltb 0 (length tg) && negb fo)%bool eqn:Es.
  { apply if_neg_force in Es. destruct Es as [Ef Es]. apply andb_true_iff in Es. destruct Es as [Es1 Es2].
    apply Nat.ltb_lt in Es1. apply Nat.ltb_lt in Es2.
    exists (Some (LGRFormatException SEQUENCE_NO_TAG)). split; [|reflexivity]. do 6 (right; split; auto). left. eexists. split; [|reflexivity].
    split; auto. split; auto. split; auto. destruct tg; simpl in Es2; [lia|discriminate]. }
  assert (H11 : forall e, ~ chk_seq_tag fo c tg e).
  { intros e [A [B [C _]]]. subst fo. apply Nat.ltb_lt in B. rewrite B in Es. destruct tg; [congruence|]. simpl in Es. discriminate. }
  destruct (has_dup tg && negb fo)%bool eqn:Et.
  { apply if_neg_force in Et. destruct Et as [Ef Et]. apply has_dup_iff in Et.
    exists (Some (LGRFormatException DUPLICATE_TAG)). split; [|reflexivity]. do 7 (right; split; auto). left. eexists. split; [|reflexivity]. split; auto. }
  assert (H12 : forall e, ~ chk_tag_dup fo tg e).
  { intros e [A [B _]]. subst fo. apply has_dup_iff in B. rewrite B in Et. discriminate. }
  rewrite rep_add_char_lk by exact Hne.
  destruct (lk (lg_rep g) c) as [ch|] eqn:El.
  - exists (Some (CharAlreadyExists c)). rewrite set_rep_id. split; auto.
    do 8 (right; split; auto). left. eexists. split; [|reflexivity]. split; auto. apply present_lk. congruence.
  - exists None. split; auto. do 9 (right; split; auto).
    intros e [A _]. apply present_lk in A. congruence.
Qed.

Lemma checks_functional : forall g c rf tg w nw vr ov fo P e1 e2,
  In P (add_cp_checks g c rf tg w nw vr ov fo) -> P e1 -> P e2 -> e1 = e2.
Proof.
  intros g c rf tg w nw vr ov fo P e1 e2 HP H1 H2.
  repeat (destruct HP as [HP|HP]; [subst P|]); try contradiction.
  - destruct H1 as [_ H1], H2 as [_ H2]. congruence.
  - destruct H1 as [_ [x [A B]]], H2 as [_ [y [C D]]]. rewrite (first_such_unique _ _ _ _ _ A C) in B. congruence.
  - destruct H1 as [_ [_ [_ H1]]], H2 as [_ [_ [_ H2]]]. congruence.
  - destruct H1 as [v [x [A [B C]]]], H2 as [v' [x' [A' [B' C']]]].
    assert (v' = v) by congruence. subst v'. assert (x' = x) by (eapply first_such_unique; eauto). subst x'.
    destruct C as [[C1 [C2 C3]]|[C1 [C2 [C3 [C4 C5]]]]], C' as [[C1' [C2' C3']]|[C1' [C2' [C3' [C4' C5']]]]]; try congruence; tauto.
  - destruct H1 as [_ [x [A B]]], H2 as [_ [y [C D]]]. rewrite (first_such_unique _ _ _ _ _ A C) in B. congruence.
  - destruct H1 as [_ [_ H1]], H2 as [_ [_ H2]]. congruence.
  - destruct H1 as [_ [_ [_ H1]]], H2 as [_ [_ [_ H2]]]. congruence.
  - destruct H1 as [_ [_ H1]], H2 as [_ [_ H2]]. congruence.
  - destruct H1 as [_ H1], H2 as [_ H2]. congruence.
Qed.
