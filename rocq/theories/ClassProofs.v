From Coq Require Import Ascii.
From Verif Require Import Base BaseFacts ClassModel ClassSpec.
Open Scope string_scope.
Open Scope list_scope.

Lemma cls_induct : forall P : cls -> Prop,
  (forall n b t p l, P (ClPlain n b t p l)) ->
  (forall n op ch, (forall c, In c ch -> P c) -> P (ClComb n op ch)) -> forall c, P c.
Proof.
  intros P H1 H2. fix IH 1. intros [n b t p l|n op ch]; [apply H1|]. apply H2. induction ch as [|x ch IHch]; [intros c []|].
  intros c [Hc|Hc]; [subst c; apply IH|apply IHch; exact Hc].
Qed.

Lemma shaped_comb : forall n op ch, shaped (ClComb n op ch) <->
  (max_children op = 0%nat \/ (length ch <= max_children op)%nat) /\ forall c, In c ch -> shaped c.
Proof.
  intros n op ch. cbn [shaped]. apply and_iff_compat_l. induction ch as [|x ch IH].
  - split; [intros _ c []|auto].
  - rewrite IH. split.
    + intros [H1 H2] c [Hc|Hc]; [subst; exact H1|auto].
    + intro H. split; [apply H; left; reflexivity|intros c Hc; apply H; right; exact Hc].
Qed.

(** ** Splitting a property *)
Lemma split_colon_nocolon : forall s, no_colon s -> split_colon s = [s].
Proof.
  induction s as [|c s IH]; intro H; [reflexivity|]. destruct H as [H1 H2]. cbn [split_colon]. rewrite (IH H2).
  destruct (Ascii.eqb c colon) eqn:E; [|reflexivity]. apply Ascii.eqb_eq in E. contradiction.
Qed.
Lemma split_colon_app : forall a b, no_colon a -> split_colon (a ++ ":" ++ b)%string = a :: split_colon b.
Proof.
  induction a as [|c a IH]; intros b H; [reflexivity|]. destruct H as [H1 H2].
  change ((String c a ++ ":" ++ b)%string) with (String c (a ++ ":" ++ b)%string). cbn [split_colon]. rewrite (IH b H2).
  destruct (Ascii.eqb c colon) eqn:E; [|reflexivity]. apply Ascii.eqb_eq in E. contradiction.
Qed.
Lemma split_colon_nonempty : forall s, split_colon s <> [].
Proof. induction s as [|c s IH]; [discriminate|]. cbn [split_colon]. destruct (Ascii.eqb c colon); [discriminate|]. destruct (split_colon s); discriminate. Qed.
Lemma split_colon_one : forall s w, split_colon s = [w] -> s = w /\ no_colon s.
Proof.
  induction s as [|c s IH]; intros w H.
  - injection H as H. subst w. split; [reflexivity|exact I].
  - cbn [split_colon] in H. destruct (Ascii.eqb c colon) eqn:E.
    + injection H as _ H. exfalso. apply (split_colon_nonempty s H).
    + destruct (split_colon s) as [|w0 r] eqn:Es; [exfalso; apply (split_colon_nonempty s Es)|]. injection H as H1 H2. subst r w.
      destruct (IH w0 eq_refl) as [H1 H2]. subst w0. split; [reflexivity|]. split; [intro X; rewrite X in E; discriminate|exact H2].
Qed.
Lemma split_colon_two : forall s a b, split_colon s = [a; b] -> s = (a ++ ":" ++ b)%string /\ no_colon a /\ no_colon b.
Proof.
  induction s as [|c s IH]; intros a b H.
  - discriminate.
  - cbn [split_colon] in H. destruct (Ascii.eqb c colon) eqn:E.
    + injection H as H1 H2. subst a. apply split_colon_one in H2. destruct H2 as [H2 H3]. apply Ascii.eqb_eq in E. subst. split; [reflexivity|]. split; [exact I|exact H3].
    + destruct (split_colon s) as [|w0 r] eqn:Es; [exfalso; apply (split_colon_nonempty s Es)|]. injection H as H1 H2. subst a r.
      destruct (IH w0 b eq_refl) as [H1 [H2 H3]]. split; [rewrite H1; reflexivity|]. split; [|exact H3].
      split; [intro X; rewrite X in E; discriminate|exact H2].
Qed.

Lemma b_not : forall a, a = false <-> ~ a = true.
Proof. intros []; split; congruence. Qed.
Lemma b_diff : forall a b, (a && negb b)%bool = true <-> a = true /\ ~ b = true.
Proof. intros [] []; cbn; intuition congruence. Qed.
Lemma b_xor : forall a b, ((a || b) && negb (a && b))%bool = true <-> (a = true /\ ~ b = true) \/ (b = true /\ ~ a = true).
Proof. intros [] []; cbn; intuition congruence. Qed.
(** ** Evaluation and meaning *)
Lemma denotes_ext : forall u look c (S S' : N -> Prop), denotes u look c S -> (forall x, S' x <-> S x) -> denotes u look c S'.
Proof.
  intros u look c S S' H HE. revert S' HE. induction H as [n b t p l c S E H IH|n t p l c S E H IH|n t p l S E H|n nm v l f S Hn Hv Hf HS|n l S HS
    |n c S1 S H IH HS|n S H|n c ch S1 S2 S H1 IH1 H2 IH2 HS|n c1 c2 S1 S2 S H1 IH1 H2 IH2 HS|n c1 c2 S1 S2 S H1 IH1 H2 IH2 HS|n c1 c2 S1 S2 S H1 IH1 H2 IH2 HS];
    intros S' HE.
  - eapply D_by_ref; eauto.
  - eapply D_tag; eauto.
  - apply D_no_tag; [exact E|]. intros x Hx. apply (H x). apply HE. exact Hx.
  - eapply D_property; eauto. intro x. rewrite HE. apply HS.
  - apply D_literal. intro x. rewrite HE. apply HS.
  - eapply D_complement; eauto. intro x. rewrite HE. apply HS.
  - apply D_union_none. intros x Hx. apply (H x). apply HE. exact Hx.
  - eapply D_union; eauto. intro x. rewrite HE. apply HS.
  - eapply D_intersection; eauto. intro x. rewrite HE. apply HS.
  - eapply D_difference; eauto. intro x. rewrite HE. apply HS.
  - eapply D_symmetric_difference; eauto. intro x. rewrite HE. apply HS.
Qed.
Section Meaning.
  Variable u : unidb.
  Variable look : table.

  Lemma bounded_iff : forall s x, bounded u s x = true <-> x <= ud_max u /\ s x = true.
  Proof. intros s x. unfold bounded. rewrite andb_true_iff, N.leb_le. reflexivity. Qed.

  Lemma union_cons : forall f c ch acc, union_set u look (S f) (c :: ch) acc =
    bind (class_set u look f c) (fun s => union_set u look f ch (fun x => acc x || s x)%bool).
  Proof. reflexivity. Qed.
  Lemma union_nil : forall f acc, union_set u look (S f) [] acc = Ok acc.
  Proof. reflexivity. Qed.
  Definition set_of (s : uset) : N -> Prop := fun x => s x = true.

  Lemma class_set_sound_gen : shaped_table look -> forall f,
    (forall c s, shaped c -> class_set u look f c = Ok s -> denotes u look c (set_of s)) /\
    (forall n ch acc s, (forall c, In c ch -> shaped c) -> union_set u look f ch acc = Ok s ->
       exists S : N -> Prop, denotes u look (ClComb n Union ch) S /\
         forall x, set_of s x <-> set_of acc x \/ S x).
  Proof.
    intros Hlook. induction f as [|f [IHc IHu]]; split.
    - intros c s _ H. discriminate.
    - intros n ch acc s _ H. discriminate.
    - intros c s Hs H. destruct c as [n [b|] t p l|n op ch]; cbn [class_set] in H.
      + destruct (dget String.eqb b look) as [c'|] eqn:E; [|discriminate]. eapply D_by_ref; [exact E|]. apply (IHc c' s (Hlook b c' E) H).
      + destruct t as [t|].
        * destruct (dget String.eqb (tag_classname t) look) as [c'|] eqn:E.
          -- eapply D_tag; [exact E|]. apply (IHc c' s (Hlook _ c' E) H).
          -- injection H as H. subst s. apply D_no_tag; [exact E|]. intros x Hx. discriminate Hx.
        * destruct p as [p|].
          -- destruct (split_colon p) as [|a [|b [|? ?]]] eqn:Es; try discriminate. apply split_colon_two in Es. destruct Es as [Ep [Ha Hb]]. subst p.
             destruct (ud_prop u a b) as [g|] eqn:Eg; [|discriminate]. injection H as H. subst s.
             apply (D_property _ _ n a b l g _ Ha Hb Eg). intro x. apply bounded_iff.
          -- injection H as H. subst s. apply D_literal. intro x. unfold set_of. rewrite bounded_iff. rewrite (memb_In _ _ N_eqb_iff). reflexivity.
      + apply shaped_comb in Hs. destruct Hs as [Hn Hch].
        assert (Hbin : forall k : uset -> uset -> uset, max_children op = 2%nat ->
          match ch with
            | [] => Raise IndexError
            | c1 :: ch' => bind (class_set u look f c1) (fun s1 => match ch' with [] => Raise IndexError | c2 :: _ =>
                bind (class_set u look f c2) (fun s2 => Ok (k s1 s2)) end)
          end = Ok s -> exists c1 c2 s1 s2, ch = [c1; c2] /\ denotes u look c1 (set_of s1) /\ denotes u look c2 (set_of s2) /\ s = k s1 s2).
        { intros k Hm Hk. rewrite Hm in Hn. destruct ch as [|c1 [|c2 [|c3 ch]]]; try discriminate.
          - destruct (class_set u look f c1) as [s1|e]; cbn [bind] in Hk; discriminate.
          - destruct (class_set u look f c1) as [s1|e] eqn:E1; cbn [bind] in Hk; [|discriminate].
            destruct (class_set u look f c2) as [s2|e] eqn:E2; cbn [bind] in Hk; [|discriminate]. injection Hk as Hk.
            exists c1, c2, s1, s2. split; [reflexivity|]. split; [apply IHc; [apply Hch; left; reflexivity|exact E1]|].
            split; [apply IHc; [apply Hch; right; left; reflexivity|exact E2]|]. symmetry. exact Hk.
          - destruct Hn as [Hn|Hn]; [discriminate|cbn [length] in Hn; lia]. }
        destruct op.
        * destruct ch as [|c1 [|c2 ch]]; [discriminate| |destruct Hn as [Hn|Hn]; [discriminate|cbn [length max_children] in Hn; lia]].
          destruct (class_set u look f c1) as [s1|e] eqn:E1; cbn [bind] in H; [|discriminate]. injection H as H. subst s.
          eapply D_complement; [apply (IHc c1 s1 (Hch c1 (or_introl eq_refl)) E1)|]. intro x. unfold set_of. rewrite bounded_iff, negb_true_iff.
          rewrite b_not. reflexivity.
        * destruct (IHu n ch _ s Hch H) as [S [HD HS]]. apply (denotes_ext _ _ _ _ _ HD). intro x. rewrite HS. unfold set_of. split; [intros [X|X]; [discriminate X|exact X]|auto].
        * destruct (Hbin (fun s1 s2 x => s1 x && s2 x)%bool eq_refl H) as [c1 [c2 [s1 [s2 [H1 [H2 [H3 H4]]]]]]]. subst ch s.
          eapply D_intersection; eauto. intro x. unfold set_of. apply andb_true_iff.
        * destruct (Hbin (fun s1 s2 x => s1 x && negb (s2 x))%bool eq_refl H) as [c1 [c2 [s1 [s2 [H1 [H2 [H3 H4]]]]]]]. subst ch s.
          eapply D_difference; eauto. intro x. apply b_diff.
        * destruct (Hbin (fun s1 s2 x => (s1 x || s2 x) && negb (s1 x && s2 x))%bool eq_refl H) as [c1 [c2 [s1 [s2 [H1 [H2 [H3 H4]]]]]]]. subst ch s.
          eapply D_symmetric_difference; eauto. intro x. apply b_xor.
    - intros n ch acc s Hs H. destruct ch as [|c1 ch].
      + rewrite union_nil in H. injection H as H. subst s. exists (fun _ => False). split; [apply D_union_none; auto|]. intro x. tauto.
      + rewrite union_cons in H. destruct (class_set u look f c1) as [s1|e] eqn:E1; cbn [bind] in H; [|discriminate].
        destruct (IHu n ch _ s (fun c Hc => Hs c (or_intror Hc)) H) as [S [HD HS]].
        pose proof (IHc c1 s1 (Hs c1 (or_introl eq_refl)) E1) as H1.
        exists (fun x => set_of s1 x \/ S x). split; [eapply D_union; [exact H1|exact HD|intro; reflexivity]|].
        intro x. rewrite HS. unfold set_of at 1. rewrite orb_true_iff. unfold set_of. tauto.
  Qed.

  Lemma class_set_complete_gen : forall c S, denotes u look c S ->
    exists n, forall f, (n <= f)%nat -> exists s, class_set u look f c = Ok s /\ forall x, s x = true <-> S x.
  Proof.
    intros c S H. cut (exists n, forall f, (n <= f)%nat -> (exists s, class_set u look f c = Ok s /\ forall x, s x = true <-> S x) /\
      match c with ClComb _ Union ch => forall acc, exists s, union_set u look f ch acc = Ok s /\ forall x, s x = true <-> acc x = true \/ S x | _ => True end).
    { intros [n Hn]. exists n. intros f Hf. apply (Hn f Hf). }
    induction H as [n b t p l c S E H IH|n t p l c S E H IH|n t p l S E H|n nm v l g S Hn Hv Hf HS|n l S HS
    |n c S1 S H IH HS|n S H|n c ch S1 S2 S H1 IH1 H2 IH2 HS|n c1 c2 S1 S2 S H1 IH1 H2 IH2 HS|n c1 c2 S1 S2 S H1 IH1 H2 IH2 HS|n c1 c2 S1 S2 S H1 IH1 H2 IH2 HS].
    - destruct IH as [k IH]. exists (1 + k)%nat. intros [|f] Hf; [lia|]. split; [|exact I]. cbn [class_set]. rewrite E. apply IH. lia.
    - destruct IH as [k IH]. exists (1 + k)%nat. intros [|f] Hf; [lia|]. split; [|exact I]. cbn [class_set]. rewrite E. apply IH. lia.
    - exists 1%nat. intros [|f] Hf; [lia|]. split; [|exact I]. cbn [class_set]. rewrite E. eexists. split; [reflexivity|].
      intro x. split; [discriminate|]. intro X. exfalso. apply (H x X).
    - exists 1%nat. intros [|f] Hf'; [lia|]. split; [|exact I]. cbn [class_set]. rewrite (split_colon_app nm v Hn). rewrite (split_colon_nocolon v Hv). rewrite Hf.
      eexists. split; [reflexivity|]. intro x. rewrite bounded_iff. symmetry. apply HS.
    - exists 1%nat. intros [|f] Hf'; [lia|]. split; [|exact I]. cbn [class_set].
      eexists. split; [reflexivity|]. intro x. rewrite bounded_iff, (memb_In _ _ N_eqb_iff). symmetry. apply HS.
    - destruct IH as [k IH]. exists (1 + k)%nat. intros [|f] Hf; [lia|]. split; [|exact I]. cbn [class_set]. destruct (IH f) as [[s [E HsE]] _]; [lia|]. rewrite E. cbn [bind].
      eexists. split; [reflexivity|]. intro x. rewrite bounded_iff, HS, negb_true_iff, b_not, HsE. reflexivity.
    - exists 2%nat. intros [|[|f]] Hf; [lia|lia|]. split.
      + cbn [class_set union_set]. eexists. split; [reflexivity|]. intro x. split; [discriminate|]. intro X. exfalso. apply (H x X).
      + intro acc. cbn [union_set]. exists acc. split; [reflexivity|]. intro x. split; [auto|intros [X|X]; [exact X|exfalso; apply (H x X)]].
    - destruct IH1 as [k1 IH1]. destruct IH2 as [k2 IH2]. exists (2 + (k1 + k2))%nat.
      assert (HU : forall f, (1 + (k1 + k2) <= f)%nat -> forall acc, exists s, union_set u look f (c :: ch) acc = Ok s /\ forall x, s x = true <-> acc x = true \/ S x).
      { intros [|f] Hf acc; [lia|]. rewrite union_cons. destruct (IH1 f) as [[s1 [E1 Hs1]] _]; [lia|]. rewrite E1. cbn [bind].
        destruct (IH2 f) as [_ Hu]; [lia|]. destruct (Hu (fun x => acc x || s1 x)%bool) as [s [E Hs]]. exists s. split; [exact E|].
        intro x. rewrite Hs, orb_true_iff, HS, Hs1. tauto. }
      intros [|f] Hf; [lia|]. split; [|apply HU; lia]. cbn [class_set]. destruct (HU f) with (acc := fun _ : N => false) as [s [E Hs]]; [lia|].
      exists s. split; [exact E|]. intro x. rewrite Hs. split; [intros [X|X]; [discriminate X|exact X]|auto].
    - destruct IH1 as [k1 IH1]. destruct IH2 as [k2 IH2]. exists (1 + (k1 + k2))%nat. intros [|f] Hf; [lia|]. split; [|exact I]. cbn [class_set].
      destruct (IH1 f) as [[s1 [E1 Hs1]] _]; [lia|]. destruct (IH2 f) as [[s2 [E2 Hs2]] _]; [lia|]. rewrite E1. cbn [bind]. rewrite E2. cbn [bind].
      eexists. split; [reflexivity|]. intro x. rewrite HS, <- Hs1, <- Hs2. apply andb_true_iff.
    - destruct IH1 as [k1 IH1]. destruct IH2 as [k2 IH2]. exists (1 + (k1 + k2))%nat. intros [|f] Hf; [lia|]. split; [|exact I]. cbn [class_set].
      destruct (IH1 f) as [[s1 [E1 Hs1]] _]; [lia|]. destruct (IH2 f) as [[s2 [E2 Hs2]] _]; [lia|]. rewrite E1. cbn [bind]. rewrite E2. cbn [bind].
      eexists. split; [reflexivity|]. intro x. rewrite HS, <- Hs1, <- Hs2. apply b_diff.
    - destruct IH1 as [k1 IH1]. destruct IH2 as [k2 IH2]. exists (1 + (k1 + k2))%nat. intros [|f] Hf; [lia|]. split; [|exact I]. cbn [class_set].
      destruct (IH1 f) as [[s1 [E1 Hs1]] _]; [lia|]. destruct (IH2 f) as [[s2 [E2 Hs2]] _]; [lia|]. rewrite E1. cbn [bind]. rewrite E2. cbn [bind].
      eexists. split; [reflexivity|]. intro x. rewrite HS, <- Hs1, <- Hs2. apply b_xor.
  Qed.
End Meaning.

Lemma class_evaluates : forall u look c, shaped c -> shaped_table look -> forall S,
  denotes u look c S <->
  exists n, forall f, (n <= f)%nat -> exists s, class_set u look f c = Ok s /\ forall x, s x = true <-> S x.
Proof.
  intros u look c Hc Hl S. split; [apply class_set_complete_gen|]. intros [n Hn]. destruct (Hn n (le_n n)) as [s [E Hs]].
  pose proof (proj1 (class_set_sound_gen u look Hl n) c s Hc E) as H. apply (denotes_ext _ _ _ _ _ H). intro x. unfold set_of. symmetry. apply Hs.
Qed.
(** Any successful evaluation, whatever the fuel. *)
Lemma class_result : forall u look c f s, shaped c -> shaped_table look -> class_set u look f c = Ok s -> denotes u look c (fun x => s x = true).
Proof. intros u look c f s Hc Hl H. apply (proj1 (class_set_sound_gen u look Hl f) c s Hc H). Qed.
Lemma denotes_unique : forall u look c S S', denotes u look c S -> denotes u look c S' -> forall x, S x <-> S' x.
Proof.
  intros u look c S S' H1 H2 x. destruct (class_set_complete_gen u look c S H1) as [n1 E1]. destruct (class_set_complete_gen u look c S' H2) as [n2 E2].
  destruct (E1 (n1 + n2)%nat) as [s [A1 B1]]; [lia|]. destruct (E2 (n1 + n2)%nat) as [s' [A2 B2]]; [lia|]. rewrite A1 in A2. injection A2 as A2. subst s'.
  rewrite <- B1, <- B2. reflexivity.
Qed.
Lemma denotes_bounded : forall u look c S, denotes u look c S -> forall x, S x -> x <= ud_max u.
Proof.
  intros u look c S H. induction H as [n b t p l c S E H IH|n t p l c S E H IH|n t p l S E H|n nm v l g S Hn Hv Hf HS|n l S HS
    |n c S1 S H IH HS|n S H|n c ch S1 S2 S H1 IH1 H2 IH2 HS|n c1 c2 S1 S2 S H1 IH1 H2 IH2 HS|n c1 c2 S1 S2 S H1 IH1 H2 IH2 HS|n c1 c2 S1 S2 S H1 IH1 H2 IH2 HS];
    intros x Hx; auto.
  - exfalso. apply (H x Hx).
  - apply HS in Hx. apply Hx.
  - apply HS in Hx. apply Hx.
  - apply HS in Hx. apply Hx.
  - exfalso. apply (H x Hx).
  - apply HS in Hx. destruct Hx; auto.
  - apply HS in Hx. destruct Hx; auto.
  - apply HS in Hx. destruct Hx; auto.
  - apply HS in Hx. destruct Hx as [[Hx _]|[Hx _]]; auto.
Qed.

(** ** Validated tables *)
Lemma validate_class_comb : forall look top n op ch, validate_class look top (ClComb n op ch) = Ok tt <->
  top = (match n with Some _ => true | None => false end) /\ (forall c, In c ch -> validate_class look false c = Ok tt) /\ children_ok op (length ch) = true.
Proof.
  intros look top n op ch. cbn [validate_class]. destruct (Bool.eqb top match n with Some _ => true | None => false end) eqn:E.
  2:{ split; [discriminate|]. intros [H _]. subst top. rewrite Bool.eqb_reflx in E. discriminate. }
  apply Bool.eqb_prop in E. set (all := fix all (l : list cls) : res unit := match l with [] => Ok tt | x :: l' => bind (validate_class look false x) (fun _ => all l') end).
  assert (Hall : forall l, all l = Ok tt <-> forall c, In c l -> validate_class look false c = Ok tt).
  { induction l as [|x l IH]; [split; [intros _ c []|reflexivity]|]. cbn [all]. fold all. split.
    - intro H. destruct (validate_class look false x) as [[]|e] eqn:Ex; [|discriminate]. cbn [bind] in H. intros c [Hc|Hc]; [subst; exact Ex|apply (proj1 IH H c Hc)].
    - intro H. rewrite (H x (or_introl eq_refl)). cbn [bind]. apply IH. intros c Hc. apply H. right. exact Hc. }
  split.
  - intro H. destruct (all ch) as [[]|e] eqn:Ea; [|discriminate]. cbn [bind] in H. split; [exact E|]. split; [apply Hall; exact Ea|]. destruct (children_ok op (length ch)); [reflexivity|discriminate].
  - intros [_ [H1 H2]]. apply Hall in H1. rewrite H1. cbn [bind]. rewrite H2. reflexivity.
Qed.
Lemma validate_refs : forall look c top, validate_class look top c = Ok tt -> forall b, In b (class_refs c) -> dget String.eqb b look <> None.
Proof.
  intros look. apply (cls_induct (fun c => forall top, validate_class look top c = Ok tt -> forall b, In b (class_refs c) -> dget String.eqb b look <> None)).
  - intros n b t p l top H b' Hb. cbn [validate_class class_refs] in *. destruct b as [b|]; [|contradiction]. destruct Hb as [Hb|[]]. subst b'.
    unfold dmem in H. destruct (dget String.eqb b look); [discriminate|discriminate].
  - intros n op ch IH top H b Hb. apply validate_class_comb in H. destruct H as [_ [H _]]. cbn [class_refs] in Hb. apply in_flat_map in Hb. destruct Hb as [c [Hc Hb]].
    apply (IH c Hc false (H c Hc) b Hb).
Qed.

(** Enough for a valid class: its references denote, its properties are known. *)
Lemma valid_denotes : forall u look, forall c top names, validate_class names top c = Ok tt ->
  (forall b, In b (class_refs c) -> exists c' S, dget String.eqb b look = Some c' /\ denotes u look c' S) ->
  (forall p, In p (class_props c) -> known_property u p) ->
  (forall t c', dget String.eqb (tag_classname t) look = Some c' -> exists S, denotes u look c' S) ->
  exists S, denotes u look c S.
Proof.
  intros u look. apply (cls_induct (fun c => forall top names, validate_class names top c = Ok tt ->
  (forall b, In b (class_refs c) -> exists c' S, dget String.eqb b look = Some c' /\ denotes u look c' S) ->
  (forall p, In p (class_props c) -> known_property u p) ->
  (forall t c', dget String.eqb (tag_classname t) look = Some c' -> exists S, denotes u look c' S) ->
  exists S, denotes u look c S)).
  - intros n b t p l top names _ Hr Hp Ht. destruct b as [b|].
    + destruct (Hr b (or_introl eq_refl)) as [c' [S [H1 H2]]]. exists S. eapply D_by_ref; eauto.
    + destruct t as [t|].
      * destruct (dget String.eqb (tag_classname t) look) as [c'|] eqn:E.
        -- destruct (Ht t c' E) as [S HS]. exists S. eapply D_tag; eauto.
        -- exists (fun _ => False). apply D_no_tag; auto.
      * destruct p as [p|].
        -- destruct (Hp p (or_introl eq_refl)) as [nm [v [Ep [H1 [H2 H3]]]]]. subst p. destruct (ud_prop u nm v) as [g|] eqn:E; [|congruence].
           exists (fun x => x <= ud_max u /\ g x = true). eapply D_property; eauto. intro. reflexivity.
        -- exists (fun x => x <= ud_max u /\ In x l). apply D_literal. intro. reflexivity.
  - intros n op ch IH top names Hv Hr Hp Ht. apply validate_class_comb in Hv. destruct Hv as [_ [Hv Hn]].
    assert (Hc : forall c, In c ch -> exists S, denotes u look c S).
    { intros c Hc. apply (IH c Hc false names (Hv c Hc)).
      - intros b Hb. apply Hr. cbn [class_refs]. apply in_flat_map. eauto.
      - intros p Hb. apply Hp. cbn [class_props]. apply in_flat_map. eauto.
      - exact Ht. }
    assert (Hbin : children_ok op (length ch) = true -> max_children op = 2%nat -> exists c1 c2 S1 S2, ch = [c1; c2] /\ denotes u look c1 S1 /\ denotes u look c2 S2).
    { intros H1 H2. destruct ch as [|c1 [|c2 [|c3 ch]]]; try (destruct op; discriminate).
      destruct (Hc c1 (or_introl eq_refl)) as [S1 HS1]. destruct (Hc c2 (or_intror (or_introl eq_refl))) as [S2 HS2]. exists c1, c2, S1, S2. auto. }
    destruct op.
    + destruct ch as [|c1 [|c2 ch]]; try discriminate. destruct (Hc c1 (or_introl eq_refl)) as [S1 HS1]. exists (fun x => x <= ud_max u /\ ~ S1 x). eapply D_complement; [exact HS1|]. intro. reflexivity.
    + clear - Hc. induction ch as [|c ch IHch]; [exists (fun _ => False); apply D_union_none; auto|].
      destruct IHch as [S2 H2]; [intros d Hd; apply Hc; right; exact Hd|]. destruct (Hc c (or_introl eq_refl)) as [S1 H1]. exists (fun x => S1 x \/ S2 x). eapply D_union; [exact H1|exact H2|]. intro. reflexivity.
    + destruct (Hbin Hn eq_refl) as [c1 [c2 [S1 [S2 [E [H1 H2]]]]]]. subst ch. exists (fun x => S1 x /\ S2 x). eapply D_intersection; [exact H1|exact H2|]. intro. reflexivity.
    + destruct (Hbin Hn eq_refl) as [c1 [c2 [S1 [S2 [E [H1 H2]]]]]]. subst ch. exists (fun x => S1 x /\ ~ S2 x). eapply D_difference; [exact H1|exact H2|]. intro. reflexivity.
    + destruct (Hbin Hn eq_refl) as [c1 [c2 [S1 [S2 [E [H1 H2]]]]]]. subst ch. exists (fun x => (S1 x /\ ~ S2 x) \/ (S2 x /\ ~ S1 x)). eapply D_symmetric_difference; [exact H1|exact H2|]. intro. reflexivity.
Qed.

(** ** Histories *)
Definition literal (c : cls) : Prop := exists n l, c = ClPlain n None None None l.
Definition compat (look look' : table) : Prop :=
  (forall n c, ~ tag_like n -> dget String.eqb n look = Some c -> dget String.eqb n look' = Some c) /\
  (forall n c, tag_like n -> dget String.eqb n look' = Some c -> literal c).
Definition cinv (u : unidb) (look : table) : Prop :=
  (forall n c, tag_like n -> dget String.eqb n look = Some c -> literal c) /\
  shaped_table look /\ NoDup (map fst look) /\
  forall n c, dget String.eqb n look = Some c -> forall look', compat look look' -> exists S, denotes u look' c S.
Lemma literal_denotes : forall u look c, literal c -> exists S, denotes u look c S.
Proof. intros u look c [n [l H]]. subst c. exists (fun x => x <= ud_max u /\ In x l). apply D_literal. intro. reflexivity. Qed.
Lemma cinv_step : forall u look o, cinv u look -> tidy_class_op u look o -> cinv u (class_step look o).
Proof.
  intros u look o [I1 [I2 [I3 I4]]] Ho. destruct o as [c force|t l|t]; cbn [class_step].
  - destruct Ho as [Hf [Hs [Hn [Hr Hp]]]]. subst force. unfold add_class. destruct (validate_class look true c) as [[]|e] eqn:Ev; [|cbn [fst]; repeat split; assumption].
    cbn [fst]. destruct (cls_name c) as [n|] eqn:En; [|repeat split; assumption]. destruct (Hn n eq_refl) as [Hfresh Htag].
    assert (Hget : forall m, dget String.eqb m (dset String.eqb n c look) = if String.eqb m n then Some c else dget String.eqb m look).
    { intro m. apply (dget_dset _ string_eqb_iff). }
    assert (Hcompat : forall look', compat (dset String.eqb n c look) look' -> compat look look').
    { intros look' [C1 C2]. split; [|exact C2]. intros m d Hm Hd. apply C1; [exact Hm|]. rewrite Hget. destruct (String.eqb m n) eqn:Em; [|exact Hd].
      apply String.eqb_eq in Em. subst m. congruence. }
    split; [|split; [|split]].
    + intros m d Hm Hd. rewrite Hget in Hd. destruct (String.eqb m n) eqn:Em; [|apply (I1 m d Hm Hd)]. apply String.eqb_eq in Em. subst m. contradiction.
    + intros m d Hd. rewrite Hget in Hd. destruct (String.eqb m n) eqn:Em; [|apply (I2 m d Hd)]. injection Hd as Hd. subst d. exact Hs.
    + apply (dset_NoDup _ string_eqb_iff). exact I3.
    + intros m d Hd look' Hc. pose proof (Hcompat look' Hc) as Hc'. rewrite Hget in Hd. destruct (String.eqb m n) eqn:Em; [|apply (I4 m d Hd look' Hc')].
      injection Hd as Hd. subst d. apply (valid_denotes u look' c true look Ev).
      * intros b Hb. pose proof (validate_refs look c true Ev b Hb) as Hb'. destruct (dget String.eqb b look) as [c'|] eqn:Eb; [|congruence].
        exists c'. destruct (I4 b c' Eb look' Hc') as [S HS]. exists S. split; [|exact HS]. apply (proj1 Hc'); [apply Hr; exact Hb|exact Eb].
      * exact Hp.
      * intros t c' Ht. apply literal_denotes. apply (proj2 Hc (tag_classname t) c'); [exists t; reflexivity|exact Ht].
  - unfold set_tag_class. set (c := ClPlain (Some t) None None None l).
    assert (Hget : forall m, dget String.eqb m (dset String.eqb (tag_classname t) c look) = if String.eqb m (tag_classname t) then Some c else dget String.eqb m look).
    { intro m. apply (dget_dset _ string_eqb_iff). }
    assert (Hlit : literal c) by (eexists; eexists; reflexivity).
    split; [|split; [|split]].
    + intros m d Hm Hd. rewrite Hget in Hd. destruct (String.eqb m (tag_classname t)); [injection Hd as Hd; subst d; exact Hlit|apply (I1 m d Hm Hd)].
    + intros m d Hd. rewrite Hget in Hd. destruct (String.eqb m (tag_classname t)); [injection Hd as Hd; subst d; exact I|apply (I2 m d Hd)].
    + apply (dset_NoDup _ string_eqb_iff). exact I3.
    + intros m d Hd look' [C1 C2]. rewrite Hget in Hd. destruct (String.eqb m (tag_classname t)) eqn:Em; [injection Hd as Hd; subst d; apply literal_denotes; exact Hlit|].
      apply (I4 m d Hd look'). split; [|exact C2]. intros k d' Hk Hd'. apply C1; [exact Hk|]. rewrite Hget. destruct (String.eqb k (tag_classname t)) eqn:Ek; [|exact Hd'].
      apply String.eqb_eq in Ek. exfalso. apply Hk. exists t. exact Ek.
  - unfold del_tag_class.
    assert (Hget : forall m, dget String.eqb m (ddel String.eqb (tag_classname t) look) = if String.eqb m (tag_classname t) then None else dget String.eqb m look).
    { intro m. apply (dget_ddel _ string_eqb_iff). exact I3. }
    split; [|split; [|split]].
    + intros m d Hm Hd. rewrite Hget in Hd. destruct (String.eqb m (tag_classname t)); [discriminate|apply (I1 m d Hm Hd)].
    + intros m d Hd. rewrite Hget in Hd. destruct (String.eqb m (tag_classname t)); [discriminate|apply (I2 m d Hd)].
    + apply ddel_NoDup. exact I3.
    + intros m d Hd look' [C1 C2]. rewrite Hget in Hd. destruct (String.eqb m (tag_classname t)) eqn:Em; [discriminate|].
      apply (I4 m d Hd look'). split; [|exact C2]. intros k d' Hk Hd'. apply C1; [exact Hk|]. rewrite Hget. destruct (String.eqb k (tag_classname t)) eqn:Ek; [|exact Hd'].
      apply String.eqb_eq in Ek. exfalso. apply Hk. exists t. exact Ek.
Qed.
Lemma cinv_run : forall u ops, tidy_classes u ops -> cinv u (class_run ops).
Proof.
  intros u ops. induction ops as [|o ops IH] using rev_ind; intro H.
  - split; [discriminate|]. split; [discriminate|]. split; [constructor|discriminate].
  - unfold class_run. rewrite fold_left_app. cbn [fold_left]. fold (class_run ops). apply cinv_step.
    + apply IH. intros pre o' post E. apply (H pre o' (post ++ [o])). rewrite E, <- app_assoc. reflexivity.
    + apply (H ops o []). reflexivity.
Qed.
Lemma tidy_class_evaluates : forall u ops n c, tidy_classes u ops -> dget String.eqb n (class_run ops) = Some c ->
  exists S, denotes u (class_run ops) c S.
Proof.
  intros u ops n c H Hc. destruct (cinv_run u ops H) as [I1 [_ [_ I4]]]. apply (I4 n c Hc). split; [auto|exact I1].
Qed.
Lemma tidy_class_shaped : forall u ops, tidy_classes u ops -> shaped_table (class_run ops).
Proof. intros u ops H. apply (cinv_run u ops H). Qed.
