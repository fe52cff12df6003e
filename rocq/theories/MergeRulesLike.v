(** Rules and classes that are the same but for the names mean the same. *)
From Verif Require Import Base BaseFacts ClassModel ClassSpec ClassProofs RuleModel RuleSpec RuleProofs RuleTable MergeRulesModel MergeRulesSpec.
Open Scope string_scope.
Open Scope list_scope.

Definition swap (R : string -> string -> Prop) : string -> string -> Prop := fun a b => R b a.
Lemma both_swap : forall R a b, both R a b -> both (swap R) b a.
Proof. intros R [x|] [y|] H; cbn in *; auto. Qed.
Lemma F2_swap : forall A (R : A -> A -> Prop) l l', Forall2 R l l' -> Forall2 (fun a b => R b a) l' l.
Proof. intros A R l l' H. induction H; constructor; auto. Qed.
Lemma F2_with : forall A B (R S : A -> B -> Prop) l l', (forall a b, In a l -> R a b -> S a b) -> Forall2 R l l' -> Forall2 S l l'.
Proof. intros A B R S l l' H F. induction F; constructor; [apply H; [left|]; auto|apply IHF; intros; apply H; [right|]; auto]. Qed.
Lemma F2_left : forall A B (R : A -> B -> Prop) l l' x, Forall2 R l l' -> In x l -> exists y, In y l' /\ R x y.
Proof. intros A B R l l' x F. induction F as [|a b la lb H F IH]; intros []; [subst; exists b; split; [left|]; auto|destruct (IH H0) as [y [Y Z]]; exists y; split; [right|]; auto]. Qed.
Lemma F2_right : forall A B (R : A -> B -> Prop) l l' y, Forall2 R l l' -> In y l' -> exists x, In x l /\ R x y.
Proof. intros A B R l l' x F. induction F as [|a b la lb H F IH]; intros []; [subst; exists a; split; [left|]; auto|destruct (IH H0) as [y [Y Z]]; exists y; split; [right|]; auto]. Qed.
Lemma F2_len : forall A B (R : A -> B -> Prop) l l', Forall2 R l l' -> length l = length l'.
Proof. intros A B R l l' F. induction F; cbn; congruence. Qed.

Lemma class_swap : forall Rc Rt c c', like_class Rc Rt c c' -> like_class (swap Rc) (swap Rt) c' c.
Proof.
  intros Rc Rt. apply (cls_induct (fun c => forall c', like_class Rc Rt c c' -> like_class (swap Rc) (swap Rt) c' c)).
  - intros n b t p l c' H. inversion H; subst. constructor; apply both_swap; assumption.
  - intros n op ch IH c' H. inversion H; subst. constructor. apply F2_swap. eapply F2_with; [|eassumption]. cbn. intros a b Ha R. apply IH; assumption.
Qed.
Section Swap.
  Variables Rr Rc Rt : string -> string -> Prop.
  Let P (m : matcher) := forall m', like_matcher Rr Rc Rt m m' -> like_matcher (swap Rr) (swap Rc) (swap Rt) m' m.
  Let Q (r : rule) := forall r', like_rule Rr Rc Rt r r' -> like_rule (swap Rr) (swap Rc) (swap Rt) r' r.
  Let L : forall l, Forall P l -> forall l', Forall2 (like_matcher Rr Rc Rt) l l' -> Forall2 (like_matcher (swap Rr) (swap Rc) (swap Rt)) l' l.
  Proof.
    intros l H l' F. rewrite Forall_forall in H. apply F2_swap. eapply F2_with; [|exact F]. cbn. intros a b Ha R. apply H; assumption.
  Qed.
  Lemma rule_swap : forall r r', like_rule Rr Rc Rt r r' -> like_rule (swap Rr) (swap Rc) (swap Rt) r' r.
  Proof.
    apply (rule_induct P Q); unfold P, Q.
    - intros m' H. inversion H; subst. constructor. exact I.
    - intros m' H. inversion H; subst. constructor. exact I.
    - intros m' H. inversion H; subst. constructor. exact I.
    - intros k m' H. inversion H; subst. constructor. exact I.
    - intros l k m' H. inversion H; subst. constructor. exact I.
    - intros c k m' H. inversion H; subst; [contradiction|]. constructor. apply class_swap. assumption.
    - intros k l IH m' H. inversion H; subst; [contradiction|]. constructor. apply L; assumption.
    - intros l IH m' H. inversion H; subst; [contradiction|]. constructor. apply L; assumption.
    - intros l IH m' H. inversion H; subst; [contradiction|]. constructor. apply L; assumption.
    - intros r k IH m' H. inversion H; subst; [contradiction|]. constructor. apply IH; assumption.
    - intros i n b l IH r' H. inversion H; subst. constructor; [apply both_swap; assumption|apply L; assumption].
  Qed.
End Swap.

Scheme once_m := Induction for once Sort Prop
  with reps_m := Induction for reps Sort Prop
  with seqm_m := Induction for seqm Sort Prop
  with rsem_m := Induction for rsem Sort Prop.
Combined Scheme sem_ind from once_m, reps_m, seqm_m, rsem_m.
Scheme anchored_m := Induction for anchored Sort Prop with anchored_rule_m := Induction for anchored_rule Sort Prop.
Combined Scheme anchored_both from anchored_m, anchored_rule_m.
Scheme resolves_m := Induction for resolves Sort Prop with resolves_rule_m := Induction for resolves_rule Sort Prop.
Combined Scheme resolves_pair from resolves_m, resolves_rule_m.

Ltac opened := repeat match goal with
  | F : Forall2 _ (_ :: _) _ |- _ => inversion F; subst; clear F
  | F : Forall2 _ [] _ |- _ => inversion F; subst; clear F
  end.

Section One.
  Variables (u : unidb) (look look' : table) (rules rules' : rtable).
  Variables Rr Rc Rt : string -> string -> Prop.
  Hypothesis Hc : forall b b' c, Rc b b' -> dget String.eqb b look = Some c -> exists c', dget String.eqb b' look' = Some c' /\ like_class Rc Rt c c'.
  Hypothesis Ht : forall t t' S, Rt t t' -> denotes u look (ClPlain None None (Some t) None []) S -> denotes u look' (ClPlain None None (Some t') None []) S.
  Hypothesis Hr : forall b b' r, Rr b b' -> dget String.eqb b rules = Some r -> exists r', dget String.eqb b' rules' = Some r' /\ like_rule Rr Rc Rt r r'.

  Lemma denotes_one : forall c S, denotes u look c S -> forall c', like_class Rc Rt c c' -> denotes u look' c' S.
  Proof.
    intros c S H. induction H; intros c' L; inversion L; subst.
    - destruct b' as [b'|]; [|contradiction]. match goal with B : both Rc _ _ |- _ => destruct (Hc _ _ _ B H) as [d [D1 D2]] end. eapply D_by_ref; [exact D1|apply IHdenotes; exact D2].
    - destruct b'; [contradiction|]. destruct t' as [t'|]; [|contradiction].
      assert (X : denotes u look' (ClPlain None None (Some t') None []) S) by (eapply Ht; [eassumption|eapply D_tag; eassumption]).
      inversion X; subst; [eapply D_tag; eassumption|eapply D_no_tag; eassumption].
    - destruct b'; [contradiction|]. destruct t' as [t'|]; [|contradiction].
      assert (X : denotes u look' (ClPlain None None (Some t') None []) S) by (eapply Ht; [eassumption|eapply D_no_tag; eassumption]).
      inversion X; subst; [eapply D_tag; eassumption|eapply D_no_tag; eassumption].
    - destruct b'; [contradiction|]. destruct t'; [contradiction|]. eapply D_property; eassumption.
    - destruct b'; [contradiction|]. destruct t'; [contradiction|]. eapply D_literal; eassumption.
    - opened. eapply D_complement; [apply IHdenotes; eassumption|assumption].
    - opened. apply D_union_none. assumption.
    - opened. eapply D_union; [apply IHdenotes1; eassumption|apply IHdenotes2; constructor; eassumption|assumption].
    - opened. eapply D_intersection; [apply IHdenotes1; eassumption|apply IHdenotes2; eassumption|assumption].
    - opened. eapply D_difference; [apply IHdenotes1; eassumption|apply IHdenotes2; eassumption|assumption].
    - opened. eapply D_symmetric_difference; [apply IHdenotes1; eassumption|apply IHdenotes2; eassumption|assumption].
  Qed.

  Lemma count_like : forall m m', like_matcher Rr Rc Rt m m' -> count_of m' = count_of m.
  Proof. intros m m' H. inversion H; reflexivity. Qed.

  Section Sem.
    Variables (w : cps) (anchor : option cps).
    Let once1 := fun (m : matcher) (i j : nat) (_ : once u look rules w anchor m i j) => forall m', like_matcher Rr Rc Rt m m' -> once u look' rules' w anchor m' i j.
    Let reps1 := fun (m : matcher) (n i j : nat) (_ : reps u look rules w anchor m n i j) => forall m', like_matcher Rr Rc Rt m m' -> reps u look' rules' w anchor m' n i j.
    Let seqm1 := fun (l : list matcher) (i j : nat) (_ : seqm u look rules w anchor l i j) => forall l', Forall2 (like_matcher Rr Rc Rt) l l' -> seqm u look' rules' w anchor l' i j.
    Let rsem1 := fun (r : rule) (i j : nat) (_ : rsem u look rules w anchor r i j) => forall r', like_rule Rr Rc Rt r r' -> rsem u look' rules' w anchor r' i j.
    Lemma rsem_one : forall r i j, rsem u look rules w anchor r i j -> forall r', like_rule Rr Rc Rt r r' -> rsem u look' rules' w anchor r' i j.
    Proof.
      apply (rsem_m u look rules w anchor once1 reps1 seqm1 rsem1); unfold once1, reps1, seqm1, rsem1; clear once1 reps1 seqm1 rsem1.
      - intros m' L. inversion L; subst. constructor.
      - intros m' L. inversion L; subst. constructor.
      - intros a i Ha Ho m' L. inversion L; subst. apply O_anchor; auto.
      - intros k i Hi m' L. inversion L; subst. constructor; assumption.
      - intros l k i Ho m' L. inversion L; subst. constructor; assumption.
      - intros c k i x S D N Sx m' L. inversion L; subst; [contradiction|]. eapply O_class; [eapply denotes_one; eassumption|eassumption|assumption].
      - intros k alts m i j Hm _ IH m' L. inversion L; subst; [contradiction|]. match goal with F : Forall2 _ _ _ |- _ => destruct (F2_left _ _ _ _ _ _ F Hm) as [y [Y1 Y2]] end.
        eapply O_choice; [exact Y1|]. apply IH. constructor; [exact Y2|constructor].
      - intros l i j _ IH m' L. inversion L; subst; [contradiction|]. eapply O_ahead. apply IH. assumption.
      - intros l i j Hj _ IH m' L. inversion L; subst; [contradiction|]. eapply O_behind; [exact Hj|]. apply IH. assumption.
      - intros r k i j _ IH m' L. inversion L; subst; [contradiction|]. constructor. apply IH. assumption.
      - intros m i m' L. constructor.
      - intros m n i x j _ IH1 _ IH2 m' L. econstructor; [apply IH1; exact L|apply IH2; exact L].
      - intros i l' L. inversion L; subst. constructor.
      - intros m l n i x j Hk _ IH1 _ IH2 l' L. inversion L; subst. econstructor; [match goal with K : like_matcher _ _ _ m _ |- _ => rewrite (count_like _ _ K) end; exact Hk|apply IH1; assumption|apply IH2; assumption].
      - intros id nm ch i j _ IH r' L. inversion L; subst. destruct b'; [contradiction|]. constructor. apply IH. assumption.
      - intros id nm b ch r i j Hb _ IH r' L. inversion L; subst. destruct b' as [b'|]; [|contradiction].
        match goal with B : both Rr _ _ |- _ => destruct (Hr _ _ _ B Hb) as [r2 [R1 R2]] end. eapply R_by_ref; [exact R1|apply IH; exact R2].
    Qed.
  End Sem.

  Lemma anchored_one : forall r, anchored_rule rules r -> forall r', like_rule Rr Rc Rt r r' -> anchored_rule rules' r'.
  Proof.
    apply (anchored_rule_m rules (fun m _ => forall m', like_matcher Rr Rc Rt m m' -> anchored rules' m')
             (fun r _ => forall r', like_rule Rr Rc Rt r r' -> anchored_rule rules' r')).
    - intros m' L. inversion L; subst. constructor.
    - intros k l m Hm _ IH m' L. inversion L; subst; [contradiction|]. match goal with F : Forall2 _ _ _ |- _ => destruct (F2_left _ _ _ _ _ _ F Hm) as [y [Y1 Y2]] end. eapply A_choice; [exact Y1|auto].
    - intros l m Hm _ IH m' L. inversion L; subst; [contradiction|]. match goal with F : Forall2 _ _ _ |- _ => destruct (F2_left _ _ _ _ _ _ F Hm) as [y [Y1 Y2]] end. eapply A_ahead; [exact Y1|auto].
    - intros l m Hm _ IH m' L. inversion L; subst; [contradiction|]. match goal with F : Forall2 _ _ _ |- _ => destruct (F2_left _ _ _ _ _ _ F Hm) as [y [Y1 Y2]] end. eapply A_behind; [exact Y1|auto].
    - intros r k _ IH m' L. inversion L; subst; [contradiction|]. constructor. auto.
    - intros id nm ch m Hm _ IH r' L. inversion L; subst. destruct b'; [contradiction|]. match goal with F : Forall2 _ _ _ |- _ => destruct (F2_left _ _ _ _ _ _ F Hm) as [y [Y1 Y2]] end. eapply A_children; [exact Y1|auto].
    - intros id nm b ch r Hb _ IH r' L. inversion L; subst. destruct b' as [b'|]; [|contradiction].
      match goal with B : both Rr _ _ |- _ => destruct (Hr _ _ _ B Hb) as [r2 [R1 R2]] end. eapply A_by_ref; [exact R1|apply IH; exact R2].
  Qed.

  Lemma resolves_one : forall r, resolves_rule u look rules r -> forall r', like_rule Rr Rc Rt r r' -> resolves_rule u look' rules' r'.
  Proof.
    apply (resolves_rule_m u look rules (fun m _ => forall m', like_matcher Rr Rc Rt m m' -> resolves u look' rules' m')
             (fun r _ => forall r', like_rule Rr Rc Rt r r' -> resolves_rule u look' rules' r')).
    - intros m' L. inversion L; subst. constructor.
    - intros m' L. inversion L; subst. constructor.
    - intros m' L. inversion L; subst. constructor.
    - intros k m' L. inversion L; subst. constructor.
    - intros l k m' L. inversion L; subst. constructor.
    - intros c k S D m' L. inversion L; subst; [contradiction|]. econstructor. eapply denotes_one; eassumption.
    - intros k l _ IH m' L. inversion L; subst; [contradiction|]. constructor. intros y Hy. match goal with F : Forall2 _ _ _ |- _ => destruct (F2_right _ _ _ _ _ _ F Hy) as [x [X1 X2]] end. eapply IH; eassumption.
    - intros l _ IH m' L. inversion L; subst; [contradiction|]. constructor. intros y Hy. match goal with F : Forall2 _ _ _ |- _ => destruct (F2_right _ _ _ _ _ _ F Hy) as [x [X1 X2]] end. eapply IH; eassumption.
    - intros l _ IH m' L. inversion L; subst; [contradiction|]. constructor. intros y Hy. match goal with F : Forall2 _ _ _ |- _ => destruct (F2_right _ _ _ _ _ _ F Hy) as [x [X1 X2]] end. eapply IH; eassumption.
    - intros r k _ IH m' L. inversion L; subst; [contradiction|]. constructor. auto.
    - intros id nm ch _ IH r' L. inversion L; subst. destruct b'; [contradiction|]. constructor. intros y Hy. match goal with F : Forall2 _ _ _ |- _ => destruct (F2_right _ _ _ _ _ _ F Hy) as [x [X1 X2]] end. eapply IH; eassumption.
    - intros id nm b ch r Hb _ IH r' L. inversion L; subst. destruct b' as [b'|]; [|contradiction].
      match goal with B : both Rr _ _ |- _ => destruct (Hr _ _ _ B Hb) as [r2 [R1 R2]] end. eapply V_by_ref; [exact R1|apply IH; exact R2].
  Qed.

  Lemma shaped_like : forall c c', like_class Rc Rt c c' -> shaped c -> shaped c'.
  Proof.
    apply (cls_induct (fun c => forall c', like_class Rc Rt c c' -> shaped c -> shaped c')).
    - intros n b t p l c' L _. inversion L; subst. exact I.
    - intros n op ch IH c' L Hs. inversion L; subst. apply shaped_comb in Hs. destruct Hs as [H1 H2]. apply shaped_comb. match goal with F : Forall2 _ _ _ |- _ => rewrite <- (F2_len _ _ _ _ _ F) end. split; [exact H1|].
      intros y Hy. match goal with F : Forall2 _ _ _ |- _ => destruct (F2_right _ _ _ _ _ _ F Hy) as [x [X1 X2]] end. eapply IH; eauto.
  Qed.
End One.

(** Both ways. *)
Section Two.
  Variables (u : unidb) (look look' : table) (rules rules' : rtable).
  Variables Rr Rc Rt : string -> string -> Prop.
  Hypothesis Hc : forall b b', Rc b b' -> both (like_class Rc Rt) (dget String.eqb b look) (dget String.eqb b' look').
  Hypothesis Ht : forall t t' S, Rt t t' -> denotes u look (ClPlain None None (Some t) None []) S <-> denotes u look' (ClPlain None None (Some t') None []) S.
  Hypothesis Hr : forall b b', Rr b b' -> both (like_rule Rr Rc Rt) (dget String.eqb b rules) (dget String.eqb b' rules').

  Let Hc1 : forall b b' c, Rc b b' -> dget String.eqb b look = Some c -> exists c', dget String.eqb b' look' = Some c' /\ like_class Rc Rt c c'.
  Proof. intros b b' c R E. specialize (Hc b b' R). rewrite E in Hc. destruct (dget String.eqb b' look') as [c'|]; [|contradiction]. exists c'; auto. Qed.
  Let Hc2 : forall b b' c, swap Rc b b' -> dget String.eqb b look' = Some c -> exists c', dget String.eqb b' look = Some c' /\ like_class (swap Rc) (swap Rt) c c'.
  Proof.
    intros b b' c R E. specialize (Hc b' b R). rewrite E in Hc. destruct (dget String.eqb b' look) as [c'|]; [|contradiction]. exists c'. split; [reflexivity|]. apply class_swap. exact Hc.
  Qed.
  Let Hr1 : forall b b' r, Rr b b' -> dget String.eqb b rules = Some r -> exists r', dget String.eqb b' rules' = Some r' /\ like_rule Rr Rc Rt r r'.
  Proof. intros b b' c R E. specialize (Hr b b' R). rewrite E in Hr. destruct (dget String.eqb b' rules') as [c'|]; [|contradiction]. exists c'; auto. Qed.
  Let Hr2 : forall b b' r, swap Rr b b' -> dget String.eqb b rules' = Some r -> exists r', dget String.eqb b' rules = Some r' /\ like_rule (swap Rr) (swap Rc) (swap Rt) r r'.
  Proof.
    intros b b' c R E. specialize (Hr b' b R). rewrite E in Hr. destruct (dget String.eqb b' rules) as [c'|]; [|contradiction]. exists c'. split; [reflexivity|]. apply rule_swap. exact Hr.
  Qed.
  Let Ht1 : forall t t' S, Rt t t' -> denotes u look (ClPlain None None (Some t) None []) S -> denotes u look' (ClPlain None None (Some t') None []) S.
  Proof. intros t t' S R. apply (Ht t t' S R). Qed.
  Let Ht2 : forall t t' S, swap Rt t t' -> denotes u look' (ClPlain None None (Some t) None []) S -> denotes u look (ClPlain None None (Some t') None []) S.
  Proof. intros t t' S R. apply (Ht t' t S R). Qed.

  Lemma denotes_two : forall c c' S, like_class Rc Rt c c' -> (denotes u look c S <-> denotes u look' c' S).
  Proof.
    intros c c' S L. split; intro H; [exact (denotes_one _ _ _ _ _ Hc1 Ht1 _ _ H _ L)|exact (denotes_one _ _ _ _ _ Hc2 Ht2 _ _ H _ (class_swap _ _ _ _ L))].
  Qed.
  Lemma rsem_two : forall w a r r' i j, like_rule Rr Rc Rt r r' -> (rsem u look rules w a r i j <-> rsem u look' rules' w a r' i j).
  Proof.
    intros w a r r' i j L. split; intro H; [exact (rsem_one _ _ _ _ _ _ _ _ Hc1 Ht1 Hr1 _ _ _ _ _ H _ L)|exact (rsem_one _ _ _ _ _ _ _ _ Hc2 Ht2 Hr2 _ _ _ _ _ H _ (rule_swap _ _ _ _ _ L))].
  Qed.
  Lemma anchored_two : forall r r', like_rule Rr Rc Rt r r' -> (anchored_rule rules r <-> anchored_rule rules' r').
  Proof.
    intros r r' L. split; intro H; [exact (anchored_one _ _ _ _ _ Hr1 _ H _ L)|exact (anchored_one _ _ _ _ _ Hr2 _ H _ (rule_swap _ _ _ _ _ L))].
  Qed.
  Lemma resolves_two : forall r r', like_rule Rr Rc Rt r r' -> (resolves_rule u look rules r <-> resolves_rule u look' rules' r').
  Proof.
    intros r r' L. split; intro H; [exact (resolves_one _ _ _ _ _ _ _ _ Hc1 Ht1 Hr1 _ H _ L)|exact (resolves_one _ _ _ _ _ _ _ _ Hc2 Ht2 Hr2 _ H _ (rule_swap _ _ _ _ _ L))].
  Qed.
  Theorem verdict_two : forall r r' label anchor index, like_rule Rr Rc Rt r r' ->
    (rule_verdict u look rules r label anchor index <-> rule_verdict u look' rules' r' label anchor index).
  Proof.
    intros r r' w a i L. unfold rule_verdict. destruct a as [a|].
    - rewrite (anchored_two _ _ L). split; (intros [[A [j H]]|[A [i0 [j [Hi H]]]]]; [left; split; [exact A|exists j; apply (rsem_two _ _ _ _ _ _ L); exact H]|right; split; [exact A|exists i0, j; split; [exact Hi|apply (rsem_two _ _ _ _ _ _ L); exact H]]]).
    - split; (intros [i0 [j [Hi H]]]; exists i0, j; split; [exact Hi|apply (rsem_two _ _ _ _ _ _ L); exact H]).
  Qed.

  Lemma good_class_two : forall c c', like_class Rc Rt c c' -> good_class u look c -> good_class u look' c'.
  Proof.
    intros c c' L [H1 H2]. split; [exact (shaped_like _ _ _ _ L H1)|]. intros S D. apply (H2 S). apply (denotes_two _ _ S L). exact D.
  Qed.
  Let P (m : matcher) := forall m', like_matcher Rr Rc Rt m m' -> good_matcher u look m -> good_matcher u look' m'.
  Let Q (r : rule) := forall r', like_rule Rr Rc Rt r r' -> good_rule u look r -> good_rule u look' r'.
  Let GL : forall l, Forall P l -> forall l', Forall2 (like_matcher Rr Rc Rt) l l' -> Forall (good_matcher u look) l -> Forall (good_matcher u look') l'.
  Proof.
    intros l H l' F G. rewrite Forall_forall in *. intros y Hy. destruct (F2_right _ _ _ _ _ _ F Hy) as [x [X1 X2]]. apply (H x X1 y X2). auto.
  Qed.
  Let NN : forall (l l' : list matcher), Forall2 (like_matcher Rr Rc Rt) l l' -> l <> [] -> l' <> [].
  Proof. intros l l' F H. inversion F; subst; [contradiction|discriminate]. Qed.
  Lemma good_two : forall r r', like_rule Rr Rc Rt r r' -> good_rule u look r -> good_rule u look' r'.
  Proof.
    apply (rule_induct P Q); unfold P, Q.
    - intros m' L G. inversion L; subst. exact I.
    - intros m' L G. inversion L; subst. exact I.
    - intros m' L G. inversion L; subst. exact I.
    - intros k m' L G. inversion L; subst. exact G.
    - intros l k m' L G. inversion L; subst. exact G.
    - intros c k m' L G. inversion L; subst; [contradiction|]. destruct G as [G1 G2]. split; [eapply good_class_two; eassumption|exact G2].
    - intros k l IH m' L G. inversion L; subst; [contradiction|]. cbn [good_matcher] in *. destruct G as [G1 [G2 G3]]. apply good_list in G3.
      split; [eapply NN; eassumption|]. split; [exact G2|]. apply good_list. eapply GL; eassumption.
    - intros l IH m' L G. inversion L; subst; [contradiction|]. cbn [good_matcher] in *. apply good_list in G. apply good_list. eapply GL; eassumption.
    - intros l IH m' L G. inversion L; subst; [contradiction|]. cbn [good_matcher] in *. apply good_list in G. apply good_list. eapply GL; eassumption.
    - intros r k IH m' L G. inversion L; subst; [contradiction|]. destruct G as [G1 G2]. split; [apply IH; assumption|exact G2].
    - intros i n b l IH r' L G. inversion L; subst. cbn [good_rule] in *. destruct b as [b|], b' as [b'|]; try contradiction; [exact I|].
      destruct G as [G1 G2]. apply good_list in G2. split; [eapply NN; eassumption|]. apply good_list. eapply GL; eassumption.
  Qed.
End Two.

(** ** Other objects *)
Lemma both_eq_refl : forall A (o : option A), both eq o o.
Proof. intros A [x|]; cbn; auto. Qed.
Lemma class_refl : forall c, like_class eq eq c c.
Proof.
  apply (cls_induct (fun c => like_class eq eq c c)).
  - intros. constructor; apply both_eq_refl.
  - intros n op ch IH. constructor. induction ch as [|x ch IHc]; constructor; [apply IH; left; reflexivity|apply IHc; intros c Hc; apply IH; right; exact Hc].
Qed.
Section Refl.
  Let P (m : matcher) := like_matcher eq eq eq m m.
  Let Q (r : rule) := like_rule eq eq eq r r.
  Let L : forall l, Forall P l -> Forall2 (like_matcher eq eq eq) l l.
  Proof. intros l H. induction H; constructor; auto. Qed.
  Lemma rule_refl : forall r, like_rule eq eq eq r r.
  Proof.
    apply (rule_induct P Q); unfold P, Q; intros; try (apply like_it; exact I).
    - apply like_mclass. apply class_refl.
    - apply like_choice. apply L. assumption.
    - apply like_ahead. apply L. assumption.
    - apply like_behind. apply L. assumption.
    - apply like_mrule. assumption.
    - constructor; [apply both_eq_refl|apply L; assumption].
  Qed.
End Refl.
Lemma reread_refl : forall rules, reread rules rules.
Proof. intros rules n. destruct (dget String.eqb n rules) as [r|]; cbn; [apply rule_refl|exact I]. Qed.
Section Reread.
  Variables (u : unidb) (look : table) (rules rules' : rtable).
  Hypothesis R : reread rules rules'.
  Let Hc : forall b b', b = b' -> both (like_class eq eq) (dget String.eqb b look) (dget String.eqb b' look).
  Proof. intros b b' <-. destruct (dget String.eqb b look); cbn; [apply class_refl|exact I]. Qed.
  Let Ht : forall t t' S, t = t' -> denotes u look (ClPlain None None (Some t) None []) S <-> denotes u look (ClPlain None None (Some t') None []) S.
  Proof. intros t t' S <-. tauto. Qed.
  Let Hr : forall b b', b = b' -> both (like_rule eq eq eq) (dget String.eqb b rules) (dget String.eqb b' rules').
  Proof. intros b b' <-. apply R. Qed.
  Lemma reread_verdict : forall r r' label anchor index, like_rule eq eq eq r r' -> (rule_verdict u look rules r label anchor index <-> rule_verdict u look rules' r' label anchor index).
  Proof. intros r r' w a i L. exact (verdict_two u look look rules rules' eq eq eq Hc Ht Hr r r' w a i L). Qed.
  Lemma reread_resolves : forall r r', like_rule eq eq eq r r' -> (resolves_rule u look rules r <-> resolves_rule u look rules' r').
  Proof. intros r r' L. exact (resolves_two u look look rules rules' eq eq eq Hc Ht Hr r r' L). Qed.
End Reread.
