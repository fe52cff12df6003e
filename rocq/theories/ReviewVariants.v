(** Proofs about the comparison of variants. *)
From Coq Require Import Permutation Lia.
From Verif Require Import Base BaseFacts CharModel ActionModel LgrModel CompareModel ReviewModel ReviewSpec.
Open Scope string_scope.
Open Scope list_scope.

Lemma order_single : forall {A} (order : list A -> list A) x, any_order order -> order [x] = [x].
Proof. intros A order x H. apply Permutation_length_1_inv. apply Permutation_sym, H. Qed.
Lemma order_nil : forall {A} (order : list A -> list A), any_order order -> order [] = [].
Proof. intros A order H. apply Permutation_nil, Permutation_sym, H. Qed.

Lemma on_single : forall order d x v, any_order order -> side d x = [v] -> on order d x = [v].
Proof. intros order d x v Ho H. unfold on, side in *. destruct d; rewrite H; apply order_single, Ho. Qed.

Definition rank_of (t : option string) : option nat := rank 0 t types_order.
Lemma rank_known : forall t, rank_of t <> None <-> exists s, t = Some s /\ In s types_order.
Proof.
  intros t. unfold rank_of, types_order. cbn [rank]. split.
  - intros H. destruct t as [s|]; [|destruct H; reflexivity]. cbn [ostring_eqb] in H. exists s. split; [reflexivity|]. cbn [In].
    repeat (match type of H with context [String.eqb s ?x] => destruct (String.eqb_spec s x); [subst; tauto|] end). destruct H; reflexivity.
  - intros (s & -> & H). cbn [ostring_eqb]. cbn [In] in H. repeat (destruct H as [<- | H]; [cbn; discriminate|]). destruct H.
Qed.
Lemma rank_inj : forall a b n, rank_of a = Some n -> rank_of b = Some n -> a = b.
Proof.
  intros a b n Ha Hb.
  assert (A : rank_of a <> None) by congruence. assert (B : rank_of b <> None) by congruence.
  apply rank_known in A. apply rank_known in B. destruct A as (s & -> & A). destruct B as (s' & -> & B). cbn [In types_order] in A, B.
  repeat (destruct A as [<- | A]; [repeat (destruct B as [<- | B]; [first [reflexivity | cbn in Ha, Hb; congruence]|]); destruct B|]). destruct A.
Qed.
Lemma order_is : types_order = conservative.
Proof. reflexivity. Qed.
Lemma rank_at_least : forall s s' n n', rank_of (Some s) = Some n -> rank_of (Some s') = Some n' -> ((n' <= n)%nat <-> at_least s s').
Proof.
  intros s s' n n' Ha Hb.
  assert (A : rank_of (Some s) <> None) by congruence. assert (B : rank_of (Some s') <> None) by congruence.
  apply rank_known in A. apply rank_known in B. destruct A as (? & E & A). injection E as <-. destruct B as (? & E & B). injection E as <-.
  split.
  - intros Hle. cbn [In types_order] in A, B.
    destruct A as [A|[A|[A|[A|[A|[]]]]]]; destruct B as [B|[B|[B|[B|[B|[]]]]]]; subst s s'; cbn in Ha, Hb; injection Ha as <-; injection Hb as <-;
    first
      [ exfalso; lia
      | apply at_least_same; rewrite <- order_is; cbn; tauto
      | eapply (at_least_intro _ _ [] []); reflexivity
      | eapply (at_least_intro _ _ [] [_]); reflexivity
      | eapply (at_least_intro _ _ [] [_; _]); reflexivity
      | eapply (at_least_intro _ _ [] [_; _; _]); reflexivity
      | eapply (at_least_intro _ _ [_] []); reflexivity
      | eapply (at_least_intro _ _ [_] [_]); reflexivity
      | eapply (at_least_intro _ _ [_] [_; _]); reflexivity
      | eapply (at_least_intro _ _ [_; _] []); reflexivity
      | eapply (at_least_intro _ _ [_; _] [_]); reflexivity
      | eapply (at_least_intro _ _ [_; _; _] []); reflexivity ].
  - intros H. inversion H as [a b l1 l2 l3 E | a Hin]; subst.
    + rewrite <- order_is in E.
      assert (D : forall (x y : string) (l1 l2 l3 l : list string), l = l1 ++ y :: l2 ++ x :: l3 -> NoDup l -> rank 0 (Some y) l = Some (List.length l1) /\ rank 0 (Some x) l = Some (List.length l1 + 1 + List.length l2)%nat).
      { clear. intros x y l1 l2 l3 l -> ND.
        assert (G : forall p q n z, ~ In z p -> rank n (Some z) (p ++ z :: q) = Some (n + List.length p)%nat).
        { clear. induction p as [|w p IH]; intros q n z Hz; cbn [app rank ostring_eqb].
          - rewrite String.eqb_refl. cbn. f_equal. lia.
          - destruct (String.eqb_spec z w) as [->|]; [destruct Hz; left; reflexivity|]. rewrite IH; [cbn; f_equal; lia | intros H; apply Hz; right; exact H]. }
        split.
        - apply G. apply NoDup_remove_2 in ND. intros H. apply ND. apply in_or_app. left. exact H.
        - replace (l1 ++ y :: l2 ++ x :: l3) with ((l1 ++ y :: l2) ++ x :: l3) in * by (rewrite <- app_assoc; reflexivity).
          rewrite G; [rewrite app_length; cbn; f_equal; lia|]. apply NoDup_remove_2 in ND. intros H. apply ND. apply in_or_app. left. exact H. }
      destruct (D s s' l1 l2 l3 types_order E) as [D1 D2].
      { unfold types_order. repeat constructor; cbn; intuition discriminate. }
      unfold rank_of in Ha, Hb. rewrite D2 in Ha. rewrite D1 in Hb. injection Ha as <-. injection Hb as <-. lia.
    + assert (n = n') by congruence. lia.
Qed.

(** ** One variant on each side *)
Definition when_t (v : variant) : bool := truthy (v_when v).
Definition notwhen_t (v : variant) : bool := truthy (v_not_when v).
Definition eff (s : option string) : option string := if truthy s then s else None.
Lemma eff_truthy : forall s, truthy (eff s) = truthy s.
Proof. intros s. unfold eff. destruct (truthy s) eqn:E; [exact E | reflexivity]. Qed.
Lemma first_truthy_single : forall f v, first_truthy f [v] = eff (f v).
Proof. intros f v. unfold eff. cbn. destruct (truthy (f v)); reflexivity. Qed.
Lemma eff_context : forall a b, variant_context a = variant_context b <-> eff (v_when a) = eff (v_when b) /\ eff (v_not_when a) = eff (v_not_when b).
Proof.
  intros a b. unfold variant_context, eff.
  destruct (v_when a) as [[|? ?]|], (v_not_when a) as [[|? ?]|], (v_when b) as [[|? ?]|], (v_not_when b) as [[|? ?]|];
    cbn [truthy String.eqb negb]; split; intros H;
    try (split; congruence); try (destruct H as [H1 H2]; congruence); try discriminate H.
Qed.
Section Single.
  Variable order : list variant -> list variant.
  Hypothesis Ho : any_order order.
  Variables (d : direction) (idn ref : vdata) (a b : variant).
  Hypothesis Hi : side d idn = [a].
  Hypothesis Hr : side d ref = [b].

  Definition rules1 : rule_check :=
    let iw := eff (v_when a) in let inw := eff (v_not_when a) in let rw := eff (v_when b) in let rnw := eff (v_not_when b) in
    if (ostring_eqb iw rw && ostring_eqb inw rnw)%bool then RuleMatch
    else if ((truthy iw && truthy inw) || (truthy rw && truthy rnw))%bool then RuleDifferent
    else if ((truthy iw || truthy inw) && negb (truthy rw) && negb (truthy rnw))%bool then RuleLess
    else if ((negb (truthy iw) && negb (truthy inw) && truthy rw) || truthy rnw)%bool then RuleMissing
    else RuleDifferent.
  Lemma rules_single : check_rules order d idn ref = rules1.
  Proof. unfold check_rules, get_when, get_not_when. rewrite (on_single _ _ _ _ Ho Hi), (on_single _ _ _ _ Ho Hr), !first_truthy_single. reflexivity. Qed.
  Definition types1 (v : variant) : list (option string) :=
    [if truthy (v_when v) then v_type v else Some ""; if truthy (v_not_when v) then v_type v else Some "";
     if truthy (v_when v) then Some "" else if truthy (v_not_when v) then Some "" else v_type v].
  Lemma types_single_i : types_of order d idn = types1 a.
  Proof.
    unfold types_of, types1. rewrite (on_single _ _ _ _ Ho Hi). cbn [type_where].
    destruct (truthy (v_when a)), (truthy (v_not_when a)); reflexivity.
  Qed.
  Lemma types_single_r : types_of order d ref = types1 b.
  Proof.
    unfold types_of, types1. rewrite (on_single _ _ _ _ Ho Hr). cbn [type_where].
    destruct (truthy (v_when b)), (truthy (v_not_when b)); reflexivity.
  Qed.
End Single.
Lemma ostring_eqb_refl' : forall t, ostring_eqb t t = true.
Proof. intros t. apply ostring_eqb_eq. reflexivity. Qed.
Definition rank_check (i r : option string) : type_check :=
  match rank_of i, rank_of r with Some x, Some y => if Nat.ltb x y then TypeLess else TypeMore | _, _ => TypeUnknown end.
(** The types of two variants with the same contexts. *)
Lemma types_same_context : forall order d idn ref a b, any_order order -> side d idn = [a] -> side d ref = [b] ->
  variant_context a = variant_context b -> v_type a <> Some "" -> v_type b <> Some "" ->
  check_type order d idn ref = Some (if ostring_eqb (v_type a) (v_type b) then TypeMatch else rank_check (v_type a) (v_type b)).
Proof.
  intros order d idn ref a b Ho Hi Hr Hc Ha Hb. unfold check_type. rewrite (types_single_i order Ho d idn a Hi), (types_single_r order Ho d ref b Hr).
  apply eff_context in Hc. destruct Hc as [C1 C2].
  assert (E1 : truthy (v_when a) = truthy (v_when b)) by (rewrite <- (eff_truthy (v_when a)), <- (eff_truthy (v_when b)), C1; reflexivity).
  assert (E2 : truthy (v_not_when a) = truthy (v_not_when b)) by (rewrite <- (eff_truthy (v_not_when a)), <- (eff_truthy (v_not_when b)), C2; reflexivity).
  unfold types1. rewrite E1, E2.
  assert (Na : ostring_eqb (v_type a) (Some "") = false) by (destruct (ostring_eqb (v_type a) (Some "")) eqn:E; [apply ostring_eqb_eq in E; contradiction | reflexivity]).
  assert (Nb : ostring_eqb (v_type b) (Some "") = false) by (destruct (ostring_eqb (v_type b) (Some "")) eqn:E; [apply ostring_eqb_eq in E; contradiction | reflexivity]).
  destruct (truthy (v_when b)), (truthy (v_not_when b)); cbn [kinds_eqb combine compare_types]; rewrite ?Na, ?Nb; cbn [orb];
    rewrite ?ostring_eqb_refl'; cbn [orb];
    destruct (ostring_eqb (v_type a) (v_type b)) eqn:E; try reflexivity;
    unfold rank_check, rank_of;
    destruct (rank 0 (v_type a) types_order) as [x|]; try reflexivity;
    destruct (rank 0 (v_type b) types_order) as [y|]; try reflexivity;
    destruct (Nat.ltb x y); reflexivity.
Qed.
Lemma rules_same_context : forall a b, rules1 a b = RuleMatch <-> variant_context a = variant_context b.
Proof.
  intros a b. rewrite eff_context. unfold rules1. split.
  - destruct (ostring_eqb (eff (v_when a)) (eff (v_when b)) && ostring_eqb (eff (v_not_when a)) (eff (v_not_when b)))%bool eqn:E.
    + intros _. apply andb_prop in E. destruct E as [E1 E2]. apply ostring_eqb_eq in E1. apply ostring_eqb_eq in E2. auto.
    + intros H. exfalso. revert H. repeat match goal with |- context [if ?c then _ else _] => destruct c end; discriminate.
  - intros [E1 E2]. rewrite E1, E2, !ostring_eqb_refl'. reflexivity.
Qed.

(** The comparison when both sides have one variant in the direction. *)
Lemma same_context_result : forall order d idn ref a b x, any_order order -> side d idn = [a] -> side d ref = [b] ->
  vd_fwd idn <> [] -> vd_fwd ref <> [] ->
  variant_context a = variant_context b -> v_type a <> Some "" -> v_type b <> Some "" ->
  exists r m, compared order d idn ref x = Ok (r, m) /\
    ((v_type a = v_type b /\ r = RMatch) \/
     (v_type a <> v_type b /\ (exists s s', v_type a = Some s /\ v_type b = Some s' /\ at_least s s') /\ r = RNote) \/
     (v_type a <> v_type b /\ ~ (exists s s', v_type a = Some s /\ v_type b = Some s' /\ at_least s s') /\ r = RReview)).
Proof.
  intros order d idn ref a b x Ho Hi Hr Fi Fr Hc Ha Hb. unfold compared, variant_result.
  destruct (vd_fwd idn) as [|v1 l1] eqn:E1; [contradiction|]. destruct (vd_fwd ref) as [|v2 l2] eqn:E2; [contradiction|]. cbn [nonempty negb].
  rewrite (rules_single order Ho d idn ref a b Hi Hr), (proj2 (rules_same_context a b) Hc), (types_same_context order d idn ref a b Ho Hi Hr Hc Ha Hb).
  destruct (ostring_eqb (v_type a) (v_type b)) eqn:E.
  - apply ostring_eqb_eq in E. do 2 eexists. split; [reflexivity|]. left. auto.
  - assert (N : v_type a <> v_type b) by (intros H; rewrite H, ostring_eqb_refl' in E; discriminate E).
    unfold rank_check. destruct (rank_of (v_type a)) as [n|] eqn:Ra, (rank_of (v_type b)) as [n'|] eqn:Rb.
    + assert (exists s, v_type a = Some s) as (s & Es) by (destruct (v_type a) as [s|]; [exists s; reflexivity | discriminate Ra]).
      assert (exists s, v_type b = Some s) as (s' & Es') by (destruct (v_type b) as [s'|]; [exists s'; reflexivity | discriminate Rb]).
      rewrite Es in Ra. rewrite Es' in Rb. pose proof (rank_at_least s s' n n' Ra Rb) as L.
      destruct (Nat.ltb_spec n n') as [H|H].
      * do 2 eexists. split; [reflexivity|]. right. right. split; [exact N|]. split; [|reflexivity].
        intros (t & t' & Et & Et' & At). assert (t = s) by congruence. assert (t' = s') by congruence. subst t t'. apply L in At. lia.
      * do 2 eexists. split; [reflexivity|]. right. left. split; [exact N|]. split; [|reflexivity]. exists s, s'. split; [exact Es|]. split; [exact Es'|]. apply L. exact H.
    + do 2 eexists. split; [reflexivity|]. right. right. split; [exact N|]. split; [|reflexivity].
      intros (t & t' & Et & Et' & At). assert (K : rank_of (v_type b) <> None); [|congruence]. apply rank_known. exists t'. split; [exact Et'|].
      inversion At as [p q l3 l4 l5 EE | p Hp]; subst; [rewrite order_is, EE; apply in_or_app; right; left; reflexivity | exact Hp].
    + do 2 eexists. split; [reflexivity|]. right. right. split; [exact N|]. split; [|reflexivity].
      intros (t & t' & Et & Et' & At). assert (K : rank_of (v_type a) <> None); [|congruence]. apply rank_known. exists t. split; [exact Et|].
      inversion At as [p q l3 l4 l5 EE | p Hp]; subst; [rewrite order_is, EE; apply in_or_app; right; right; apply in_or_app; right; left; reflexivity | exact Hp].
    + do 2 eexists. split; [reflexivity|]. right. right. split; [exact N|]. split; [|reflexivity].
      intros (t & t' & Et & Et' & At). assert (K : rank_of (v_type a) <> None); [|congruence]. apply rank_known. exists t. split; [exact Et|].
      inversion At as [p q l3 l4 l5 EE | p Hp]; subst; [rewrite order_is, EE; apply in_or_app; right; right; apply in_or_app; right; left; reflexivity | exact Hp].
Qed.
Lemma other_context_result : forall order d idn ref a b x r m, any_order order -> side d idn = [a] -> side d ref = [b] ->
  vd_fwd idn <> [] -> vd_fwd ref <> [] -> variant_context a <> variant_context b ->
  compared order d idn ref x = Ok (r, m) -> r = RManual \/ r = RReview.
Proof.
  intros order d idn ref a b x r m Ho Hi Hr Fi Fr Hc. unfold compared, variant_result.
  destruct (vd_fwd idn) as [|v1 l1] eqn:E1; [contradiction|]. destruct (vd_fwd ref) as [|v2 l2] eqn:E2; [contradiction|]. cbn [nonempty negb].
  rewrite (rules_single order Ho d idn ref a b Hi Hr).
  assert (N : rules1 a b <> RuleMatch) by (intros H; apply rules_same_context in H; contradiction).
  destruct (rules1 a b); [congruence | | |]; destruct (check_type order d idn ref) as [[| | |]|]; intros H; injection H as <- _; auto.
Qed.
Lemma single_match_iff : forall order d idn ref a b x, any_order order -> side d idn = [a] -> side d ref = [b] ->
  vd_fwd idn <> [] -> vd_fwd ref <> [] -> v_type a <> Some "" -> v_type b <> Some "" ->
  ((exists m, compared order d idn ref x = Ok (RMatch, m)) <-> variant_context a = variant_context b /\ v_type a = v_type b).
Proof.
  intros order d idn ref a b x Ho Hi Hr Fi Fr Ha Hb. split.
  - intros (m & E).
    assert (Hc : variant_context a = variant_context b).
    { apply rules_same_context. destruct (rules1 a b) eqn:R; [reflexivity | | |];
      (destruct (other_context_result order d idn ref a b x RMatch m Ho Hi Hr Fi Fr) as [K | K];
        [intros Hc; apply rules_same_context in Hc; congruence | exact E | discriminate K | discriminate K]). }
    split; [exact Hc|]. destruct (same_context_result order d idn ref a b x Ho Hi Hr Fi Fr Hc Ha Hb) as (r & m' & E' & H).
    rewrite E in E'. injection E' as <- _. destruct H as [[H _] | [(_ & _ & H) | (_ & _ & H)]]; [exact H | discriminate H | discriminate H].
  - intros [Hc Ht]. destruct (same_context_result order d idn ref a b x Ho Hi Hr Fi Fr Hc Ha Hb) as (r & m & E & H). exists m. rewrite E.
    destruct H as [[_ ->] | [(N & _) | (N & _)]]; [reflexivity | contradiction | contradiction].
Qed.
Lemma single_accepted : forall order d idn ref a b x r m, any_order order -> side d idn = [a] -> side d ref = [b] ->
  vd_fwd idn <> [] -> vd_fwd ref <> [] -> v_type a <> Some "" -> v_type b <> Some "" ->
  compared order d idn ref x = Ok (r, m) -> r = RMatch \/ r = RSubset \/ r = RNote ->
  variant_context a = variant_context b /\ (v_type a = v_type b \/ exists s s', v_type a = Some s /\ v_type b = Some s' /\ at_least s s').
Proof.
  intros order d idn ref a b x r m Ho Hi Hr Fi Fr Ha Hb E Hl.
  assert (Hc : variant_context a = variant_context b).
  { apply rules_same_context. destruct (rules1 a b) eqn:R; [reflexivity | | |];
    (destruct (other_context_result order d idn ref a b x r m Ho Hi Hr Fi Fr) as [K | K];
      [intros Hc; apply rules_same_context in Hc; congruence | exact E | subst r; intuition discriminate | subst r; intuition discriminate]). }
  split; [exact Hc|]. destruct (same_context_result order d idn ref a b x Ho Hi Hr Fi Fr Hc Ha Hb) as (r' & m' & E' & H).
  rewrite E in E'. injection E' as <- _. destruct H as [[H _] | [(_ & H & _) | (_ & _ & H)]]; [left; exact H | right; exact H | subst r; intuition discriminate].
Qed.
(** Conditions added or dropped. *)
Lemma added_condition : forall order d idn ref a b x, any_order order -> side d idn = [a] -> side d ref = [b] ->
  vd_fwd idn <> [] -> vd_fwd ref <> [] ->
  truthy (v_when a) = negb (truthy (v_not_when a)) -> variant_context b = (NoContext, NoContext) ->
  exists m, compared order d idn ref x = Ok (RReview, m).
Proof.
  intros order d idn ref a b x Ho Hi Hr Fi Fr Hx Hb. unfold compared, variant_result.
  destruct (vd_fwd idn) as [|v1 l1] eqn:E1; [contradiction|]. destruct (vd_fwd ref) as [|v2 l2] eqn:E2; [contradiction|]. cbn [nonempty negb].
  rewrite (rules_single order Ho d idn ref a b Hi Hr).
  assert (R : rules1 a b = RuleLess).
  { unfold rules1, variant_context in *. unfold eff. destruct (v_when b) as [[|? ?]|], (v_not_when b) as [[|? ?]|]; try discriminate Hb;
    destruct (v_when a) as [[|? ?]|], (v_not_when a) as [[|? ?]|]; cbn in *; try discriminate Hx; reflexivity. }
  rewrite R. eexists. reflexivity.
Qed.
Lemma dropped_condition : forall order d idn ref a b x, any_order order -> side d idn = [a] -> side d ref = [b] ->
  vd_fwd idn <> [] -> vd_fwd ref <> [] ->
  variant_context a = (NoContext, NoContext) -> variant_context b <> (NoContext, NoContext) ->
  exists m, compared order d idn ref x = Ok (RManual, m).
Proof.
  intros order d idn ref a b x Ho Hi Hr Fi Fr Ha Hb. unfold compared, variant_result.
  destruct (vd_fwd idn) as [|v1 l1] eqn:E1; [contradiction|]. destruct (vd_fwd ref) as [|v2 l2] eqn:E2; [contradiction|]. cbn [nonempty negb].
  rewrite (rules_single order Ho d idn ref a b Hi Hr). unfold check_type. rewrite (types_single_i order Ho d idn a Hi), (types_single_r order Ho d ref b Hr).
  assert (W : truthy (v_when a) = false /\ truthy (v_not_when a) = false).
  { unfold variant_context in Ha. destruct (v_when a) as [[|? ?]|], (v_not_when a) as [[|? ?]|]; try discriminate Ha; split; reflexivity. }
  destruct W as [W1 W2].
  assert (R : rules1 a b = RuleMissing \/ rules1 a b = RuleDifferent).
  { unfold rules1, eff. rewrite W1, W2. unfold variant_context in Hb. destruct (v_when b) as [[|? ?]|], (v_not_when b) as [[|? ?]|]; cbn in *; auto; congruence. }
  assert (T : (if kinds_eqb (types1 a) (types1 b) then Some TypeMatch else compare_types (combine (types1 a) (types1 b)) None) = Some TypeMatch \/
              (if kinds_eqb (types1 a) (types1 b) then Some TypeMatch else compare_types (combine (types1 a) (types1 b)) None) = None).
  { destruct (kinds_eqb (types1 a) (types1 b)); [left; reflexivity|]. right. unfold types1. rewrite W1, W2. cbn [combine].
    assert (truthy (v_when b) = true \/ truthy (v_not_when b) = true) as K.
    { unfold variant_context in Hb. destruct (v_when b) as [[|? ?]|], (v_not_when b) as [[|? ?]|]; cbn; auto; congruence. }
    cbn [compare_types]. change (ostring_eqb (Some "") (Some "")) with true. cbn [orb].
    destruct (truthy (v_when b)), (truthy (v_not_when b)); try (destruct K; discriminate);
      change (ostring_eqb (Some "") (Some "")) with true; rewrite Bool.orb_true_r; reflexivity. }
  destruct R as [-> | ->], T as [-> | ->]; eexists; reflexivity.
Qed.
(** The result never fails, and depends on the remark only. *)
Lemma variant_result_ok : forall order im rm idn ref d x, exists r m, variant_result order im rm idn ref d x = Ok (r, m).
Proof.
  intros. unfold variant_result. destruct im; [eauto|]. destruct rm; [eauto|].
  destruct (nonempty (vd_fwd idn)); cbn [negb]; [|destruct x; eauto]. destruct (nonempty (vd_fwd ref)); cbn [negb]; [|eauto].
  destruct (check_rules order d idn ref); destruct (check_type order d idn ref) as [[| | |]|]; eauto.
Qed.
