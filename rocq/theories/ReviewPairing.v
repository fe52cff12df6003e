(** Proofs about the pairing of variant sets. *)
From Coq Require Import Permutation Sorted Lia.
From Verif Require Import Base BaseFacts CharModel RepSpec RepProofs VariantProofs VarSetSpec VarSetProofs ActionModel LgrModel CompareModel CompareProofs ReviewModel ReviewSpec ReviewSelf.
Open Scope string_scope.
Open Scope list_scope.

Lemma head_in : forall F s, family F -> In s F -> In (head s) s.
Proof. intros F s (H & _) Hs. destruct (H s Hs) as [Hn _]. destruct s; [contradiction | left; reflexivity]. Qed.
Lemma head_least : forall F s x, family F -> In s F -> In x s -> cps_leb (head s) x = true.
Proof. intros F s x (H & _) Hs Hx. destruct (H s Hs) as [_ Hl]. apply Hl, Hx. Qed.
Lemma meet_eq : forall F s t x, family F -> In s F -> In t F -> In x s -> In x t -> s = t.
Proof. intros F s t x (_ & _ & H). apply H. Qed.
Lemma head_inj : forall F s t, family F -> In s F -> In t F -> head s = head t -> s = t.
Proof. intros F s t HF Hs Ht E. apply (meet_eq F s t (head s) HF Hs Ht); [apply (head_in F); assumption | rewrite E; apply (head_in F); assumption]. Qed.
Lemma subset_of_iff : forall a b, subset_of a b = true <-> incl a b.
Proof.
  intros a b. unfold subset_of. rewrite forallb_forall. split; intros H x Hx.
  - apply (memb_In _ _ cps_eqb_eq), H, Hx.
  - apply (memb_In _ _ cps_eqb_eq), H, Hx.
Qed.
Lemma by_first_is : forall sets k s, family sets -> (dget cps_eqb k (by_first sets) = Some s <-> In s sets /\ k = head s).
Proof.
  intros sets k s HF. unfold by_first.
  assert (G : forall l d, incl l sets -> NoDup l -> (forall t, In t l -> ~ In (head t) (dkeys d)) ->
     (dget cps_eqb k (fold_left (fun d s => match s with [] => d | x :: _ => dset cps_eqb x s d end) l d) = Some s <-> dget cps_eqb k d = Some s \/ (In s l /\ k = head s))).
  { induction l as [|t l IH]; intros d Hl Hn Hd; cbn [fold_left].
    - split; [intros H; left; exact H | intros [H | [[] _]]; exact H].
    - inversion Hn as [|? ? Hnt Hn']; subst.
      assert (Ht : In t sets) by (apply Hl; left; reflexivity). pose proof (head_in _ _ HF Ht) as Hh.
      destruct t as [|x t']; [destruct Hh|]. change x with (head (x :: t')) at 1. set (t := x :: t') in *.
      rewrite IH; [| intros y Hy; apply Hl; right; exact Hy | exact Hn' |].
      + rewrite (dget_dset _ cps_eqb_eq). split.
        * intros [H | [H ->]]; [|right; split; [right; exact H | reflexivity]].
          destruct (cps_eqb k (head t)) eqn:E; [|left; exact H]. apply cps_eqb_eq in E. injection H as <-. right. split; [left; reflexivity | exact E].
        * intros [H | [[<- | H] ->]]; [| left; rewrite cps_eqb_refl; reflexivity | right; split; [exact H | reflexivity]].
          left. destruct (cps_eqb k (head t)) eqn:E; [|exact H]. apply cps_eqb_eq in E. subst k. destruct (Hd t (or_introl eq_refl)). apply (dget_Some_key _ cps_eqb_eq) in H. exact H.
      + intros u Hu Hk. apply (dset_keys_iff _ cps_eqb_eq) in Hk. destruct Hk as [Hk | Hk].
        * assert (u = t) by (apply (head_inj sets); auto; apply Hl; right; exact Hu). subst u. contradiction.
        * apply (Hd u (or_intror Hu) Hk). }
  rewrite (G sets []); [| apply incl_refl | apply HF | intros t _ []]. split; [intros [H | H]; [discriminate H | exact H] | intros H; right; exact H].
Qed.
Lemma by_first_NoDup : forall sets, NoDup (dkeys (by_first sets)).
Proof.
  intros sets. unfold by_first. assert (G : forall l d, NoDup (dkeys d) -> NoDup (dkeys (fold_left (fun d s => match s with [] => d | x :: _ => dset cps_eqb x s d end) l d))).
  { induction l as [|t l IH]; intros d Hd; [exact Hd|]. cbn [fold_left]. apply IH. destruct t; [exact Hd | apply (dset_NoDup _ cps_eqb_eq), Hd]. }
  apply G. constructor.
Qed.
Lemma by_first_key : forall sets k, family sets -> (In k (dkeys (by_first sets)) <-> exists s, In s sets /\ k = head s).
Proof.
  intros sets k HF. split.
  - intros H. destruct (dget cps_eqb k (by_first sets)) as [s|] eqn:E; [|apply (dget_None _ cps_eqb_eq) in E; contradiction]. exists s. apply by_first_is; assumption.
  - intros (s & Hs). apply (by_first_is _ _ _ HF) in Hs. apply (dget_Some_key _ cps_eqb_eq) in Hs. exact Hs.
Qed.
Lemma dget_key : forall {V} (d : dict cps V) k, In k (dkeys d) -> exists v, dget cps_eqb k d = Some v.
Proof. intros V d k H. destruct (dget cps_eqb k d) as [v|] eqn:E; [eauto|]. apply (dget_None _ cps_eqb_eq) in E. contradiction. Qed.

Section Pairing.
  Variables I R : list (list cps).
  Hypothesis HI : family I.
  Hypothesis HR : family R.
  Definition alone_i (s : list cps) : Prop := forall t, In t R -> head t <> head s.
  Definition alone_r (t : list cps) : Prop := forall s, In s I -> head s <> head t.
  Definition moved (s t : list cps) : Prop := In s I /\ In t R /\ alone_i s /\ alone_r t /\ incl s t.
  Definition copied (t s : list cps) : Prop := In s I /\ In t R /\ alone_i s /\ alone_r t /\ incl t s.
  Record inv (p : pairing) : Prop := {
    nd_i : NoDup (dkeys (pr_idn p));
    i1 : forall k s, dget cps_eqb k (pr_idn p) = Some s -> In s I /\ (k = head s \/ exists t, moved s t /\ k = head t);
    i2 : forall s, In s I -> exists k, dget cps_eqb k (pr_idn p) = Some s;
    i3 : forall s k k', dget cps_eqb k (pr_idn p) = Some s -> dget cps_eqb k' (pr_idn p) = Some s -> k = k';
    nd_r : NoDup (dkeys (pr_ref p));
    r1 : forall k t, dget cps_eqb k (pr_ref p) = Some t -> In t R /\ (k = head t \/ exists s, copied t s /\ k = head s /\ In (head t) (pr_updated p));
    r2 : forall t, In t R -> dget cps_eqb (head t) (pr_ref p) = Some t;
    r3 : forall u, In u (pr_updated p) -> exists t s, u = head t /\ copied t s /\ dget cps_eqb (head s) (pr_ref p) = Some t;
    n1 : forall k, In k (pr_new p) -> exists s t, In s I /\ In t R /\ alone_i s /\ alone_r t /\ ((incl s t /\ k = head t) \/ (incl t s /\ k = head s))
  }.
  Lemma incl_head : forall s t, In s I -> In t R -> incl s t -> cps_leb (head t) (head s) = true.
  Proof. intros s t Hs Ht H. apply (head_least R); auto. apply H. apply (head_in I); auto. Qed.
  Lemma incl_head' : forall s t, In s I -> In t R -> incl t s -> cps_leb (head s) (head t) = true.
  Proof. intros s t Hs Ht H. apply (head_least I); auto. apply H. apply (head_in R); auto. Qed.
  Lemma same_over : forall s t t', In s I -> In t R -> In t' R -> incl s t -> incl s t' -> t = t'.
  Proof. intros s t t' Hs Ht Ht' H H'. apply (meet_eq R t t' (head s)); auto; [apply H | apply H']; apply (head_in I); auto. Qed.
  Lemma same_over' : forall t s s', In t R -> In s I -> In s' I -> incl t s -> incl t s' -> s = s'.
  Proof. intros t s s' Ht Hs Hs' H H'. apply (meet_eq I s s' (head t)); auto; [apply H | apply H']; apply (head_in R); auto. Qed.
  (** A set below and above related sets of the other side. *)
  Lemma not_both : forall s t t', moved s t -> In t' R -> incl t' s -> False.
  Proof.
    intros s t t' (Hs & Ht & As & At & H) Ht' H'.
    assert (t' = t). { apply (meet_eq R t' t (head t')); auto; [|apply H, H']; apply (head_in R); auto. }
    subst t'. apply (As t Ht). apply cps_leb_antisym; [apply incl_head; auto | apply incl_head'; auto].
  Qed.
  Lemma not_both' : forall t s s', copied t s -> In s' I -> incl s' t -> False.
  Proof.
    intros t s s' (Hs & Ht & As & At & H) Hs' H'.
    assert (s' = s). { apply (meet_eq I s' s (head s')); auto; [|apply H, H']; apply (head_in I); auto. }
    subst s'. apply (As t Ht). apply cps_leb_antisym; [apply incl_head; auto | apply incl_head'; auto].
  Qed.
  Lemma min_over : forall s t, moved s t -> cps_min (head s) (head t) = head t.
  Proof.
    intros s t (Hs & Ht & As & At & H). unfold cps_min. destruct (cps_leb (head s) (head t)) eqn:E; [|reflexivity].
    exfalso. apply (As t Ht). apply cps_leb_antisym; [apply incl_head; auto | exact E].
  Qed.
  Lemma min_under : forall s t, copied t s -> cps_min (head s) (head t) = head s.
  Proof. intros s t (Hs & Ht & As & At & H). unfold cps_min. rewrite incl_head'; auto. Qed.
  Definition stable (s : list cps) (p p' : pairing) : Prop :=
    (forall s', In s' I -> s' <> s -> dget cps_eqb (head s') (pr_idn p) = Some s' -> dget cps_eqb (head s') (pr_idn p') = Some s') /\
    (forall k, (forall s', In s' I -> head s' <> k) -> In k (dkeys (pr_idn p)) -> In k (dkeys (pr_idn p'))) /\
    (forall k, In k (dkeys (pr_ref p)) -> In k (dkeys (pr_ref p'))).
  Definition done (s t : list cps) (p : pairing) : Prop :=
    (incl s t -> In (head t) (dkeys (pr_idn p))) /\ (incl t s -> In (head s) (dkeys (pr_ref p))).
  Lemma stable_refl : forall s p, stable s p p.
  Proof. intros s p. split; [|split]; auto. Qed.
  Lemma stable_trans : forall s p q r, stable s p q -> stable s q r -> stable s p r.
  Proof. intros s p q r (A & B & C) (A' & B' & C'). split; [|split]; auto. Qed.
  Lemma add_new : forall p k, inv p -> (exists s t, In s I /\ In t R /\ alone_i s /\ alone_r t /\ ((incl s t /\ k = head t) \/ (incl t s /\ k = head s))) ->
    inv (mkPairing (pr_idn p) (pr_ref p) (pr_updated p) (k :: pr_new p)).
  Proof. intros p k [A B C D E F G H N] Hk. split; cbn [pr_idn pr_ref pr_updated pr_new]; auto. intros x [<- | Hx]; auto. Qed.
  (** The set [s] at its own place, or not. *)
  Lemma own_place : forall p s, inv p -> In s I -> In (head s) (dkeys (pr_idn p)) -> dget cps_eqb (head s) (pr_idn p) = Some s.
  Proof.
    intros p s Hp Hs Hk. destruct (dget_key _ _ Hk) as (s0 & E). destruct (i1 p Hp _ _ E) as [H0 [K | (t & (_ & _ & _ & At & _) & K)]].
    - assert (s = s0) by (apply (head_inj I); auto). subst s0. exact E.
    - destruct (At s Hs K).
  Qed.
  Lemma pair_one_over : forall p s t, inv p -> moved s t ->
    exists p', pair_one (head s) (head t) s p = Ok p' /\ inv p' /\ stable s p p' /\ done s t p'.
  Proof.
    intros p s t Hp M. pose proof M as (Hs & Ht & As & At & H). unfold pair_one. rewrite (r2 p Hp t Ht).
    rewrite (proj2 (subset_of_iff s t) H). cbn [orb]. rewrite (min_over s t M). cbv zeta. cbn [pr_idn pr_ref pr_updated pr_new].
    assert (Hn : exists s0 t0, In s0 I /\ In t0 R /\ alone_i s0 /\ alone_r t0 /\ ((incl s0 t0 /\ head t = head t0) \/ (incl t0 s0 /\ head t = head s0))).
    { exists s, t. auto 10. }
    pose proof (add_new p (head t) Hp Hn) as Hp1.
    assert (Hkr : dmem cps_eqb (head t) (pr_ref p) = true). { apply (dmem_In _ cps_eqb_eq). apply (dget_Some_key _ cps_eqb_eq) with (v := t). apply (r2 p Hp t Ht). }
    assert (Hnd : ~ incl t s) by (intros K; apply (not_both s t t M Ht K)).
    destruct (dmem cps_eqb (head t) (pr_idn p)) eqn:Em.
    - cbn [bind pr_ref]. rewrite Hkr. eexists. split; [reflexivity|]. split; [exact Hp1|]. split; [apply (stable_refl s p)|].
      split; [intros _; apply (dmem_In _ cps_eqb_eq), Em | intros K; contradiction].
    - assert (Hno : ~ In (head t) (dkeys (pr_idn p))) by (intros K; apply (dmem_In _ cps_eqb_eq) in K; congruence).
      assert (E : dget cps_eqb (head s) (pr_idn p) = Some s).
      { destruct (i2 p Hp s Hs) as (k & Ek). destruct (i1 p Hp k s Ek) as [_ [-> | (t' & (_ & Ht' & _ & _ & H') & ->)]]; [exact Ek|].
        rewrite <- (same_over s t t' Hs Ht Ht' H H') in Ek. apply (dget_Some_key _ cps_eqb_eq) in Ek. contradiction. }
      rewrite E. cbn [bind pr_ref]. rewrite Hkr. eexists. split; [reflexivity|].
      assert (Hd : forall k, dget cps_eqb k (dset cps_eqb (head t) s (ddel cps_eqb (head s) (pr_idn p))) =
                             if cps_eqb k (head t) then Some s else if cps_eqb k (head s) then None else dget cps_eqb k (pr_idn p)).
      { intros k. rewrite (dget_dset _ cps_eqb_eq). rewrite (dget_ddel _ cps_eqb_eq) by apply (nd_i p Hp). reflexivity. }
      assert (Hss : forall k, dget cps_eqb k (pr_idn p) = Some s -> k = head s) by (intros k Hk; apply (i3 p Hp s k (head s) Hk E)).
      split; [|split].
      + split; cbn [pr_idn pr_ref pr_updated pr_new]; try apply Hp1.
        * apply (dset_NoDup _ cps_eqb_eq), (ddel_NoDup cps_eqb), (nd_i p Hp).
        * intros k s0. rewrite Hd. destruct (cps_eqb k (head t)) eqn:E1.
          -- intros K. injection K as <-. apply cps_eqb_eq in E1. split; [exact Hs|]. right. exists t. auto.
          -- destruct (cps_eqb k (head s)); [discriminate|]. apply (i1 p Hp).
        * intros s0 Hs0. destruct (i2 p Hp s0 Hs0) as (k & Ek).
          destruct (cps_eqb k (head s)) eqn:E1.
          -- apply cps_eqb_eq in E1. subst k. assert (s0 = s) by congruence. subst s0. exists (head t). rewrite Hd, cps_eqb_refl. reflexivity.
          -- exists k. rewrite Hd, E1. destruct (cps_eqb k (head t)) eqn:E2; [|exact Ek]. apply cps_eqb_eq in E2. subst k. apply (dget_Some_key _ cps_eqb_eq) in Ek. contradiction.
        * intros s0 k k'. rewrite !Hd.
          destruct (cps_eqb k (head t)) eqn:E1; destruct (cps_eqb k' (head t)) eqn:E2.
          -- intros _ _. apply cps_eqb_eq in E1. apply cps_eqb_eq in E2. congruence.
          -- intros K. injection K as <-. destruct (cps_eqb k' (head s)) eqn:E3; [discriminate|]. intros K. apply Hss in K. apply cps_eqb_neq in E3. contradiction.
          -- destruct (cps_eqb k (head s)) eqn:E3; [discriminate|]. intros K0 K. injection K as <-. apply Hss in K0. apply cps_eqb_neq in E3. contradiction.
          -- destruct (cps_eqb k (head s)); [discriminate|]. destruct (cps_eqb k' (head s)); [discriminate|]. apply (i3 p Hp).
      + split; [|split]; cbn [pr_idn pr_ref].
        * intros s' Hs' Hne K. rewrite Hd. destruct (cps_eqb (head s') (head t)) eqn:E1; [apply cps_eqb_eq in E1; destruct (At s' Hs' E1)|].
          destruct (cps_eqb (head s') (head s)) eqn:E2; [apply cps_eqb_eq in E2; destruct Hne; apply (head_inj I); auto | exact K].
        * intros k Hk K. destruct (dget_key _ _ K) as (v & Ev). destruct (cps_eqb k (head t)) eqn:E1.
          -- apply (dset_keys_iff _ cps_eqb_eq). left. apply cps_eqb_eq, E1.
          -- apply (dget_Some_key _ cps_eqb_eq) with (v := v). rewrite Hd, E1. destruct (cps_eqb k (head s)) eqn:E2; [apply cps_eqb_eq in E2; subst k; destruct (Hk s Hs eq_refl) | exact Ev].
        * auto.
      + split; [intros _; apply (dset_keys_iff _ cps_eqb_eq); left; reflexivity | intros K; contradiction].
  Qed.
  Lemma pair_one_under : forall p s t, inv p -> copied t s ->
    exists p', pair_one (head s) (head t) s p = Ok p' /\ inv p' /\ stable s p p' /\ done s t p'.
  Proof.
    intros p s t Hp M. pose proof M as (Hs & Ht & As & At & H). unfold pair_one. rewrite (r2 p Hp t Ht).
    rewrite (proj2 (subset_of_iff t s) H), Bool.orb_true_r. rewrite (min_under s t M). cbv zeta. cbn [pr_idn pr_ref pr_updated pr_new].
    assert (Hn : exists s0 t0, In s0 I /\ In t0 R /\ alone_i s0 /\ alone_r t0 /\ ((incl s0 t0 /\ head s = head t0) \/ (incl t0 s0 /\ head s = head s0))).
    { exists s, t. auto 10. }
    pose proof (add_new p (head s) Hp Hn) as Hp1.
    assert (Hnd : ~ incl s t) by (intros K; apply (not_both' t s s M Hs K)).
    assert (E : In (head s) (dkeys (pr_idn p))).
    { destruct (i2 p Hp s Hs) as (k & Ek). destruct (i1 p Hp k s Ek) as [_ [-> | (t' & Mt & ->)]]; [apply (dget_Some_key _ cps_eqb_eq) in Ek; exact Ek|].
      destruct (not_both s t' t Mt Ht H). }
    apply (dmem_In _ cps_eqb_eq) in E. rewrite E. cbn [bind pr_ref].
    destruct (dmem cps_eqb (head s) (pr_ref p)) eqn:Em.
    - eexists. split; [reflexivity|]. split; [exact Hp1|]. split; [apply (stable_refl s p)|].
      split; [intros K; contradiction | intros _; apply (dmem_In _ cps_eqb_eq), Em].
    - assert (Hno : ~ In (head s) (dkeys (pr_ref p))) by (intros K; apply (dmem_In _ cps_eqb_eq) in K; congruence).
      eexists. split; [reflexivity|].
      assert (Hd : forall k, dget cps_eqb k (dset cps_eqb (head s) t (pr_ref p)) = if cps_eqb k (head s) then Some t else dget cps_eqb k (pr_ref p)).
      { intros k. apply (dget_dset _ cps_eqb_eq). }
      split; [|split].
      + split; cbn [pr_idn pr_ref pr_updated pr_new]; try apply Hp1.
        * apply (dset_NoDup _ cps_eqb_eq), (nd_r p Hp).
        * intros k t0. rewrite Hd. destruct (cps_eqb k (head s)) eqn:E1.
          -- intros K. injection K as <-. apply cps_eqb_eq in E1. split; [exact Ht|]. right. exists s. split; [exact M|]. split; [exact E1|]. apply in_or_app. right. left. reflexivity.
          -- intros K. destruct (r1 p Hp _ _ K) as [K0 [K1 | (s0 & K1 & K2 & K3)]]; [auto|]. split; [exact K0|]. right. exists s0. split; [exact K1|]. split; [exact K2|]. apply in_or_app. left. exact K3.
        * intros t0 Ht0. rewrite Hd. destruct (cps_eqb (head t0) (head s)) eqn:E1; [apply cps_eqb_eq in E1; destruct (As t0 Ht0 E1) | apply (r2 p Hp t0 Ht0)].
        * intros u Hu. apply in_app_or in Hu. destruct Hu as [Hu | [<- | []]].
          -- destruct (r3 p Hp u Hu) as (t0 & s0 & K1 & K2 & K3). exists t0, s0. split; [exact K1|]. split; [exact K2|]. rewrite Hd.
             destruct (cps_eqb (head s0) (head s)) eqn:E1; [|exact K3]. apply cps_eqb_eq in E1. rewrite E1 in K3. apply (dget_Some_key _ cps_eqb_eq) in K3. contradiction.
          -- exists t, s. split; [reflexivity|]. split; [exact M|]. rewrite Hd, cps_eqb_refl. reflexivity.
      + split; [|split]; cbn [pr_idn pr_ref]; auto. intros k Hk. apply (dset_keys_iff _ cps_eqb_eq). right. exact Hk.
      + split; cbn [pr_idn pr_ref]; [intros K; contradiction | intros _; apply (dset_keys_iff _ cps_eqb_eq); left; reflexivity].
  Qed.
  Lemma pair_one_ok : forall p s t, inv p -> In s I -> alone_i s -> In t R -> alone_r t ->
    exists p', pair_one (head s) (head t) s p = Ok p' /\ inv p' /\ stable s p p' /\ done s t p'.
  Proof.
    intros p s t Hp Hs As Ht At. destruct (subset_of s t) eqn:E1; [|destruct (subset_of t s) eqn:E2].
    - apply pair_one_over; [exact Hp|]. apply subset_of_iff in E1. unfold moved. auto.
    - apply pair_one_under; [exact Hp|]. apply subset_of_iff in E2. unfold copied. auto.
    - unfold pair_one. rewrite (r2 p Hp t Ht), E1, E2. cbn [orb]. eexists. split; [reflexivity|]. split; [exact Hp|]. split; [apply stable_refl|].
      split; intros K; apply subset_of_iff in K; congruence.
  Qed.
  Lemma done_stable : forall s s' t p p', In s I -> alone_r t -> done s t p -> stable s' p p' -> done s t p'.
  Proof.
    intros s s' t p p' Hs At [D1 D2] (_ & B & C). split; intros H.
    - apply B; [exact At | apply D1, H].
    - apply C, D2, H.
  Qed.
  Lemma pair_refs_ok : forall ts p s, inv p -> In s I -> alone_i s -> (forall t, In t ts -> In t R /\ alone_r t) ->
    exists p', pair_refs (head s) s (map head ts) p = Ok p' /\ inv p' /\ stable s p p' /\ forall t, In t ts -> done s t p'.
  Proof.
    induction ts as [|t ts IH]; intros p s Hp Hs As Hts; cbn [map pair_refs].
    - exists p. split; [reflexivity|]. split; [exact Hp|]. split; [apply stable_refl | intros t []].
    - destruct (Hts t (or_introl eq_refl)) as [Ht At]. destruct (pair_one_ok p s t Hp Hs As Ht At) as (p1 & E1 & Hp1 & S1 & D1). rewrite E1. cbn [bind].
      destruct (IH p1 s Hp1 Hs As (fun x Hx => Hts x (or_intror Hx))) as (p2 & E2 & Hp2 & S2 & D2). exists p2. split; [exact E2|]. split; [exact Hp2|].
      split; [apply (stable_trans s p p1 p2 S1 S2)|]. intros x [<- | Hx]; [|apply D2, Hx]. apply (done_stable s s t p1 p2); assumption.
  Qed.
  Lemma pair_idns_ok : forall ss ts p, inv p -> NoDup ss -> (forall s, In s ss -> In s I /\ alone_i s /\ dget cps_eqb (head s) (pr_idn p) = Some s) ->
    (forall t, In t ts -> In t R /\ alone_r t) ->
    exists p', pair_idns (map head ss) (map head ts) p = Ok p' /\ inv p' /\
      (forall k, (forall s', In s' I -> head s' <> k) -> In k (dkeys (pr_idn p)) -> In k (dkeys (pr_idn p'))) /\
      (forall k, In k (dkeys (pr_ref p)) -> In k (dkeys (pr_ref p'))) /\
      forall s t, In s ss -> In t ts -> done s t p'.
  Proof.
    induction ss as [|s ss IH]; intros ts p Hp Hn Hss Hts; cbn [map pair_idns].
    - exists p. split; [reflexivity|]. split; [exact Hp|]. split; [auto|]. split; [auto | intros s t []].
    - inversion Hn as [|? ? Hns Hn']; subst. destruct (Hss s (or_introl eq_refl)) as (Hs & As & Es). rewrite Es.
      destruct (pair_refs_ok ts p s Hp Hs As Hts) as (p1 & E1 & Hp1 & S1 & D1). rewrite E1. cbn [bind].
      destruct (IH ts p1 Hp1 Hn') as (p2 & E2 & Hp2 & B2 & C2 & D2); [|exact Hts|].
      + intros s' Hs'. destruct (Hss s' (or_intror Hs')) as (K1 & K2 & K3). split; [exact K1|]. split; [exact K2|]. apply (proj1 S1); auto. intros ->. contradiction.
      + exists p2. split; [exact E2|]. split; [exact Hp2|]. destruct S1 as (_ & B1 & C1). split; [auto|]. split; [auto|].
        intros x t [<- | Hx] Ht; [|apply D2; assumption]. destruct (D1 t Ht) as [X Y]. split; intros K; [apply B2; [apply (Hts t Ht) | apply X, K] | apply C2, Y, K].
  Qed.
  Lemma inv_start : inv (mkPairing (by_first I) (by_first R) [] []).
  Proof.
    split; cbn [pr_idn pr_ref pr_updated pr_new].
    - apply by_first_NoDup.
    - intros k s H. apply (by_first_is _ _ _ HI) in H. tauto.
    - intros s Hs. exists (head s). apply (by_first_is _ _ _ HI). auto.
    - intros s k k' H H'. apply (by_first_is _ _ _ HI) in H. apply (by_first_is _ _ _ HI) in H'. destruct H, H'. congruence.
    - apply by_first_NoDup.
    - intros k t H. apply (by_first_is _ _ _ HR) in H. tauto.
    - intros t Ht. apply (by_first_is _ _ _ HR). auto.
    - intros u [].
    - intros k [].
  Qed.
  Lemma pop_updated_ok : forall l new d, NoDup l -> NoDup (dkeys d) -> (forall u, In u l -> In u (dkeys d) /\ ~ In u new) ->
    exists d', pop_updated l new d = Ok d' /\ NoDup (dkeys d') /\ forall k, dget cps_eqb k d' = if memb cps_eqb k l then None else dget cps_eqb k d.
  Proof.
    induction l as [|u l IH]; intros new d Hl Hd Hu; cbn [pop_updated].
    - exists d. auto.
    - inversion Hl as [|? ? Hul Hl']; subst. destruct (Hu u (or_introl eq_refl)) as [K1 K2].
      rewrite (proj2 (memb_false _ _ cps_eqb_eq u new) K2). rewrite (proj2 (dmem_In _ cps_eqb_eq u d) K1).
      destruct (IH new (ddel cps_eqb u d) Hl' (ddel_NoDup cps_eqb u d Hd)) as (d' & E & Nd & G).
      + intros x Hx. destruct (Hu x (or_intror Hx)) as [X1 X2]. split; [|exact X2]. destruct (dget_key _ _ X1) as (v & Ev).
        apply (dget_Some_key _ cps_eqb_eq) with (v := v). rewrite (dget_ddel _ cps_eqb_eq) by exact Hd. destruct (cps_eqb x u) eqn:E; [|exact Ev].
        apply cps_eqb_eq in E. subst x. contradiction.
      + exists d'. split; [exact E|]. split; [exact Nd|]. intros k. rewrite G, (dget_ddel _ cps_eqb_eq) by exact Hd. unfold memb. cbn [existsb].
        destruct (cps_eqb k u) eqn:Ek; cbn [orb]; [destruct (existsb (cps_eqb k) l); reflexivity | reflexivity].
  Qed.
End Pairing.

Lemma heads_list : forall F ks, (forall k, In k ks -> exists s, In s F /\ k = head s) -> NoDup ks ->
  exists ss, map head ss = ks /\ NoDup ss /\ incl ss F.
Proof.
  intros F ks Hk Hn.
  assert (G : exists ss, map head ss = ks /\ incl ss F).
  { clear Hn. induction ks as [|k ks IH]; [exists []; split; [reflexivity | intros ? []]|].
    destruct (Hk k (or_introl eq_refl)) as (s & Hs & ->). destruct IH as (ss & E & Hi); [intros x Hx; apply Hk; right; exact Hx|].
    exists (s :: ss). split; [cbn [map]; rewrite E; reflexivity|]. intros x [<- | Hx]; auto. }
  destruct G as (ss & E & Hi). exists ss. split; [exact E|]. split; [|exact Hi]. apply (NoDup_map_inv head). rewrite E. exact Hn.
Qed.

Theorem pairing_ok : forall I R, family I -> family R ->
  exists ps, pair_sets I R = Ok ps /\ NoDup (map fst ps) /\
    (forall k i r, In (k, (i, r)) ps -> (i = [] \/ In i I) /\ (r = [] \/ In r R) /\ (i <> [] \/ r <> []) /\
       (i <> [] -> r <> [] -> head i = head r \/ incl i r \/ incl r i)) /\
    (forall s, In s I -> exists! p, In p ps /\ fst (snd p) = s) /\
    (forall t, In t R -> exists! p, In p ps /\ snd (snd p) = t) /\
    (forall s t, In s I -> In t R -> head s = head t -> exists k, In (k, (s, t)) ps) /\
    (forall s t, In s I -> In t R -> incl s t -> exists k i, In (k, (i, t)) ps /\ i <> []) /\
    (forall s t, In s I -> In t R -> incl t s -> exists k r, In (k, (s, r)) ps /\ r <> []).
Proof.
  intros I R HI HR. unfold pair_sets.
  destruct (heads_list I (filter (fun k => negb (dmem cps_eqb k (by_first R))) (dkeys (by_first I)))) as (ss & Ess & Nss & Iss).
  { intros k Hk. apply filter_In in Hk. apply (by_first_key _ _ HI). apply Hk. }
  { apply NoDup_filter, by_first_NoDup. }
  destruct (heads_list R (filter (fun k => negb (dmem cps_eqb k (by_first I))) (dkeys (by_first R)))) as (ts & Ets & Nts & Its).
  { intros k Hk. apply filter_In in Hk. apply (by_first_key _ _ HR). apply Hk. }
  { apply NoDup_filter, by_first_NoDup. }
  assert (As : forall s, In s I -> (In s ss <-> alone_i R s)).
  { intros s Hs. assert (K : In (head s) (map head ss) <-> alone_i R s).
    { rewrite Ess, filter_In, Bool.negb_true_iff. split.
      - intros [_ H] t Ht E. assert (D : dmem cps_eqb (head s) (by_first R) = true) by (apply (dmem_In _ cps_eqb_eq), (by_first_key _ _ HR); exists t; auto). congruence.
      - intros H. split; [apply (by_first_key _ _ HI); exists s; auto|]. destruct (dmem cps_eqb (head s) (by_first R)) eqn:E; [|reflexivity].
        apply (dmem_In _ cps_eqb_eq), (by_first_key _ _ HR) in E. destruct E as (t & Ht & E). destruct (H t Ht). auto. }
    rewrite <- K. split; [apply in_map|]. intros H. apply in_map_iff in H. destruct H as (s' & E & Hs'). rewrite <- (head_inj I s' s HI (Iss _ Hs') Hs E). exact Hs'. }
  assert (At : forall t, In t R -> (In t ts <-> alone_r I t)).
  { intros t Ht. assert (K : In (head t) (map head ts) <-> alone_r I t).
    { rewrite Ets, filter_In, Bool.negb_true_iff. split.
      - intros [_ H] s Hs E. assert (D : dmem cps_eqb (head t) (by_first I) = true) by (apply (dmem_In _ cps_eqb_eq), (by_first_key _ _ HI); exists s; auto). congruence.
      - intros H. split; [apply (by_first_key _ _ HR); exists t; auto|]. destruct (dmem cps_eqb (head t) (by_first I)) eqn:E; [|reflexivity].
        apply (dmem_In _ cps_eqb_eq), (by_first_key _ _ HI) in E. destruct E as (s & Hs & E). destruct (H s Hs). auto. }
    rewrite <- K. split; [apply in_map|]. intros H. apply in_map_iff in H. destruct H as (t' & E & Ht'). rewrite <- (head_inj R t' t HR (Its _ Ht') Ht E). exact Ht'. }
  rewrite <- Ess, <- Ets.
  destruct (pair_idns_ok I R HI HR ss ts _ (inv_start I R HI HR) Nss) as (p & Ep & Hp & Keep & Keepr & Done).
  { intros s Hs. split; [apply Iss, Hs|]. split; [apply As; [apply Iss, Hs | exact Hs]|]. cbn [pr_idn]. apply (by_first_is _ _ _ HI). split; [apply Iss, Hs | reflexivity]. }
  { intros t Ht. split; [apply Its, Ht|]. apply At; [apply Its, Ht | exact Ht]. }
  rewrite Ep. cbn [bind].
  assert (Hup : forall u, In u (dedup cps_eqb (pr_updated p)) -> In u (dkeys (pr_ref p)) /\ ~ In u (pr_new p)).
  { intros u Hu. apply (proj1 (dedup_In _ _ cps_eqb_eq _ _)) in Hu. destruct (r3 _ _ _ Hp u Hu) as (t & s & -> & C & _). pose proof C as (Hs & Ht & Cs & Ct & _). split.
    - apply (dget_Some_key _ cps_eqb_eq) with (v := t). apply (r2 _ _ _ Hp t Ht).
    - intros K. destruct (n1 _ _ _ Hp _ K) as (s' & t' & Hs' & Ht' & _ & Ct' & [[X Y] | [X Y]]); [|apply (Ct s' Hs'); auto].
      assert (t = t') by (apply (head_inj R); auto). subst t'. apply (not_both' I R HI HR t s s' C Hs' X). }
  destruct (pop_updated_ok (dedup cps_eqb (pr_updated p)) (pr_new p) (pr_ref p) (dedup_NoDup _ _ cps_eqb_eq _) (nd_r _ _ _ Hp) Hup) as (d & Ed & Nd & Hd).
  rewrite Ed. cbn [bind].
  assert (Hd' : forall k t, dget cps_eqb k d = Some t <-> ~ In k (pr_updated p) /\ dget cps_eqb k (pr_ref p) = Some t).
  { intros k t. rewrite Hd. destruct (memb cps_eqb k (dedup cps_eqb (pr_updated p))) eqn:E.
    - apply (proj1 (memb_In _ _ cps_eqb_eq _ _)), (proj1 (dedup_In _ _ cps_eqb_eq _ _)) in E. split; [discriminate | intros [K _]; contradiction].
    - split; [intros K; split; [|exact K] | intros [_ K]; exact K]. intros K'. apply (memb_false _ _ cps_eqb_eq) in E. apply E, (proj2 (dedup_In _ _ cps_eqb_eq _ _)), K'. }
  clear Hd. set (keys := isort cps_leb (set_union cps_eqb (dkeys (pr_idn p)) (dkeys d))).
  assert (Hkeys : forall k, In k keys <-> In k (dkeys (pr_idn p)) \/ In k (dkeys d)) by (intros k; unfold keys; rewrite isort_In; apply (set_union_In _ cps_eqb_eq)).
  eexists. split; [reflexivity|].
  match goal with |- NoDup (map fst ?l) /\ _ => set (ps := l) end.
  assert (Hps : forall k i r, In (k, (i, r)) ps <-> In k keys /\ i = match dget cps_eqb k (pr_idn p) with Some s => s | None => [] end /\ r = match dget cps_eqb k d with Some s => s | None => [] end).
  { intros k i r. unfold ps. rewrite in_map_iff. split.
    - intros (k' & E & Hk). injection E as -> <- <-. auto.
    - intros (Hk & -> & ->). exists k. auto. }
  assert (Nk : map fst ps = keys) by (unfold ps; rewrite map_map; cbn [fst]; apply map_id).
  assert (NI : forall s, In s I -> s <> []) by (intros s Hs E; pose proof (head_in I s HI Hs) as K; rewrite E in K; destruct K).
  assert (NR : forall t, In t R -> t <> []) by (intros s Hs E; pose proof (head_in R s HR Hs) as K; rewrite E in K; destruct K).
  assert (AtI : forall k s, dget cps_eqb k (pr_idn p) = Some s -> exists r, In (k, (s, r)) ps).
  { intros k s E. eexists. apply Hps. rewrite E. split; [apply Hkeys; left; apply (dget_Some_key _ cps_eqb_eq) in E; exact E | split; reflexivity]. }
  assert (AtR : forall k t, dget cps_eqb k d = Some t -> exists i, In (k, (i, t)) ps).
  { intros k t E. eexists. apply Hps. rewrite E. split; [apply Hkeys; right; apply (dget_Some_key _ cps_eqb_eq) in E; exact E | split; reflexivity]. }
  assert (Both : forall k s t, dget cps_eqb k (pr_idn p) = Some s -> dget cps_eqb k d = Some t -> In (k, (s, t)) ps).
  { intros k s t E1 E2. apply Hps. rewrite E1, E2. split; [apply Hkeys; left; apply (dget_Some_key _ cps_eqb_eq) in E1; exact E1 | split; reflexivity]. }
  assert (Rd : forall t, In t R -> exists k, dget cps_eqb k d = Some t /\ (k = head t \/ exists s, copied I R t s /\ k = head s)).
  { intros t Ht. destruct (in_dec (list_eq_dec N.eq_dec) (head t) (pr_updated p)) as [Hu | Hu].
    - destruct (r3 _ _ _ Hp _ Hu) as (t' & s & E & C & Es). pose proof C as (Hs & Ht' & Cs & Ct & _). assert (t = t') by (apply (head_inj R); auto). subst t'.
      exists (head s). split; [|right; exists s; auto]. apply Hd'. split; [|exact Es]. intros K. destruct (r3 _ _ _ Hp _ K) as (t2 & s2 & E2 & (_ & Ht2 & _) & _). apply (Cs t2 Ht2). auto.
    - exists (head t). split; [|left; reflexivity]. apply Hd'. split; [exact Hu | apply (r2 _ _ _ Hp t Ht)]. }
  assert (Ru : forall t k k', dget cps_eqb k d = Some t -> dget cps_eqb k' d = Some t -> k = k').
  { intros t k k' E E'. apply Hd' in E. apply Hd' in E'. destruct E as [U E], E' as [U' E'].
    destruct (r1 _ _ _ Hp _ _ E) as [Ht [-> | (s & (Hs & _ & _ & _ & C) & -> & V)]]; destruct (r1 _ _ _ Hp _ _ E') as [_ [-> | (s' & (Hs' & _ & _ & _ & C') & -> & V')]].
    - reflexivity.
    - contradiction.
    - contradiction.
    - f_equal. apply (same_over' I R HI HR t); auto. }
  split; [rewrite Nk; unfold keys; apply isort_NoDup, (set_union_NoDup _ cps_eqb_eq)|].
  split; [|split; [|split; [|split; [|split]]]].
  - intros k i r H. apply Hps in H. destruct H as (Hk & -> & ->). apply Hkeys in Hk.
    assert (Xi : forall s, dget cps_eqb k (pr_idn p) = Some s -> In s I) by (intros s E; apply (i1 _ _ _ Hp k s E)).
    assert (Xr : forall t, dget cps_eqb k d = Some t -> In t R) by (intros t E; apply Hd' in E; apply (r1 _ _ _ Hp k t), E).
    split; [destruct (dget cps_eqb k (pr_idn p)); auto|]. split; [destruct (dget cps_eqb k d); auto|]. split.
    + destruct Hk as [Hk | Hk]; destruct (dget_key _ _ Hk) as (v & Ev); rewrite Ev; [left; apply NI, Xi, Ev | right; apply NR, Xr, Ev].
    + destruct (dget cps_eqb k (pr_idn p)) as [s|] eqn:E1; [|intros K; contradiction]. destruct (dget cps_eqb k d) as [t|] eqn:E2; [|intros _ K; contradiction]. intros _ _.
      apply Hd' in E2. destruct E2 as [_ E2]. destruct (i1 _ _ _ Hp _ _ E1) as [Hs [-> | (t' & (_ & Ht' & _ & Ct & M) & ->)]]; destruct (r1 _ _ _ Hp _ _ E2) as [Ht [E | (s' & (Hs' & _ & _ & _ & C) & E & _)]].
      * left. exact E.
      * right. right. assert (s = s') by (apply (head_inj I); auto). subst s'. exact C.
      * right. left. assert (t' = t) by (apply (head_inj R); auto). subst t'. exact M.
      * destruct (Ct s' Hs'). auto.
  - intros s Hs. destruct (i2 _ _ _ Hp s Hs) as (k & Ek). destruct (AtI k s Ek) as (r & Hr). exists (k, (s, r)). split; [split; [exact Hr | reflexivity]|].
    intros [k' [i' r']] [H E]. cbn [fst snd] in E. subst i'. pose proof H as H0. apply Hps in H. destruct H as (_ & E1 & E2). apply Hps in Hr. destruct Hr as (_ & _ & E3).
    assert (E4 : dget cps_eqb k' (pr_idn p) = Some s) by (destruct (dget cps_eqb k' (pr_idn p)); [subst; reflexivity | destruct (NI s Hs E1)]).
    assert (k = k') by (apply (i3 _ _ _ Hp s); assumption). subst k'. congruence.
  - intros t Ht. destruct (Rd t Ht) as (k & Ek & _). destruct (AtR k t Ek) as (i & Hi). exists (k, (i, t)). split; [split; [exact Hi | reflexivity]|].
    intros [k' [i' r']] [H E]. cbn [fst snd] in E. subst r'. apply Hps in H. destruct H as (_ & E1 & E2). apply Hps in Hi. destruct Hi as (_ & E3 & _).
    assert (E4 : dget cps_eqb k' d = Some t) by (destruct (dget cps_eqb k' d); [subst; reflexivity | destruct (NR t Ht E2)]).
    assert (k = k') by (apply (Ru t); assumption). subst k'. congruence.
  - intros s t Hs Ht E. exists (head s). apply Both.
    + destruct (i2 _ _ _ Hp s Hs) as (k & Ek). destruct (i1 _ _ _ Hp _ _ Ek) as [_ [-> | (t' & (_ & _ & Cs & _) & _)]]; [exact Ek | destruct (Cs t Ht); auto].
    + destruct (Rd t Ht) as (k & Ek & [-> | (s' & (_ & _ & _ & Ct & _) & _)]); [rewrite E; exact Ek | destruct (Ct s Hs E)].
  - intros s t Hs Ht H.
    assert (Ek : dget cps_eqb (head t) d = Some t).
    { destruct (Rd t Ht) as (k & Ek & [-> | (s' & C & _)]); [exact Ek | destruct (not_both' I R HI HR t s' s C Hs H)]. }
    assert (Hin : In (head t) (dkeys (pr_idn p))).
    { destruct (in_dec (list_eq_dec (list_eq_dec N.eq_dec)) t ts) as [Hts | Hts].
      - assert (Hss : In s ss).
        { apply As; [exact Hs|]. intros t' Ht' E. assert (t' = t). { apply (meet_eq R t' t (head s) HR Ht' Ht); [rewrite <- E; apply (head_in R); auto | apply H, (head_in I); auto]. }
          subst t'. apply (proj1 (At t Ht) Hts s Hs). auto. }
        apply (proj1 (Done s t Hss Hts) H).
      - assert (Hx : exists s', In s' I /\ head s' = head t).
        { destruct (in_dec (list_eq_dec N.eq_dec) (head t) (dkeys (by_first I))) as [K | K].
          - apply (by_first_key _ _ HI) in K. destruct K as (s' & Hs' & E). exists s'. auto.
          - destruct Hts. apply At; [exact Ht|]. intros s' Hs' E. apply K, (by_first_key _ _ HI). exists s'. auto. }
        destruct Hx as (s' & Hs' & E). destruct (i2 _ _ _ Hp s' Hs') as (k & Ek'). destruct (i1 _ _ _ Hp _ _ Ek') as [_ [-> | (t' & (_ & _ & Cs & _) & _)]].
        + rewrite <- E. apply (dget_Some_key _ cps_eqb_eq) in Ek'. exact Ek'.
        + destruct (Cs t Ht). auto. }
    destruct (dget_key _ _ Hin) as (i & Ei). exists (head t), i. split; [apply Both; assumption|]. apply NI. apply (i1 _ _ _ Hp _ _ Ei).
  - intros s t Hs Ht H.
    assert (Ek : dget cps_eqb (head s) (pr_idn p) = Some s).
    { destruct (i2 _ _ _ Hp s Hs) as (k & Ek). destruct (i1 _ _ _ Hp _ _ Ek) as [_ [-> | (t' & M & _)]]; [exact Ek | destruct (not_both I R HI HR s t' t M Ht H)]. }
    assert (Hin : In (head s) (dkeys d)).
    { destruct (in_dec (list_eq_dec (list_eq_dec N.eq_dec)) s ss) as [Hss | Hss].
      - assert (Hts : In t ts).
        { apply At; [exact Ht|]. intros s' Hs' E. assert (s' = s). { apply (meet_eq I s' s (head t) HI Hs' Hs); [rewrite <- E; apply (head_in I); auto | apply H, (head_in R); auto]. }
          subst s'. apply (proj1 (As s Hs) Hss t Ht). auto. }
        pose proof (proj2 (Done s t Hss Hts) H) as K. destruct (dget_key _ _ K) as (v & Ev). apply (dget_Some_key _ cps_eqb_eq) with (v := v). apply Hd'. split; [|exact Ev].
        intros U. destruct (r3 _ _ _ Hp _ U) as (t2 & s2 & E2 & (_ & Ht2 & _) & _). apply (proj1 (As s Hs) Hss t2 Ht2). auto.
      - assert (Hx : exists t', In t' R /\ head t' = head s).
        { destruct (in_dec (list_eq_dec N.eq_dec) (head s) (dkeys (by_first R))) as [K | K].
          - apply (by_first_key _ _ HR) in K. destruct K as (t' & Ht' & E). exists t'. auto.
          - destruct Hss. apply As; [exact Hs|]. intros t' Ht' E. apply K, (by_first_key _ _ HR). exists t'. auto. }
        destruct Hx as (t' & Ht' & E). destruct (Rd t' Ht') as (k & Ek' & [-> | (s' & (_ & _ & _ & Ct & _) & _)]).
        + rewrite <- E. apply (dget_Some_key _ cps_eqb_eq) in Ek'. exact Ek'.
        + destruct (Ct s Hs). auto. }
    destruct (dget_key _ _ Hin) as (r & Er). exists (head s), r. split; [apply Both; assumption|]. apply NR. apply Hd' in Er. apply (r1 _ _ _ Hp _ _ (proj2 Er)).
Qed.
(** The variant sets of a symmetric repertoire are such a family. *)
Lemma sets_family : forall r sets, wf_rep r -> (forall a b, edge r true a b -> edge r true b a) -> get_variant_sets r true = Some sets -> family sets.
Proof.
  intros r sets Hr Hs Hg. destruct (variant_sets_spec r true Hr) as (sets' & E & Hn & Hi). assert (sets' = sets) by congruence. subst sets'.
  split; [|split; [exact Hn|]].
  - intros s K. apply Hi in K. destruct K as (Hst & Hl & _). destruct s as [|x s]; [cbn in Hl; lia|]. split; [discriminate|]. intros y [<- | Hy]; [apply cps_leb_refl|].
    apply StronglySorted_inv in Hst. destruct Hst as [_ Hf]. rewrite Forall_forall in Hf. specialize (Hf y Hy). cbn [hd]. unfold cps_lt in Hf. apply Hf.
  - intros s t x H1 H2 X1 X2. apply (variant_sets_disjoint r true sets s t x); assumption.
Qed.
