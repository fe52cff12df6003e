(** The pattern cache, and whole evaluations of rules. *)
From Verif Require Import Base BaseFacts ClassModel ClassSpec ClassProofs ClassFinal RuleModel RuleSpec RegexProofs RuleProofs.
Open Scope string_scope.
Open Scope list_scope.
Open Scope nat_scope.

Lemma key_eqb_iff : forall a b, key_eqb a b = true <-> a = b.
Proof.
  intros [a x] [b y]. unfold key_eqb. cbn [fst snd]. rewrite Bool.andb_true_iff, Nat.eqb_eq, Bool.eqb_true_iff. split; [intros [-> ->]; reflexivity|intro H; injection H; auto].
Qed.

Section Cache.
  Variable u : unidb.
  Variable look : table.
  Variable rules : rtable.
  Notation upat := (upat u look rules).
  Notation upats := (upats u look rules).
  Notation urpat := (urpat u look rules).
  Notation mpat := (mpat u look rules).
  Notation mpats := (mpats u look rules).
  Notation rpat := (rpat u look rules).

  Lemma class_pattern_stable : forall f f' c x, f <= f' -> class_pattern u look f c = x -> x <> Raise OutOfFuel -> class_pattern u look f' c = x.
  Proof.
    intros f f' c x Hle H Hx. unfold class_pattern in *. destruct (class_set u look f c) as [s|e] eqn:E.
    - rewrite (class_set_stable u look f f' c (Ok s) Hle E); [exact H|discriminate].
    - cbn [bind] in H. rewrite (class_set_stable u look f f' c (Raise e) Hle E); [exact H|congruence].
  Qed.

  Lemma up_step : forall f,
    (forall lb m x, upat f lb m = x -> x <> Raise OutOfFuel -> upat (S f) lb m = x) /\
    (forall lb l x, upats f lb l = x -> x <> Raise OutOfFuel -> upats (S f) lb l = x) /\
    (forall lb r x, urpat f lb r = x -> x <> Raise OutOfFuel -> urpat (S f) lb r = x).
  Proof.
    induction f as [|f IH].
    - repeat split; intros; cbn in *; congruence.
    - destruct IH as [IHm [IHl IHr]]. split; [|split].
      + intros lb m x H Hx. destruct m as [ | | |k|l k|c k|k alts|l|l|r k]; try exact H.
        * change (bind (class_pattern u look (S f) c) (fun p => Ok (grouped lb k p)) = x). cbn [RuleProofs.upat] in H.
          destruct (class_pattern u look f c) as [p|e] eqn:E.
          -- rewrite (class_pattern_stable f (S f) c _ ltac:(lia) E) by discriminate. exact H.
          -- rewrite (class_pattern_stable f (S f) c _ ltac:(lia) E); [exact H|cbn [bind] in H; congruence].
        * change (bind (upats (S f) lb alts) (fun ps => Ok (TOpenNC :: TOpenNC :: alternatives ps ++ TClose :: TClose :: count_tokens lb k)) = x).
          change (bind (upats f lb alts) (fun ps => Ok (TOpenNC :: TOpenNC :: alternatives ps ++ TClose :: TClose :: count_tokens lb k)) = x) in H.
          rewrite (IHl lb alts _ eq_refl); [exact H|]. intro E. rewrite E in H. cbn [bind] in H. congruence.
        * change (bind (upats (S f) false l) (fun ps => Ok (TAhead :: List.concat ps ++ [TClose])) = x).
          change (bind (upats f false l) (fun ps => Ok (TAhead :: List.concat ps ++ [TClose])) = x) in H.
          rewrite (IHl false l _ eq_refl); [exact H|]. intro E. rewrite E in H. cbn [bind] in H. congruence.
        * change (bind (upats (S f) true l) (fun ps => Ok (TBehind :: List.concat ps ++ [TClose])) = x).
          change (bind (upats f true l) (fun ps => Ok (TBehind :: List.concat ps ++ [TClose])) = x) in H.
          rewrite (IHl true l _ eq_refl); [exact H|]. intro E. rewrite E in H. cbn [bind] in H. congruence.
        * change (bind (urpat (S f) lb r) (fun p => Ok (grouped lb k p)) = x).
          change (bind (urpat f lb r) (fun p => Ok (grouped lb k p)) = x) in H.
          rewrite (IHr lb r _ eq_refl); [exact H|]. intro E. rewrite E in H. cbn [bind] in H. congruence.
      + intros lb l x H Hx. destruct l as [|m l]; [exact H|].
        change (match upat (S f) lb m with Raise e => Raise e | Ok p => bind (upats (S f) lb l) (fun ps => Ok (p :: ps)) end = x).
        change (match upat f lb m with Raise e => Raise e | Ok p => bind (upats f lb l) (fun ps => Ok (p :: ps)) end = x) in H.
        destruct (upat f lb m) as [p|e] eqn:E.
        * rewrite (IHm lb m _ E) by discriminate. rewrite (IHl lb l _ eq_refl); [exact H|]. intro E2. rewrite E2 in H. cbn [bind] in H. congruence.
        * rewrite (IHm lb m _ E) by congruence. exact H.
      + intros lb r x H Hx.
        change (match r_by_ref r with Some b => match dget String.eqb b rules with None => Raise (RuleError b) | Some r' => urpat (S f) lb r' end
          | None => match upats (S f) lb (r_children r) with Raise e => Raise e | Ok ps => Ok (List.concat ps) end end = x).
        change (match r_by_ref r with Some b => match dget String.eqb b rules with None => Raise (RuleError b) | Some r' => urpat f lb r' end
          | None => match upats f lb (r_children r) with Raise e => Raise e | Ok ps => Ok (List.concat ps) end end = x) in H.
        destruct (r_by_ref r) as [b|].
        * destruct (dget String.eqb b rules) as [r'|]; [|exact H]. apply IHr; assumption.
        * rewrite (IHl lb (r_children r) _ eq_refl); [exact H|]. intro E. rewrite E in H. congruence.
  Qed.
  Lemma urpat_stable : forall f f' lb r x, f <= f' -> urpat f lb r = x -> x <> Raise OutOfFuel -> urpat f' lb r = x.
  Proof. intros f f' lb r x Hle H Hx. induction Hle as [|f' _ IH]; [exact H|]. exact (proj2 (proj2 (up_step f')) lb r x IH Hx). Qed.
  Lemma upat_stable : forall f f' lb m x, f <= f' -> upat f lb m = x -> x <> Raise OutOfFuel -> upat f' lb m = x.
  Proof. intros f f' lb m x Hle H Hx. induction Hle as [|f' _ IH]; [exact H|]. exact (proj1 (up_step f') lb m x IH Hx). Qed.
  Lemma upats_stable : forall f f' lb l x, f <= f' -> upats f lb l = x -> x <> Raise OutOfFuel -> upats f' lb l = x.
  Proof. intros f f' lb l x Hle H Hx. induction Hle as [|f' _ IH]; [exact H|]. exact (proj1 (proj2 (up_step f')) lb l x IH Hx). Qed.
  Lemma urpat_same : forall f f' lb r x y, urpat f lb r = x -> x <> Raise OutOfFuel -> urpat f' lb r = y -> y <> Raise OutOfFuel -> x = y.
  Proof.
    intros f f' lb r x y H1 H2 H3 H4. destruct (Nat.le_ge_cases f f') as [H|H].
    - rewrite <- (urpat_stable _ _ _ _ _ H H1 H2). exact H3.
    - rewrite <- (urpat_stable _ _ _ _ _ H H3 H4). symmetry. exact H1.
  Qed.

  Lemma urpat_S : forall f lb r, urpat (S f) lb r = match r_by_ref r with Some b => match dget String.eqb b rules with None => Raise (RuleError b) | Some r' => urpat f lb r' end
    | None => match upats f lb (r_children r) with Raise e => Raise e | Ok ps => Ok (List.concat ps) end end.
  Proof. reflexivity. Qed.

  (** Rule objects: the same identity is the same rule. *)
  Variable obj : nat -> option rule.
  Hypothesis Htab : forall n r, dget String.eqb n rules = Some r -> owned obj r.
  Definition fresh_value (k : cache) : Prop := forall id lb p, dget key_eqb (id, lb) k = Some p -> forall r, obj id = Some r -> exists f, urpat f lb r = Ok p.

  Lemma owned_list : forall l, (fix all l := match l with [] => True | x :: l' => owned_matcher obj x /\ all l' end) l <-> Forall (owned_matcher obj) l.
  Proof.
    induction l as [|x l IH]; split; intro H; [constructor|exact I| |].
    - destruct H as [H1 H2]. constructor; [exact H1|]. apply IH. exact H2.
    - inversion H; subst. split; [assumption|]. apply IH. assumption.
  Qed.

  Lemma cached : forall f,
    (forall lb m k k' x, mpat f lb m k = (k', x) -> owned_matcher obj m -> fresh_value k ->
       fresh_value k' /\ (x <> Raise OutOfFuel -> exists f', upat f' lb m = x) /\ (forall y, upat f lb m = y -> y <> Raise OutOfFuel -> x = y)) /\
    (forall lb l k k' x, mpats f lb l k = (k', x) -> Forall (owned_matcher obj) l -> fresh_value k ->
       fresh_value k' /\ (x <> Raise OutOfFuel -> exists f', upats f' lb l = x) /\ (forall y, upats f lb l = y -> y <> Raise OutOfFuel -> x = y)) /\
    (forall lb r k k' x, rpat f lb r k = (k', x) -> owned obj r -> fresh_value k ->
       fresh_value k' /\ (x <> Raise OutOfFuel -> exists f', urpat f' lb r = x) /\ (forall y, urpat f lb r = y -> y <> Raise OutOfFuel -> x = y)).
  Proof.
    induction f as [|f IH].
    - split; [|split].
      + intros lb m k k' x H Ho Hk. injection H as H1 H2. subst k' x. split; [exact Hk|]. split; [congruence|]. intros y Hy Hy2. cbn in Hy. congruence.
      + intros lb m k k' x H Ho Hk. injection H as H1 H2. subst k' x. split; [exact Hk|]. split; [congruence|]. intros y Hy Hy2. cbn in Hy. congruence.
      + intros lb m k k' x H Ho Hk. injection H as H1 H2. subst k' x. split; [exact Hk|]. split; [congruence|]. intros y Hy Hy2. cbn in Hy. congruence.
    - destruct IH as [IHm [IHl IHr]]. split; [|split].
      + intros lb m k k' x H Ho Hk.
        assert (Hplain : forall v : res (list token), (k, v) = (k', x) -> upat (S f) lb m = v -> fresh_value k' /\ (x <> Raise OutOfFuel -> exists f', upat f' lb m = x) /\ (forall y, upat (S f) lb m = y -> y <> Raise OutOfFuel -> x = y)).
        { intros v E Hv. injection E as E1 E2. subst k' x. split; [exact Hk|]. split; [intros _; exists (S f); exact Hv|]. intros y Hy _. congruence. }
        assert (Hlist : forall lb' l (g : list (list token) -> res (list token)), (forall ps, g ps <> Raise OutOfFuel) ->
          (forall f', upat (S f') lb m = bind (upats f' lb' l) g) -> Forall (owned_matcher obj) l ->
          (let '(k1, y) := mpats f lb' l k in (k1, bind y g)) = (k', x) ->
          fresh_value k' /\ (x <> Raise OutOfFuel -> exists f', upat f' lb m = x) /\ (forall y, upat (S f) lb m = y -> y <> Raise OutOfFuel -> x = y)).
        { intros lb' l g Hg Hu Hol E. destruct (mpats f lb' l k) as [k1 y] eqn:Ey. injection E as E1 E2. subst k' x.
          destruct (IHl lb' l k k1 y Ey Hol Hk) as [A [B C]]. split; [exact A|]. split.
          - intro Hx. destruct (B ltac:(intro; subst y; apply Hx; reflexivity)) as [f' Hf']. exists (S f'). rewrite Hu, Hf'. reflexivity.
          - intros z Hz Hz2. rewrite Hu in Hz. rewrite (C _ eq_refl); [exact Hz|]. intro E. rewrite E in Hz. cbn [bind] in Hz. congruence. }
        destruct m as [ | | |n|l n|c n|n alts|l|l|r n]; cbn [RuleModel.mpat] in H; cbn [owned_matcher] in Ho.
        * exact (Hplain _ H eq_refl).
        * exact (Hplain _ H eq_refl).
        * exact (Hplain _ H eq_refl).
        * exact (Hplain _ H eq_refl).
        * exact (Hplain _ H eq_refl).
        * exact (Hplain _ H eq_refl).
        * apply owned_list in Ho. refine (Hlist lb alts _ _ (fun f0 => eq_refl) Ho H); intros; discriminate.
        * apply owned_list in Ho. refine (Hlist false l _ _ (fun f0 => eq_refl) Ho H); intros; discriminate.
        * apply owned_list in Ho. refine (Hlist true l _ _ (fun f0 => eq_refl) Ho H); intros; discriminate.
        * change ((let '(k1, y) := rpat f lb r k in (k1, bind y (fun p => Ok (grouped lb n p)))) = (k', x)) in H.
          destruct (rpat f lb r k) as [k1 y] eqn:Ey. injection H as E1 E2. subst k' x.
          destruct (IHr lb r k k1 y Ey Ho Hk) as [A [B C]]. split; [exact A|]. split.
          -- intro Hx. destruct (B ltac:(intro; subst y; apply Hx; reflexivity)) as [f' Hf']. exists (S f'). change (bind (urpat f' lb r) (fun p => Ok (grouped lb n p)) = bind y (fun p => Ok (grouped lb n p))). rewrite Hf'. reflexivity.
          -- intros z Hz Hz2. change (bind (urpat f lb r) (fun p => Ok (grouped lb n p)) = z) in Hz. rewrite (C _ eq_refl); [exact Hz|]. intro E. rewrite E in Hz. cbn [bind] in Hz. congruence.
      + intros lb l k k' x H Ho Hk. destruct l as [|m l].
        * injection H as E1 E2. subst k' x. split; [exact Hk|]. split; [intros _; exists 1; reflexivity|]. intros y Hy _. exact Hy.
        * change ((let '(k1, y) := mpat f lb m k in match y with Raise e => (k1, Raise e) | Ok p => let '(k2, z) := mpats f lb l k1 in (k2, bind z (fun ps => Ok (p :: ps))) end) = (k', x)) in H.
          inversion Ho as [|m' l' Hm Hl]; subst. destruct (mpat f lb m k) as [k1 y] eqn:Ey. destruct (IHm lb m k k1 y Ey Hm Hk) as [A [B C]]. destruct y as [p|e].
          -- destruct (mpats f lb l k1) as [k2 z] eqn:Ez. injection H as E1 E2. subst k' x. destruct (IHl lb l k1 k2 z Ez Hl A) as [A2 [B2 C2]]. split; [exact A2|]. split.
             ++ intro Hx. assert (Hz : z <> Raise OutOfFuel) by (intro E; apply Hx; rewrite E; reflexivity).
                destruct (B ltac:(discriminate)) as [f1 H1]. destruct (B2 Hz) as [f2 H2]. exists (S (Nat.max f1 f2)).
                change (match upat (Nat.max f1 f2) lb m with Raise e => Raise e | Ok p => bind (upats (Nat.max f1 f2) lb l) (fun ps => Ok (p :: ps)) end = bind z (fun ps => Ok (p :: ps))).
                rewrite (upat_stable f1 _ lb m (Ok p) (Nat.le_max_l f1 f2) H1) by discriminate. rewrite (upats_stable f2 _ lb l z (Nat.le_max_r f1 f2) H2); [reflexivity|exact Hz].
             ++ intros v Hv Hv2. change (match upat f lb m with Raise e => Raise e | Ok p => bind (upats f lb l) (fun ps => Ok (p :: ps)) end = v) in Hv.
                destruct (upat f lb m) as [p'|e'] eqn:Eu.
                ** pose proof (C _ eq_refl ltac:(discriminate)) as Ep. injection Ep as Ep. subst p'. rewrite (C2 _ eq_refl); [exact Hv|]. intro E. rewrite E in Hv. cbn [bind] in Hv. congruence.
                ** pose proof (C _ eq_refl ltac:(congruence)) as Ep. discriminate.
          -- injection H as E1 E2. subst k' x. split; [exact A|]. split.
             ++ intro Hx. destruct (B ltac:(congruence)) as [f1 H1]. exists (S f1). change (match upat f1 lb m with Raise e => Raise e | Ok p => bind (upats f1 lb l) (fun ps => Ok (p :: ps)) end = Raise e). rewrite H1. reflexivity.
             ++ intros v Hv Hv2. change (match upat f lb m with Raise e => Raise e | Ok p => bind (upats f lb l) (fun ps => Ok (p :: ps)) end = v) in Hv.
                destruct (upat f lb m) as [p'|e'] eqn:Eu.
                ** pose proof (C _ eq_refl ltac:(discriminate)) as Ep. discriminate.
                ** pose proof (C _ eq_refl ltac:(congruence)) as Ep. congruence.
      + intros lb r k k' x H Ho Hk.
        change (match dget key_eqb (r_id r, lb) k with
          | Some p => (k, Ok p)
          | None => match r_by_ref r with
             | Some b => match dget String.eqb b rules with None => (k, Raise (RuleError b)) | Some r' => rpat f lb r' k end
             | None => let '(k1, y) := mpats f lb (r_children r) k in
                match y with Raise e => (k1, Raise e) | Ok ps => (dset key_eqb (r_id r, lb) (List.concat ps) k1, Ok (List.concat ps)) end
             end end = (k', x)) in H.
        assert (Hid : obj (r_id r) = Some r) by (destruct r; exact (proj1 Ho)).
        destruct (dget key_eqb (r_id r, lb) k) as [p|] eqn:Ek.
        * injection H as E1 E2. subst k' x. split; [exact Hk|]. destruct (Hk _ _ _ Ek r Hid) as [f' Hf']. split; [intros _; exists f'; exact Hf'|].
          intros y Hy Hy2. exact (urpat_same _ _ _ _ _ _ Hf' ltac:(discriminate) Hy Hy2).
        * destruct (r_by_ref r) as [b|] eqn:Eb.
          -- destruct (dget String.eqb b rules) as [r'|] eqn:Er.
             ++ destruct (IHr lb r' k k' x H (Htab b r' Er) Hk) as [A [B C]]. split; [exact A|]. split.
                ** intro Hx. destruct (B Hx) as [f' Hf']. exists (S f'). rewrite urpat_S, Eb, Er. exact Hf'.
                ** intros y Hy Hy2. rewrite urpat_S, Eb, Er in Hy. apply C; assumption.
             ++ injection H as E1 E2. subst k' x. split; [exact Hk|]. split.
                ** intros _. exists 1. rewrite urpat_S, Eb, Er. reflexivity.
                ** intros y Hy _. rewrite urpat_S, Eb, Er in Hy. exact Hy.
          -- assert (Hch : Forall (owned_matcher obj) (r_children r)) by (destruct r; apply owned_list; exact (proj2 Ho)).
             destruct (mpats f lb (r_children r) k) as [k1 y] eqn:Ey. destruct (IHl lb _ k k1 y Ey Hch Hk) as [A [B C]]. destruct y as [ps|e].
             ++ injection H as E1 E2. subst k' x. destruct (B ltac:(discriminate)) as [f' Hf'].
                assert (HU : urpat (S f') lb r = Ok (List.concat ps)) by (rewrite urpat_S, Eb, Hf'; reflexivity).
                split; [|split].
                ** intros id lb' p Hp r0 Hr0. rewrite (dget_dset _ key_eqb_iff) in Hp. destruct (key_eqb (id, lb') (r_id r, lb)) eqn:Ekey.
                   --- apply key_eqb_iff in Ekey. injection Ekey as -> ->. injection Hp as Hp. subst p. assert (r0 = r) by congruence. subst r0. exists (S f'). exact HU.
                   --- exact (A id lb' p Hp r0 Hr0).
                ** intros _. exists (S f'). exact HU.
                ** intros y Hy Hy2. rewrite urpat_S, Eb in Hy. destruct (upats f lb (r_children r)) as [ps'|e'] eqn:Eu.
                   --- pose proof (C _ eq_refl ltac:(discriminate)) as E. injection E as E. subst ps'. exact Hy.
                   --- pose proof (C _ eq_refl ltac:(congruence)) as E. discriminate.
             ++ injection H as E1 E2. subst k' x. split; [exact A|]. split.
                ** intro Hx. destruct (B ltac:(congruence)) as [f' Hf']. exists (S f'). rewrite urpat_S, Eb, Hf'. reflexivity.
                ** intros y Hy Hy2. rewrite urpat_S, Eb in Hy. destruct (upats f lb (r_children r)) as [ps'|e'] eqn:Eu.
                   --- pose proof (C _ eq_refl ltac:(discriminate)) as E. discriminate.
                   --- pose proof (C _ eq_refl ltac:(congruence)) as E. congruence.
  Qed.
End Cache.
