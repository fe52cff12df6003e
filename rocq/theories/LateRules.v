(** Rules read without a database are read with one when they resolve. *)
From Verif Require Import Base BaseFacts ClassModel ClassSpec ClassProofs ClassFinal RuleModel RuleSpec RuleProofs RuleCache RuleFinal RuleTable ActionModel
  Rfc7940Model SerialModel RulesXmlModel RulesXmlSpec RulesXmlClass RulesXmlRule RulesXmlFinal RulesXmlSection RulesXmlDoc RulesXmlTrip
  CharModel RepSpec LgrModel LabelModel LabelSpec EvalModel EvalSpec EvalFinal ReadySpec ReadyProofs ReadyFinal.
Open Scope string_scope.
Open Scope list_scope.
Open Scope nat_scope.

(** ** Tables whose definitions mention only what is defined *)
Definition complete_classes (look : table) : Prop := forall n c, dget String.eqb n look = Some c -> exists top, valid_class look top c.
Definition complete_rules (look : table) (rules : rtable) : Prop := forall n r, dget String.eqb n rules = Some r -> exists top, valid_rule look rules top r.
Lemma valid_class_more : forall (look look' : table), (forall n, dget String.eqb n look <> None -> dget String.eqb n look' <> None) -> forall c top, valid_class look top c -> valid_class look' top c.
Proof.
  intros look look' M. induction c as [n b t p l|n op ch IH] using cls_induct; intros top H; inversion H; subst; constructor; auto.
Qed.
Lemma valid_rule_more : forall (look look' : table) (rules rules' : rtable), (forall n, dget String.eqb n look <> None -> dget String.eqb n look' <> None) ->
  (forall n, dget String.eqb n rules <> None -> dget String.eqb n rules' <> None) ->
  (forall m, valid_matcher look rules m -> valid_matcher look' rules' m) /\ (forall r top, valid_rule look rules top r -> valid_rule look' rules' top r).
Proof.
  intros look look' rules rules' M1 M2.
  set (P := fun m => valid_matcher look rules m -> valid_matcher look' rules' m). set (Q := fun r => forall top, valid_rule look rules top r -> valid_rule look' rules' top r).
  assert (S : forall m, match m with MClass _ _ | MChoice _ _ | MAhead _ | MBehind _ | MRule _ _ => False | _ => True end -> P m) by (intros m Hm _; apply ok_simple; exact Hm).
  assert (L : forall l, Forall P l -> (forall m, In m l -> valid_matcher look rules m) -> forall m, In m l -> valid_matcher look' rules' m).
  { intros l HF H m Hm. rewrite Forall_forall in HF. exact (HF m Hm (H m Hm)). }
  assert (H6 : forall c k, P (MClass c k)). { intros c k H. inversion H as [m F| | | | |]; subst; [destruct F|]. apply ok_class. eapply valid_class_more; eassumption. }
  assert (H7 : forall k l, Forall P l -> P (MChoice k l)) by (intros k l IH H; inversion H as [m F| | | | |]; subst; [destruct F|]; apply ok_choice; exact (L l IH ltac:(assumption))).
  assert (H8 : forall l, Forall P l -> P (MAhead l)) by (intros l IH H; inversion H as [m F| | | | |]; subst; [destruct F|]; apply ok_ahead; exact (L l IH ltac:(assumption))).
  assert (H9 : forall l, Forall P l -> P (MBehind l)) by (intros l IH H; inversion H as [m F| | | | |]; subst; [destruct F|]; apply ok_behind; exact (L l IH ltac:(assumption))).
  assert (H10 : forall r k, Q r -> P (MRule r k)) by (intros r k IH H; inversion H as [m F| | | | |]; subst; [destruct F|]; apply ok_mrule; apply IH; assumption).
  assert (H11 : forall id nm b ch, Forall P ch -> Q (Rule id nm b ch)).
  { intros id nm b ch IH top H. inversion H; subst. apply ok_rule; [assumption|auto|exact (L ch IH ltac:(assumption))]. }
  split; [exact (matcher_induct P Q (S MStart I) (S MEnd I) (S MAnchor I) (fun k => S (MAny k) I) (fun l k => S (MChar l k) I) H6 H7 H8 H9 H10 H11)|
          exact (rule_induct P Q (S MStart I) (S MEnd I) (S MAnchor I) (fun k => S (MAny k) I) (fun l k => S (MChar l k) I) H6 H7 H8 H9 H10 H11)].
Qed.

(** ** Patterns under smaller tables *)
Lemma class_set_shrink : forall u look look', steady look look' -> complete_classes look -> forall fuel,
  (forall c top s, valid_class look top c -> class_set u look' fuel c = Ok s -> class_set u look fuel c = Ok s) /\
  (forall l acc s, (forall c, In c l -> valid_class look false c) -> union_set u look' fuel l acc = Ok s -> union_set u look fuel l acc = Ok s).
Proof.
  intros u look look' [S1 S2] HC. induction fuel as [|f [IH1 IH2]]; [split; discriminate|].
  assert (K : forall n c s, dget String.eqb n look = Some c -> class_set u look' f c = Ok s -> class_set u look f c = Ok s).
  { intros n c s Hn H. destruct (HC _ _ Hn) as [top V]. exact (IH1 _ _ _ V H). }
  split.
  - intros c top s V H. destruct c as [n [b|] [t|] [p|] l|n op l]; cbn [class_set] in *; try exact H;
      try (inversion V as [? ? ? ? ? ? _ VB|]; subst; specialize (VB b eq_refl); destruct (dget String.eqb b look) as [c'|] eqn:E; [|congruence]; rewrite (S1 _ _ E) in H; exact (K _ _ _ E H));
      try (rewrite S2 in H; destruct (dget String.eqb (tag_classname t) look) as [c'|] eqn:E; [exact (K _ _ _ E H)|exact H]).
    inversion V as [|? ? ? ? _ _ VC]; subst.
    destruct op; [destruct l as [|c1 l]; [discriminate|]; destruct (class_set u look' f c1) as [s1|] eqn:E; cbn [bind] in H; [rewrite (IH1 _ _ _ (VC c1 (or_introl eq_refl)) E); exact H|discriminate]| |..];
      try (apply IH2; [exact VC|exact H]);
      (destruct l as [|c1 [|c2 l]]; [discriminate|destruct (class_set u look' f c1); cbn [bind] in H; discriminate|];
       destruct (class_set u look' f c1) as [s1|] eqn:E; cbn [bind] in H; [|discriminate]; rewrite (IH1 _ _ _ (VC c1 (or_introl eq_refl)) E); cbn [bind];
       destruct (class_set u look' f c2) as [s2|] eqn:E2; cbn [bind] in H; [|discriminate]; rewrite (IH1 _ _ _ (VC c2 (or_intror (or_introl eq_refl))) E2); exact H).
  - intros l acc s V H. destruct l as [|c l]; [exact H|].
    change (bind (class_set u look' f c) (fun s0 => union_set u look' f l (fun x => acc x || s0 x)%bool) = Ok s) in H.
    change (bind (class_set u look f c) (fun s0 => union_set u look f l (fun x => acc x || s0 x)%bool) = Ok s). destruct (class_set u look' f c) as [s1|] eqn:E; cbn [bind] in H; [|discriminate].
    rewrite (IH1 _ _ _ (V c (or_introl eq_refl)) E). cbn [bind]. apply IH2; [intros c' Hc'; apply V; right; exact Hc'|exact H].
Qed.
Lemma pattern_shrink : forall u look look' rules rules', steady look look' -> more_rules rules rules' -> complete_classes look -> complete_rules look rules -> forall fuel,
  (forall lb m p, valid_matcher look rules m -> upat u look' rules' fuel lb m = Ok p -> upat u look rules fuel lb m = Ok p) /\
  (forall lb l p, (forall m, In m l -> valid_matcher look rules m) -> upats u look' rules' fuel lb l = Ok p -> upats u look rules fuel lb l = Ok p) /\
  (forall lb r top p, valid_rule look rules top r -> urpat u look' rules' fuel lb r = Ok p -> urpat u look rules fuel lb r = Ok p).
Proof.
  intros u look look' rules rules' S M HC HR. induction fuel as [|f [IH1 [IH2 IH3]]]; [repeat split; intros; discriminate|]. split; [|split].
  - intros lb m p V H. destruct m as [| | |n|l n|c n|n l|l|l|r n]; rewrite upat_step in H |- *; try exact H;
      inversion V as [m F|? ? VV|? ? VV|? VV|? VV|? ? VV]; subst; try (destruct F; fail).
    + unfold class_pattern in *. destruct (class_set u look' f c) as [s|] eqn:E; cbn [bind] in H; [|discriminate]. rewrite (proj1 (class_set_shrink u _ _ S HC f) _ _ _ VV E). exact H.
    + destruct (upats u look' rules' f lb l) as [ps|] eqn:E; cbn [bind] in H; [|discriminate]. rewrite (IH2 _ _ _ VV E). exact H.
    + destruct (upats u look' rules' f false l) as [ps|] eqn:E; cbn [bind] in H; [|discriminate]. rewrite (IH2 _ _ _ VV E). exact H.
    + destruct (upats u look' rules' f true l) as [ps|] eqn:E; cbn [bind] in H; [|discriminate]. rewrite (IH2 _ _ _ VV E). exact H.
    + destruct (urpat u look' rules' f lb r) as [ps|] eqn:E; cbn [bind] in H; [|discriminate]. rewrite (IH3 _ _ _ _ VV E). exact H.
  - intros lb l p V H. rewrite upats_step in H |- *. destruct l as [|m l]; [exact H|]. destruct (upat u look' rules' f lb m) as [q|] eqn:E; [|discriminate].
    rewrite (IH1 _ _ _ (V m (or_introl eq_refl)) E). destruct (upats u look' rules' f lb l) as [ps|] eqn:E2; cbn [bind] in H; [|discriminate].
    rewrite (IH2 _ _ _ (fun x Hx => V x (or_intror Hx)) E2). exact H.
  - intros lb r top p V H. rewrite urpat_S in H |- *. inversion V as [? i n b l _ VB VL]; subst. cbn [r_by_ref r_children] in *. destruct b as [b|].
    + specialize (VB b eq_refl). destruct (dget String.eqb b rules) as [r'|] eqn:Eb; [|congruence]. rewrite (M _ _ Eb) in H. destruct (HR _ _ Eb) as [top' V']. exact (IH3 _ _ _ _ V' H).
    + destruct (upats u look' rules' f lb l) as [ps|] eqn:E; [|discriminate]. rewrite (IH2 _ _ _ VL E). exact H.
Qed.
Lemma upattern_grow : forall u look look' rules rules', steady look look' -> more_rules rules rules' -> forall fuel,
  (forall lb m p, upat u look rules fuel lb m = Ok p -> upat u look' rules' fuel lb m = Ok p) /\
  (forall lb l p, upats u look rules fuel lb l = Ok p -> upats u look' rules' fuel lb l = Ok p) /\
  (forall lb r p, urpat u look rules fuel lb r = Ok p -> urpat u look' rules' fuel lb r = Ok p).
Proof.
  intros u look look' rules rules' S M. induction fuel as [|f [IH1 [IH2 IH3]]]; [repeat split; intros; discriminate|]. split; [|split].
  - intros lb m p H. destruct m as [| | |n|l n|c n|n l|l|l|r n]; rewrite upat_step in H |- *; try exact H.
    + unfold class_pattern in *. destruct (class_set u look f c) as [s|] eqn:E; cbn [bind] in H; [|discriminate]. rewrite (proj1 (class_set_steady u _ _ S f) _ _ E). exact H.
    + destruct (upats u look rules f lb l) as [ps|] eqn:E; cbn [bind] in H; [|discriminate]. rewrite (IH2 _ _ _ E). exact H.
    + destruct (upats u look rules f false l) as [ps|] eqn:E; cbn [bind] in H; [|discriminate]. rewrite (IH2 _ _ _ E). exact H.
    + destruct (upats u look rules f true l) as [ps|] eqn:E; cbn [bind] in H; [|discriminate]. rewrite (IH2 _ _ _ E). exact H.
    + destruct (urpat u look rules f lb r) as [ps|] eqn:E; cbn [bind] in H; [|discriminate]. rewrite (IH3 _ _ _ E). exact H.
  - intros lb l p H. rewrite upats_step in H |- *. destruct l as [|m l]; [exact H|]. destruct (upat u look rules f lb m) as [q|] eqn:E; [|discriminate].
    rewrite (IH1 _ _ _ E). destruct (upats u look rules f lb l) as [ps|] eqn:E2; cbn [bind] in H; [|discriminate]. rewrite (IH2 _ _ _ E2). exact H.
  - intros lb r p H. rewrite urpat_S in H |- *. destruct (r_by_ref r) as [b|].
    + destruct (dget String.eqb b rules) as [r'|] eqn:Eb; [|discriminate]. rewrite (M _ _ Eb). exact (IH3 _ _ _ H).
    + destruct (upats u look rules f lb (r_children r)) as [ps|] eqn:E; [|discriminate]. rewrite (IH2 _ _ _ E). exact H.
Qed.

(** ** What resolves has a pattern *)
Section Resolved.
  Variable u : ClassModel.unidb.
  Variable look : table.
  Variable rules : rtable.
  Hypothesis HT : shaped_table look.
  Hypothesis HS : forall n r, dget String.eqb n rules = Some r -> forall c, In c (classes_of_rule r) -> shaped c.
  Notation upat := (upat u look rules).
  Notation upats := (upats u look rules).
  Notation urpat := (urpat u look rules).
  Lemma all_patterns : forall l lb, (forall m, In m l -> exists f p, upat f lb m = Ok p) -> exists f ps, upats f lb l = Ok ps.
  Proof.
    induction l as [|m l IH]; intros lb H; [exists 1, []; reflexivity|]. destruct (H m (or_introl eq_refl)) as [f1 [p Hp]]. destruct (IH lb (fun x Hx => H x (or_intror Hx))) as [f2 [ps Hps]].
    exists (S (max f1 f2)), (p :: ps). rewrite upats_step. rewrite (upat_stable _ _ _ f1 (max f1 f2) lb m (Ok p)) by (try lia; try assumption; discriminate).
    rewrite (upats_stable _ _ _ f2 (max f1 f2) lb l (Ok ps)) by (try lia; try assumption; discriminate). reflexivity.
  Qed.
  Lemma resolved_pattern :
    (forall m, resolves u look rules m -> (forall c, In c (classes_of_matcher m) -> shaped c) -> forall lb, exists f p, upat f lb m = Ok p) /\
    (forall r, resolves_rule u look rules r -> (forall c, In c (classes_of_rule r) -> shaped c) -> forall lb, exists f p, urpat f lb r = Ok p).
  Proof.
    assert (L : forall l, (forall m, In m l -> (forall c, In c (classes_of_matcher m) -> shaped c) -> forall lb, exists f p, upat f lb m = Ok p) ->
      (forall c, In c (flat_map classes_of_matcher l) -> shaped c) -> forall lb, exists f ps, upats f lb l = Ok ps).
    { intros l H Hc lb. apply all_patterns. intros m Hm. apply (H m Hm). intros c K. apply Hc. apply in_flat_map. exists m. auto. }
    apply (resolves_both u look rules (fun m _ => (forall c, In c (classes_of_matcher m) -> shaped c) -> forall lb, exists f p, upat f lb m = Ok p)
       (fun r _ => (forall c, In c (classes_of_rule r) -> shaped c) -> forall lb, exists f p, urpat f lb r = Ok p)); cbn [classes_of_matcher classes_of_rule];
      try (intros; exists 1; eexists; reflexivity).
    - intros c k P HD Hc lb. destruct (proj1 (class_evaluates u look c (Hc c (or_introl eq_refl)) HT P) HD) as [n Hn]. destruct (Hn n (le_n n)) as [s [Hs _]].
      exists (S n). rewrite upat_step. unfold class_pattern. rewrite Hs. cbn [bind]. eexists. reflexivity.
    - intros k l _ IH Hc lb. destruct (L l IH Hc lb) as [f [ps H]]. exists (S f). rewrite upat_step, H. eexists. reflexivity.
    - intros l _ IH Hc lb. destruct (L l IH Hc false) as [f [ps H]]. exists (S f). rewrite upat_step, H. eexists. reflexivity.
    - intros l _ IH Hc lb. destruct (L l IH Hc true) as [f [ps H]]. exists (S f). rewrite upat_step, H. eexists. reflexivity.
    - intros r k _ IH Hc lb. destruct (IH Hc lb) as [f [p H]]. exists (S f). rewrite upat_step, H. eexists. reflexivity.
    - intros id nm ch _ IH Hc lb. destruct (L ch IH Hc lb) as [f [ps H]]. exists (S f). rewrite urpat_S. cbn [r_by_ref r_children]. rewrite H. eexists. reflexivity.
    - intros id nm b ch r Hb _ IH Hc lb. destruct (IH (HS _ _ Hb) lb) as [f [p H]]. exists (S f). rewrite urpat_S. cbn [r_by_ref]. rewrite Hb, H. eexists. reflexivity.
  Qed.
End Resolved.

(** ** The cache while rules are read *)
Definition keyed (obj : nat -> option rule) (k : cache) : Prop := forall id lb p, dget key_eqb (id, lb) k = Some p -> obj id <> None.
Section Reading.
  Variable u : ClassModel.unidb.
  Variable look : table.
  Variable rules : rtable.
  Lemma keys_owned : forall obj, owned_rules obj rules -> forall fuel,
    (forall lb m k, owned_matcher obj m -> keyed obj k -> keyed obj (fst (mpat u look rules fuel lb m k))) /\
    (forall lb l k, Forall (owned_matcher obj) l -> keyed obj k -> keyed obj (fst (mpats u look rules fuel lb l k))) /\
    (forall lb r k, owned obj r -> keyed obj k -> keyed obj (fst (rpat u look rules fuel lb r k))).
  Proof.
    intros obj HO. induction fuel as [|f [IH1 [IH2 IH3]]]; [repeat split; intros; assumption|]. split; [|split].
    - intros lb m k O K. rewrite mpat_step. destruct m as [| | |n|l n|c n|n l|l|l|r n]; try exact K; cbn [owned_matcher] in O.
      + apply owned_list in O. pose proof (IH2 lb l k O K) as Q. destruct (mpats u look rules f lb l k). exact Q.
      + apply owned_list in O. pose proof (IH2 false l k O K) as Q. destruct (mpats u look rules f false l k). exact Q.
      + apply owned_list in O. pose proof (IH2 true l k O K) as Q. destruct (mpats u look rules f true l k). exact Q.
      + pose proof (IH3 lb r k O K) as Q. destruct (rpat u look rules f lb r k). exact Q.
    - intros lb l k O K. rewrite mpats_step. destruct l as [|m l]; [exact K|]. inversion O as [|? ? O1 O2]; subst. pose proof (IH1 lb m k O1 K) as Q. destruct (mpat u look rules f lb m k) as [k1 [p|]]; [|exact Q].
      pose proof (IH2 lb l k1 O2 Q) as Q2. destruct (mpats u look rules f lb l k1). exact Q2.
    - intros lb r k O K. rewrite rpat_step. destruct (dget key_eqb (r_id r, lb) k); [exact K|]. destruct r as [id nm b ch]. cbn [owned r_by_ref r_children r_id] in *. destruct O as [O1 O2]. apply owned_list in O2.
      destruct b as [b|]; [destruct (dget String.eqb b rules) as [r'|] eqn:E; [apply IH3; [exact (HO _ _ E)|exact K]|exact K]|].
      pose proof (IH2 lb ch k O2 K) as Q. destruct (mpats u look rules f lb ch k) as [k1 [ps|]]; [|exact Q]. cbn [fst] in *. intros id' lb' p H. rewrite (dget_dset _ key_eqb_iff) in H.
      destruct (key_eqb (id', lb') (id, lb)) eqn:E; [|exact (Q _ _ _ H)]. apply key_eqb_iff in E. injection E as -> _. congruence.
  Qed.

  Definition sound (obj : nat -> option rule) (s : rread) : Prop :=
    (forall i r, obj i = Some r -> i < rd_next s) /\ owned_rules obj rules /\ keyed obj (rd_cache s) /\ fresh_value u look rules obj (rd_cache s).
  Definition onward (obj obj' : nat -> option rule) (s s' : rread) : Prop :=
    (forall i, i < rd_next s -> obj' i = obj i) /\ rd_next s <= rd_next s' /\ sound obj' s'.
  Lemma onward_larger : forall obj obj' s s', sound obj s -> onward obj obj' s s' -> larger obj obj'.
  Proof. intros obj obj' s s' [F _] [B _] i r H. rewrite B; [exact H|]. exact (F _ _ H). Qed.
  Lemma onward_refl : forall obj s, sound obj s -> onward obj obj s s.
  Proof. intros obj s F. split; [reflexivity|]. split; [lia|exact F]. Qed.
  Lemma onward_trans : forall a b c s t v, onward a b s t -> onward b c t v -> onward a c s v.
  Proof. intros a b c s t v [A1 [A2 A3]] [B1 [B2 B3]]. split; [|split; [lia|exact B3]]. intros i Hi. rewrite B1 by lia. apply A1. exact Hi. Qed.

  Definition has_patterns (r : rule) : Prop := forall lb, exists f p, urpat u look rules f lb r = Ok p.
  Fixpoint patterns_in (m : matcher) : Prop :=
    match m with
    | MChoice _ l | MAhead l | MBehind l => (fix all (l : list matcher) := match l with [] => True | x :: l' => patterns_in x /\ all l' end) l
    | MRule r _ => has_patterns r /\ match r with Rule _ _ b ch => b = None -> (fix all (l : list matcher) := match l with [] => True | x :: l' => patterns_in x /\ all l' end) ch end
    | _ => True
    end.
  Lemma patterns_list : forall l, (fix all (l : list matcher) := match l with [] => True | x :: l' => patterns_in x /\ all l' end) l <-> Forall patterns_in l.
  Proof.
    induction l as [|x l IH]; split; intro H; [constructor|exact I| |].
    - destruct H as [H1 H2]. constructor; [exact H1|]. apply IH. exact H2.
    - inversion H; subst. split; [assumption|]. apply IH. assumption.
  Qed.
  Definition within_o (o : option matcher) : Prop := match o with Some m => patterns_in m | None => True end.
  Definition held (obj : nat -> option rule) (o : option matcher) : Prop := match o with Some m => owned_matcher obj m | None => True end.

  Lemma precalculate_given : forall r, has_patterns r -> exists F, forall fuel obj s, F <= fuel -> sound obj s -> owned obj r ->
    exists s', precalculate (Some u) look rules fuel r s = Ok s' /\ level s s' /\ sound obj s'.
  Proof.
    intros r HP. destruct (HP true) as [f1 [p1 H1]]. destruct (HP false) as [f2 [p2 H2]]. exists (max f1 f2). intros fuel obj s Hf [S1 [S2 [S3 S4]]] O.
    pose proof (urpat_stable u look rules f1 fuel true r (Ok p1) ltac:(lia) H1 ltac:(discriminate)) as G1. pose proof (urpat_stable u look rules f2 fuel false r (Ok p2) ltac:(lia) H2 ltac:(discriminate)) as G2.
    unfold precalculate. pose proof (proj2 (proj2 (keys_owned obj S2 fuel)) true r _ O S3) as K1. destruct (rpat u look rules fuel true r (rd_cache s)) as [k1 x1] eqn:R1. cbn [fst] in K1.
    destruct (proj2 (proj2 (cached u look rules obj S2 fuel)) _ _ _ _ _ R1 O S4) as [C1 [_ C2]]. rewrite (C2 _ G1 ltac:(discriminate)). cbn [bind].
    pose proof (proj2 (proj2 (keys_owned obj S2 fuel)) false r _ O K1) as K2. destruct (rpat u look rules fuel false r k1) as [k2 x2] eqn:R2. cbn [fst] in K2.
    destruct (proj2 (proj2 (cached u look rules obj S2 fuel)) _ _ _ _ _ R2 O C1) as [D1 [_ D2]]. rewrite (D2 _ G2 ltac:(discriminate)). cbn [bind].
    eexists. split; [reflexivity|]. split; [split; reflexivity|]. split; [exact S1|]. split; [exact S2|]. split; [exact K2|exact D1].
  Qed.

  Lemma level_refl : forall s, level s s.
  Proof. intro s. split; reflexivity. Qed.
  Lemma level_trans : forall a b c, level a b -> level b c -> level a c.
  Proof. intros a b c [A1 A2] [B1 B2]. split; congruence. Qed.
  Lemma level_sym : forall a b, level a b -> level b a.
  Proof. intros a b [A1 A2]. split; congruence. Qed.
  Definition follows (e : xelem) : Prop := forall fuel0 t t' o, parse_helper None look rules fuel0 e t = Ok (t', o) -> within_o o ->
    exists F, forall fuel obj s, F <= fuel -> level s t -> sound obj s ->
      exists s' obj', parse_helper (Some u) look rules fuel e s = Ok (s', o) /\ level s' t' /\ onward obj obj' s s' /\ held obj' o.
  Lemma items_follow : forall l, Forall follows l -> forall fuel0 refuse t t' ms, parse_items None look rules fuel0 refuse l t = Ok (t', ms) -> Forall patterns_in ms ->
    exists F, forall fuel obj s, F <= fuel -> level s t -> sound obj s ->
      exists s' obj', parse_items (Some u) look rules fuel refuse l s = Ok (s', ms) /\ level s' t' /\ onward obj obj' s s' /\ Forall (owned_matcher obj') ms.
  Proof.
    intros l H. induction H as [|e l He Hl IH]; intros fuel0 refuse t t' ms K P; cbn [parse_items] in *.
    - injection K as <- <-. exists 0. intros fuel obj s _ L S. exists s, obj. split; [reflexivity|]. split; [exact L|]. split; [apply onward_refl; exact S|constructor].
    - destruct (parse_helper None look rules fuel0 e t) as [[t1 o]|] eqn:E; cbn [bind fst snd] in K; [|discriminate]. destruct o as [m|].
      + destruct refuse; [discriminate|]. destruct (parse_items None look rules fuel0 false l t1) as [[t2 ms2]|] eqn:E2; cbn [bind fst snd] in K; [|discriminate]. injection K as <- <-.
        inversion P as [|? ? P1 P2]; subst. destruct (He _ _ _ _ E P1) as [F1 H1]. destruct (IH _ _ _ _ _ E2 P2) as [F2 H2]. exists (max F1 F2). intros fuel obj s Hf L S.
        destruct (H1 fuel obj s ltac:(lia) L S) as [s1 [o1 [G1 [L1 [B1 O1]]]]]. destruct (H2 fuel o1 s1 ltac:(lia) L1 (proj2 (proj2 B1))) as [s2 [o2 [G2 [L2 [B2 O2]]]]].
        rewrite G1. cbn [bind fst snd]. rewrite G2. cbn [bind fst snd]. exists s2, o2. split; [reflexivity|]. split; [exact L2|]. split; [exact (onward_trans _ _ _ _ _ _ B1 B2)|].
        constructor; [|exact O2]. apply (owned_larger o1); [exact (onward_larger _ _ _ _ (proj2 (proj2 B1)) B2)|exact O1].
      + destruct (He _ _ _ _ E I) as [F1 H1]. destruct (IH _ _ _ _ _ K P) as [F2 H2]. exists (max F1 F2). intros fuel obj s Hf L S.
        destruct (H1 fuel obj s ltac:(lia) L S) as [s1 [o1 [G1 [L1 [B1 O1]]]]]. destruct (H2 fuel o1 s1 ltac:(lia) L1 (proj2 (proj2 B1))) as [s2 [o2 [G2 [L2 [B2 O2]]]]].
        rewrite G1. cbn [bind fst snd]. rewrite G2. exists s2, o2. split; [reflexivity|]. split; [exact L2|]. split; [exact (onward_trans _ _ _ _ _ _ B1 B2)|exact O2].
  Qed.
  Lemma items_refused : forall fuel0 l t t' ms, parse_items None look rules fuel0 true l t = Ok (t', ms) -> ms = [].
  Proof.
    intros fuel0. induction l as [|e l IH]; intros t t' ms H; cbn [parse_items] in H; [injection H as _ <-; reflexivity|].
    destruct (parse_helper None look rules fuel0 e t) as [[t1 [m|]]|]; cbn [bind fst snd] in H; [discriminate| |discriminate]. exact (IH _ _ _ H).
  Qed.
  Lemma body_follow : forall e, Forall follows (x_children e) -> forall fuel0 t t' r, parse_rule_body None look rules fuel0 e t = Ok (t', r) -> has_patterns r -> (r_by_ref r = None -> Forall patterns_in (r_children r)) ->
    exists F, forall fuel obj s, F <= fuel -> level s t -> sound obj s ->
      exists s' obj', parse_rule_body (Some u) look rules fuel e s = Ok (s', r) /\ level s' t' /\ onward obj obj' s s' /\ owned obj' r.
  Proof.
    intros e IH fuel0 t t' r H P1 P2. unfold parse_rule_body in H |- *. destruct (new_rule (rd_next t) (x_get e "name") (x_get e "by-ref")) as [r0|] eqn:E0; cbn [bind] in H; [|discriminate].
    assert (Hid : r_id r0 = rd_next t) by (destruct (x_get e "name"), (x_get e "by-ref"); cbn [new_rule] in E0; [discriminate|..]; injection E0 as <-; reflexivity).
    destruct (parse_items _ _ _ _ _ (x_children e) _) as [[t1 ms]|] eqn:E1; cbn [bind fst snd precalculate] in H; [|discriminate]. injection H as <- <-. cbn [r_children r_by_ref] in P2.
    assert (P3 : Forall patterns_in ms) by (destruct (r_by_ref r0); [rewrite (items_refused _ _ _ _ _ E1); constructor|exact (P2 eq_refl)]).
    rewrite Hid in *. set (r1 := Rule (rd_next t) (r_name r0) (r_by_ref r0) ms) in *.
    destruct (items_follow _ IH _ _ _ _ _ E1 P3) as [F1 H1]. destruct (precalculate_given r1 P1) as [F2 H2]. exists (max F1 F2). intros fuel obj s Hf [L1 L2] So. rewrite L1, E0. cbn [bind]. rewrite Hid.
    assert (S0 : sound obj (mkRead (S (rd_next t)) (rd_cache s) (rd_results s))).
    { destruct So as [S1 S2]. split; [|exact S2]. intros i x Hi. cbn [rd_next]. pose proof (S1 _ _ Hi). lia. }
    destruct (H1 fuel obj (mkRead (S (rd_next t)) (rd_cache s) (rd_results s)) ltac:(lia)) as [s1 [o1 [G1 [L3 [B1 O1]]]]]; [split; [reflexivity|exact L2]|exact S0|]. rewrite G1. cbn [bind fst snd]. fold r1.
    pose proof B1 as [B2 [B3 [B4 [B5 [B6 B7]]]]]. cbn [rd_next] in B2, B3.
    set (o2 := fun i => if Nat.eqb i (rd_next t) then Some r1 else o1 i).
    assert (N : o1 (rd_next t) = None).
    { rewrite B2 by lia. destruct (obj (rd_next t)) as [x|] eqn:Ex; [|reflexivity]. apply (proj1 So) in Ex. lia. }
    assert (Lg : larger o1 o2) by (intros i x Hi; unfold o2; destruct (Nat.eqb_spec i (rd_next t)) as [->|]; [congruence|exact Hi]).
    assert (O : owned o2 r1).
    { unfold r1. cbn [owned]. split; [unfold o2; rewrite Nat.eqb_refl; reflexivity|]. apply owned_list. eapply Forall_impl; [|exact O1]. exact (proj1 (owned_larger _ _ Lg)). }
    assert (S1 : sound o2 s1).
    { split; [|split; [|split]].
      - intros i x Hx. unfold o2 in Hx. destruct (Nat.eqb_spec i (rd_next t)); [lia|]. exact (B4 _ _ Hx).
      - intros n x Hn. apply (owned_larger o1); [exact Lg|exact (B5 _ _ Hn)].
      - intros id lb p Hk. pose proof (B6 _ _ _ Hk) as Q. unfold o2. destruct (Nat.eqb id (rd_next t)); [discriminate|exact Q].
      - intros id lb p Hk x Hx. unfold o2 in Hx. destruct (Nat.eqb_spec id (rd_next t)) as [->|]; [exfalso; exact (B6 _ _ _ Hk N)|]. exact (B7 _ _ _ Hk _ Hx). }
    destruct (H2 fuel o2 s1 ltac:(lia) S1 O) as [s2 [G2 [L4 S2]]]. rewrite G2. cbn [bind]. exists s2, o2. split; [reflexivity|]. split; [exact (level_trans _ _ _ (level_sym _ _ L4) L3)|]. split; [|exact O].
    split; [|split; [|exact S2]].
    - intros i Hi. unfold o2. destruct (Nat.eqb_spec i (rd_next t)); [lia|]. apply B2. lia.
    - destruct L4 as [L4 _]. lia.
  Qed.
  Lemma helper_follow : forall e, follows e.
  Proof.
    intro e. induction e as [sp n a tx ch IH] using xelem_induct. set (e := XElem sp n a tx ch). change ch with (x_children e) in IH. clearbody e.
    intros fuel0 t t' o H P. rewrite parse_helper_eq in H. cbv zeta in H.
    assert (Simple : forall m, Ok (t, Some m) = Ok (t', o) -> (forall obj, owned_matcher obj m) ->
      exists F, forall fuel obj s, F <= fuel -> level s t -> sound obj s -> exists s' obj', Ok (s, Some m) = Ok (s', o) /\ level s' t' /\ onward obj obj' s s' /\ held obj' o).
    { intros m K Hm. injection K as <- <-. exists 0. intros fuel obj s _ L S. exists s, obj. split; [reflexivity|]. split; [exact L|]. split; [apply onward_refl; exact S|apply Hm]. }
    assert (Group : forall (mk : list matcher -> matcher), (forall l obj', Forall (owned_matcher obj') l -> owned_matcher obj' (mk l)) -> (forall l, patterns_in (mk l) -> Forall patterns_in l) ->
       bind (parse_items None look rules fuel0 false (x_children e) t) (fun p => Ok (fst p, Some (mk (snd p)))) = Ok (t', o) ->
       exists F, forall fuel obj s, F <= fuel -> level s t -> sound obj s -> exists s' obj', bind (parse_items (Some u) look rules fuel false (x_children e) s) (fun p => Ok (fst p, Some (mk (snd p)))) = Ok (s', o) /\ level s' t' /\ onward obj obj' s s' /\ held obj' o).
    { intros mk Hmk Hp K. destruct (parse_items None look rules fuel0 false (x_children e) t) as [[t1 l]|] eqn:E; cbn [bind fst snd] in K; [|discriminate]. injection K as <- <-.
      destruct (items_follow _ IH _ _ _ _ _ E (Hp _ P)) as [F HF]. exists F. intros fuel obj s Hf L S. destruct (HF fuel obj s Hf L S) as [s1 [o1 [G [L1 [B O]]]]]. rewrite G. cbn [bind fst snd].
      exists s1, o1. split; [reflexivity|]. split; [exact L1|]. split; [exact B|]. apply Hmk. exact O. }
    assert (Via : forall (X : nat -> rread -> res (rread * option matcher)), (forall fuel s, parse_helper (Some u) look rules fuel e s = X fuel s) ->
      (exists F, forall fuel obj s, F <= fuel -> level s t -> sound obj s -> exists s' obj', X fuel s = Ok (s', o) /\ level s' t' /\ onward obj obj' s s' /\ held obj' o) ->
      exists F, forall fuel obj s, F <= fuel -> level s t -> sound obj s -> exists s' obj', parse_helper (Some u) look rules fuel e s = Ok (s', o) /\ level s' t' /\ onward obj obj' s s' /\ held obj' o).
    { intros X E [F HF]. exists F. intros fuel obj s. rewrite E. apply HF. }
    refine (Via _ (fun fuel s => parse_helper_eq (Some u) look rules fuel e s) _). cbv zeta. clear Via.
    destruct (has_tag "anchor" e); [exact (Simple _ H (fun _ => I))|]. destruct (has_tag "any" e); [exact (Simple _ H (fun _ => I))|].
    destruct (has_tag "char" e). { destruct (elem_cps e) as [l|]; cbn [bind] in H |- *; [|discriminate]. exact (Simple _ H (fun _ => I)). }
    destruct (has_tag "choice" e); [apply (Group (fun l => MChoice _ l)) in H; [exact H|intros l obj' K; cbn [owned_matcher]; apply owned_list; exact K|intros l K; apply patterns_list; exact K]|].
    destruct (has_tag "end" e); [exact (Simple _ H (fun _ => I))|].
    destruct (has_tag "look-ahead" e); [apply (Group (fun l => MAhead l)) in H; [exact H|intros l obj' K; cbn [owned_matcher]; apply owned_list; exact K|intros l K; apply patterns_list; exact K]|].
    destruct (has_tag "look-behind" e); [apply (Group (fun l => MBehind l)) in H; [exact H|intros l obj' K; cbn [owned_matcher]; apply owned_list; exact K|intros l K; apply patterns_list; exact K]|].
    destruct (has_tag "start" e); [exact (Simple _ H (fun _ => I))|].
    destruct (has_tag "rule" e).
    { destruct (parse_rule_body None look rules fuel0 e t) as [[t1 r]|] eqn:E; cbn [bind fst snd] in H; [|discriminate]. injection H as <- <-. cbn [within_o patterns_in] in P. destruct P as [P1 P2].
      destruct (body_follow e IH _ _ _ _ E P1) as [F HF]. { destruct r as [i nm b ms]. cbn [r_by_ref r_children]. intro Eb. apply patterns_list. exact (P2 Eb). }
      exists F. intros fuel obj s Hf L S. destruct (HF fuel obj s Hf L S) as [s1 [o1 [G [L1 [B O]]]]]. rewrite G. cbn [bind fst snd]. exists s1, o1. auto. }
    destruct (class_tag e). { destruct (parse_class e) as [c|]; cbn [bind] in H |- *; [|discriminate]. exact (Simple _ H (fun _ => I)). }
    injection H as <- <-. exists 0. intros fuel obj s _ [L1 L2] S. exists (unhandled s), obj. split; [reflexivity|]. split; [split; [exact L1|unfold unhandled; cbn [rd_results]; rewrite L2; reflexivity]|].
    split; [|exact I]. split; [reflexivity|]. split; [cbn; lia|exact S].
  Qed.
  Lemma rule_follow : forall e fuel0 t t' r, lgr_elem "rule" e -> parse_rule None look rules fuel0 e t = Ok (t', r) -> has_patterns r -> (r_by_ref r = None -> Forall patterns_in (r_children r)) ->
    exists F, forall fuel obj s, F <= fuel -> level s t -> sound obj s ->
      exists s' obj', parse_rule (Some u) look rules fuel e s = Ok (s', r) /\ level s' t' /\ onward obj obj' s s' /\ owned obj' r.
  Proof.
    intros e fuel0 t t' r T H P1 P2. rewrite (parse_rule_eq _ _ _ _ _ _ T) in H. destruct (body_follow e (proj2 (Forall_forall _ _) (fun x _ => helper_follow x)) fuel0 t t' r H P1 P2) as [F HF]. exists F. intros fuel obj s. rewrite (parse_rule_eq _ _ _ _ _ _ T). apply HF.
  Qed.
End Reading.

(** ** Sections *)
Lemma steady_between : forall a b c, steady a c -> steady b c -> (forall n, dget String.eqb n a <> None -> dget String.eqb n b <> None) -> steady a b.
Proof.
  intros a b c [A1 A2] [B1 B2] M. split.
  - intros n x H. destruct (dget String.eqb n b) as [y|] eqn:E; [|exfalso; apply (M n); congruence]. pose proof (A1 _ _ H) as K1. pose proof (B1 _ _ E) as K2. congruence.
  - intro t. rewrite <- A2, <- B2. reflexivity.
Qed.
Lemma more_between : forall a b c, more_rules a c -> more_rules b c -> (forall n, dget String.eqb n a <> None -> dget String.eqb n b <> None) -> more_rules a b.
Proof.
  intros a b c A B M n x H. destruct (dget String.eqb n b) as [y|] eqn:E; [|exfalso; apply (M n); congruence]. pose proof (A _ _ H) as K1. pose proof (B _ _ E) as K2. congruence.
Qed.
Lemma dset_keeps : forall (V : Type) n (x : V) (d : dict string V) m, dget String.eqb m d <> None -> dget String.eqb m (dset String.eqb n x d) <> None.
Proof. intros V n x d m H. rewrite (dget_dset _ string_eqb_iff). destruct (String.eqb m n); [discriminate|exact H]. Qed.
Lemma element_grows : forall db fuel force e g s g1 s1, element_read db fuel force e g s g1 s1 ->
  (forall n, dget String.eqb n (ru_classes g) <> None -> dget String.eqb n (ru_classes g1) <> None) /\ (forall n, dget String.eqb n (ru_rules g) <> None -> dget String.eqb n (ru_rules g1) <> None).
Proof.
  intros db fuel force e g s g1 s1 H. destruct H as [c T E V|r s1 T E V|a T E|U]; cbn [ru_classes ru_rules]; (split; [|try (intros n Hn; exact Hn)]); try (intros n Hn; exact Hn).
  - intros n Hn. destruct (x_get e "name"); [apply dset_keeps; exact Hn|exact Hn].
  - intros n Hn. destruct (x_get e "name"); [apply dset_keeps; exact Hn|exact Hn].
Qed.
Lemma element_complete : forall db fuel e g s g1 s1, element_read db fuel false e g s g1 s1 -> complete_classes (ru_classes g) -> complete_rules (ru_classes g) (ru_rules g) ->
  complete_classes (ru_classes g1) /\ complete_rules (ru_classes g1) (ru_rules g1).
Proof.
  intros db fuel e g s g1 s1 H C1 C2. pose proof (element_grows _ _ _ _ _ _ _ _ H) as [G1 G2].
  assert (O1 : forall n c, dget String.eqb n (ru_classes g) = Some c -> exists top, valid_class (ru_classes g1) top c).
  { intros n c Hc. destruct (C1 _ _ Hc) as [top V]. exists top. exact (valid_class_more _ _ G1 _ _ V). }
  assert (O2 : forall n r, dget String.eqb n (ru_rules g) = Some r -> exists top, valid_rule (ru_classes g1) (ru_rules g1) top r).
  { intros n r Hr. destruct (C2 _ _ Hr) as [top V]. exists top. exact (proj2 (valid_rule_more _ _ _ _ G1 G2) _ _ V). }
  split.
  - intros n c Hc. destruct H as [c0 T E V|r s1 T E V|a T E|U]; cbn [ru_classes ru_rules] in *; try exact (O1 _ _ Hc).
    destruct (x_get e "name") as [n0|]; [|exact (O1 _ _ Hc)]. rewrite (dget_dset _ string_eqb_iff) in Hc. destruct (String.eqb n n0); [|exact (O1 _ _ Hc)]. injection Hc as <-. exists true. exact (valid_class_more _ _ G1 _ _ (V eq_refl)).
  - intros n r Hr. destruct H as [c0 T E V|r0 s1 T E V|a T E|U]; cbn [ru_classes ru_rules] in *; try exact (O2 _ _ Hr).
    destruct (x_get e "name") as [n0|]; [|exact (O2 _ _ Hr)]. rewrite (dget_dset _ string_eqb_iff) in Hr. destruct (String.eqb n n0); [|exact (O2 _ _ Hr)]. injection Hr as <-. exists true. exact (proj2 (valid_rule_more _ _ _ _ G1 G2) _ _ (V eq_refl)).
Qed.
Section Whole.
  Variable u : ClassModel.unidb.
  Variable Look : table.
  Variable Rules : rtable.
  Hypothesis HT : shaped_table Look.
  Hypothesis HS : forall n r, dget String.eqb n Rules = Some r -> forall c, In c (classes_of_rule r) -> shaped c.
  Lemma resolved_within : forall look rules, steady look Look -> more_rules rules Rules -> complete_classes look -> complete_rules look rules ->
    (forall m, resolves u Look Rules m -> valid_matcher look rules m -> (forall c, In c (classes_of_matcher m) -> shaped c) -> patterns_in u look rules m) /\
    (forall r top, resolves_rule u Look Rules r -> valid_rule look rules top r -> (forall c, In c (classes_of_rule r) -> shaped c) ->
       has_patterns u look rules r /\ (r_by_ref r = None -> Forall (patterns_in u look rules) (r_children r))).
  Proof.
    intros look rules S M C1 C2.
    assert (HP : forall r top, resolves_rule u Look Rules r -> valid_rule look rules top r -> (forall c, In c (classes_of_rule r) -> shaped c) -> has_patterns u look rules r).
    { intros r top R V Hc lb. destruct (proj2 (resolved_pattern u Look Rules HT HS) r R Hc lb) as [f [p H]]. exists f, p. exact (proj2 (proj2 (pattern_shrink u _ _ _ _ S M C1 C2 f)) _ _ _ _ V H). }
    set (P := fun m => resolves u Look Rules m -> valid_matcher look rules m -> (forall c, In c (classes_of_matcher m) -> shaped c) -> patterns_in u look rules m).
    set (Q := fun r => forall top, resolves_rule u Look Rules r -> valid_rule look rules top r -> (forall c, In c (classes_of_rule r) -> shaped c) ->
       has_patterns u look rules r /\ (r_by_ref r = None -> Forall (patterns_in u look rules) (r_children r))).
    assert (L : forall l, Forall P l -> (forall m, In m l -> resolves u Look Rules m) -> (forall m, In m l -> valid_matcher look rules m) -> (forall c, In c (flat_map classes_of_matcher l) -> shaped c) -> Forall (patterns_in u look rules) l).
    { intros l HF R V Hc. apply Forall_forall. intros m Hm. rewrite Forall_forall in HF. apply (HF m Hm (R m Hm) (V m Hm)). intros c K. apply Hc. apply in_flat_map. exists m. auto. }
    assert (Z : forall m, match m with MClass _ _ | MChoice _ _ | MAhead _ | MBehind _ | MRule _ _ => False | _ => True end -> P m) by (intros m Hm _ _ _; destruct m; try destruct Hm; exact I).
    assert (H6 : forall c k, P (MClass c k)) by (intros c k _ _ _; exact I).
    assert (H7 : forall k l, Forall P l -> P (MChoice k l)).
    { intros k l IH R V Hc. cbn [patterns_in]. apply patterns_list. inversion R; subst. inversion V as [m F| | | | |]; subst; [destruct F|]. apply L; assumption. }
    assert (H8 : forall l, Forall P l -> P (MAhead l)).
    { intros l IH R V Hc. cbn [patterns_in]. apply patterns_list. inversion R; subst. inversion V as [m F| | | | |]; subst; [destruct F|]. apply L; assumption. }
    assert (H9 : forall l, Forall P l -> P (MBehind l)).
    { intros l IH R V Hc. cbn [patterns_in]. apply patterns_list. inversion R; subst. inversion V as [m F| | | | |]; subst; [destruct F|]. apply L; assumption. }
    assert (H10 : forall r k, Q r -> P (MRule r k)).
    { intros r k IH R V Hc. inversion R as [| | | | | | | | |? ? R']; subst. inversion V as [m F| | | | |? ? V']; subst; [destruct F|]. destruct (IH _ R' V' Hc) as [K1 K2]. cbn [patterns_in]. split; [exact K1|].
      destruct r as [i nm b ch]. intro Eb. apply patterns_list. exact (K2 Eb). }
    assert (H11 : forall id nm b ch, Forall P ch -> Q (Rule id nm b ch)).
    { intros id nm b ch IH top R V Hc. split; [exact (HP _ _ R V Hc)|]. cbn [r_by_ref r_children]. intros ->. inversion R; subst. inversion V; subst. apply L; assumption. }
    split; [exact (matcher_induct P Q (Z MStart I) (Z MEnd I) (Z MAnchor I) (fun k => Z (MAny k) I) (fun l k => Z (MChar l k) I) H6 H7 H8 H9 H10 H11)|
            exact (rule_induct P Q (Z MStart I) (Z MEnd I) (Z MAnchor I) (fun k => Z (MAny k) I) (fun l k => Z (MChar l k) I) H6 H7 H8 H9 H10 H11)].
  Qed.
  Lemma sound_grows : forall look look' rules rules' obj s, steady look look' -> more_rules rules rules' -> owned_rules obj rules' -> sound u look rules obj s -> sound u look' rules' obj s.
  Proof.
    intros look look' rules rules' obj s S M O [S1 [S2 [S3 S4]]]. split; [exact S1|]. split; [exact O|]. split; [exact S3|]. intros id lb p Hk r Hr. destruct (S4 _ _ _ Hk _ Hr) as [f Hf]. exists f.
    exact (proj2 (proj2 (upattern_grow u _ _ _ _ S M f)) _ _ _ Hf).
  Qed.
  Hypothesis HA : all_resolve u Look Rules.
  Lemma section_follow : forall fuel0 l g t g' t', process_rules None fuel0 false l g t = Ok (g', t') ->
    (forall pre post g1 t1, l = pre ++ post -> process_rules None fuel0 false pre g t = Ok (g1, t1) -> steady (ru_classes g1) Look /\ more_rules (ru_rules g1) Rules) ->
    complete_classes (ru_classes g) -> complete_rules (ru_classes g) (ru_rules g) ->
    exists F, forall fuel obj s, F <= fuel -> level s t -> sound u (ru_classes g) (ru_rules g) obj s -> exists s', process_rules (Some u) fuel false l g s = Ok (g', s') /\ level s' t'.
  Proof.
    intros fuel0. induction l as [|e l IH]; intros g t g' t' H HK C1 C2.
    - injection H as <- <-. exists 0. intros fuel obj s _ L _. exists s. split; [reflexivity|exact L].
    - apply process_cons in H. destruct H as [g1 [t1 [E H]]].
      assert (HK1 : forall pre post g2 t2, l = pre ++ post -> process_rules None fuel0 false pre g1 t1 = Ok (g2, t2) -> steady (ru_classes g2) Look /\ more_rules (ru_rules g2) Rules).
      { intros pre post g2 t2 El K. apply (HK (e :: pre) post g2 t2); [rewrite El; reflexivity|]. apply process_cons. exists g1, t1. split; assumption. }
      destruct (HK [] (e :: l) g t eq_refl eq_refl) as [HL HR]. destruct (HK1 [] l g1 t1 eq_refl eq_refl) as [HL1 HR1].
      pose proof (element_grows _ _ _ _ _ _ _ _ E) as [G1 G2]. destruct (element_complete _ _ _ _ _ _ _ E C1 C2) as [D1 D2].
      pose proof (steady_between _ _ _ HL HL1 G1) as St. pose proof (more_between _ _ _ HR HR1 G2) as Mo.
      destruct (IH _ _ _ _ H HK1 D1 D2) as [F2 H2].
      assert (Step : exists F, forall fuel obj s, F <= fuel -> level s t -> sound u (ru_classes g) (ru_rules g) obj s ->
        exists s1 obj1, element_read (Some u) fuel false e g s g1 s1 /\ level s1 t1 /\ sound u (ru_classes g1) (ru_rules g1) obj1 s1).
      { destruct E as [c T E V|r t1 T E V|a T E|U]; cbn [ru_classes ru_rules] in *.
        - exists 0. intros fuel obj s _ L S. exists s, obj. split; [apply el_class; assumption|]. split; [exact L|]. apply (sound_grows _ _ _ _ _ _ St Mo); [exact (proj1 (proj2 S))|exact S].
        - pose proof T as T'. apply has_tag_iff in T. pose proof (rule_read _ _ _ _ e _ _ _ T E) as Ro.
          assert (Nm : exists n, x_get e "name" = Some n).
          { specialize (V eq_refl). inversion V as [? i nm b ms Top _ _]; subst. pose proof (r_name_of _ _ Ro) as K. cbn [r_name] in K. rewrite <- K. destruct nm; [eauto|]. exfalso. apply (proj1 Top eq_refl). reflexivity. }
          destruct Nm as [n En]. rewrite En in *.
          assert (R : resolves_rule u Look Rules r). { apply (HA n). apply HR1. rewrite (dget_dset _ string_eqb_iff), String.eqb_refl. reflexivity. }
          destruct (proj2 (resolved_within _ _ HL HR C1 C2) r true R (V eq_refl) (rule_of_shaped _ _ Ro)) as [P1 P2].
          destruct (rule_follow u _ _ e _ _ _ _ T E P1 P2) as [F HF]. exists F. intros fuel obj s Hf L S. destruct (HF fuel obj s Hf L S) as [s1 [o1 [K [L1 [B O]]]]]. exists s1, o1.
          split; [|split; [exact L1|]].
          + pose proof (el_rule (Some u) fuel false e g s r s1 T' K V) as W. rewrite En in W. exact W.
          + apply (sound_grows _ _ _ _ _ _ St Mo); [|exact (proj2 (proj2 B))]. intros m x Hm. rewrite (dget_dset _ string_eqb_iff) in Hm. destruct (String.eqb m n); [injection Hm as <-; exact O|exact (proj1 (proj2 (proj2 (proj2 B))) _ _ Hm)].
        - exists 0. intros fuel obj s _ L S. exists s, obj. split; [apply el_action; assumption|]. split; [exact L|exact S].
        - exists 0. intros fuel obj s _ [L1 L2] S. exists (unhandled s), obj. split; [apply el_none; exact U|]. split; [split; [exact L1|unfold unhandled; cbn [rd_results]; rewrite L2; reflexivity]|exact S]. }
      destruct Step as [F1 H1]. exists (max F1 F2). intros fuel obj s Hf L S. destruct (H1 fuel obj s ltac:(lia) L S) as [s1 [o1 [K1 [L1 S1]]]]. destruct (H2 fuel o1 s1 ltac:(lia) L1 S1) as [s2 [K2 L2]].
      exists s2. split; [apply process_cons; eauto|exact L2].
  Qed.
End Whole.
Lemma tags_complete : forall tags, complete_classes (ru_classes (before_rules tags)).
Proof.
  intro tags. unfold before_rules. cbn [ru_classes].
  assert (G : forall t, (forall n c, dget String.eqb n t = Some c -> forall look, exists top, valid_class look top c) -> forall n c, dget String.eqb n (fold_left (fun t p => set_tag_class t (fst p) (snd p)) tags t) = Some c -> forall look, exists top, valid_class look top c).
  { induction tags as [|p l IH]; intros t Ht; [exact Ht|]. cbn [fold_left]. apply IH. intros n c Hc look. unfold set_tag_class in Hc. rewrite (dget_dset _ string_eqb_iff) in Hc.
    destruct (String.eqb n _); [injection Hc as <-; exists true; constructor; [split; [discriminate|reflexivity]|discriminate]|exact (Ht _ _ Hc look)]. }
  intros n c Hc. apply (G []) with (n := n); [discriminate|exact Hc].
Qed.
Theorem rules_follow : forall u fuel0 tags rs l g t, process_rules None fuel0 false l (before_rules tags) (fresh_read rs) = Ok (g, t) ->
  new_names (ru_classes (before_rules tags)) l -> new_rules [] l -> all_resolve u (ru_classes g) (ru_rules g) ->
  exists F, forall fuel, F <= fuel -> exists s, process_rules (Some u) fuel false l (before_rules tags) (fresh_read rs) = Ok (g, s) /\ level s t.
Proof.
  intros u fuel0 tags rs l g t H HN HR HA.
  pose proof (shaped_read _ _ _ _ _ _ _ _ H (tags_shaped tags)) as HT.
  assert (HS : forall n r, dget String.eqb n (ru_rules g) = Some r -> forall c, In c (classes_of_rule r) -> shaped c).
  { intros n r Hr. destruct (section_read _ _ _ _ _ _ _ _ H) as [_ [_ [D _]]]. destruct (D n) as [[e [r' [_ [H1 H2]]]]|[_ K]]; [|rewrite K in Hr; discriminate].
    rewrite H2 in Hr. injection Hr as <-. exact (rule_of_shaped _ _ H1). }
  destruct (section_follow u (ru_classes g) (ru_rules g) HT HS HA fuel0 l (before_rules tags) (fresh_read rs) g t H) as [F HF].
  - intros pre post g1 s1 El Hp. subst l. rewrite process_app, Hp in H. cbn [bind fst snd] in H. split; [exact (names_steady _ _ _ _ _ _ _ _ _ _ _ Hp H HN)|exact (names_rules _ _ _ _ _ _ _ _ _ _ _ Hp H HR)].
  - apply tags_complete.
  - intros n r Hr. discriminate.
  - exists F. intros fuel Hf. apply (HF fuel (fun _ => None) (fresh_read rs) Hf); [split; reflexivity|]. split; [discriminate|]. split; [intros n r Hr; discriminate|]. split; intros id lb p Hk; discriminate.
Qed.
