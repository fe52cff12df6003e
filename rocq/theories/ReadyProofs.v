(** What is read with a database resolves, and its cached patterns are those of
    the tables read. *)
From Verif Require Import Base BaseFacts ClassModel ClassSpec ClassProofs ClassFinal RuleModel RuleSpec RuleProofs RuleCache RuleFinal RuleTable ActionModel
  Rfc7940Model SerialModel RulesXmlModel RulesXmlSpec RulesXmlClass RulesXmlRule RulesXmlFinal RulesXmlSection RulesXmlDoc RulesXmlTrip ReadySpec.
Open Scope string_scope.
Open Scope list_scope.
Open Scope nat_scope.

(** ** Shapes *)
Lemma class_of_shaped : forall e c, class_of e c -> shaped c.
Proof.
  fix F 3. intros e c H. destruct H as [e l s T B C N S|e b T B N FT P R Ch Tx|e op l T H R]; [exact I|exact I|].
  apply shaped_comb. split; [destruct op; cbn [room max_children] in *; lia|]. clear R. revert H. generalize (x_children e). intros xs H.
  induction H as [|x y xs l H1 H2 IH]; intros c Hc; [destruct Hc|]. destruct Hc as [<-|Hc]; [exact (F _ _ H1)|exact (IH c Hc)].
Qed.
Scheme matcher_of_mut := Minimality for matcher_of Sort Prop with matchers_of_mut := Minimality for matchers_of Sort Prop with rule_of_mut := Minimality for rule_of Sort Prop.
Combined Scheme matcher_of_all from matcher_of_mut, matchers_of_mut, rule_of_mut.
Lemma rule_of_shaped : forall e r, rule_of e r -> forall c, In c (classes_of_rule r) -> shaped c.
Proof.
  apply (matcher_of_all (fun _ m => forall c, In c (classes_of_matcher m) -> shaped c) (fun _ ms => forall c, In c (flat_map classes_of_matcher ms) -> shaped c)
    (fun _ r => forall c, In c (classes_of_rule r) -> shaped c)); cbn [classes_of_matcher classes_of_rule flat_map]; try (intros; contradiction); try (intros; auto; fail).
  - intros e c k H _ c' [<-|[]]. exact (class_of_shaped _ _ H).
  - intros e l m ms _ H1 _ H2 c Hc. apply in_app_or in Hc. destruct Hc as [Hc|Hc]; auto.
Qed.

(** ** A pattern shows that the rule resolves *)
Section Resolve.
  Variable u : unidb.
  Variable look : table.
  Variable rules : rtable.
  Hypothesis HT : shaped_table look.
  Hypothesis HS : forall n r, dget String.eqb n rules = Some r -> forall c, In c (classes_of_rule r) -> shaped c.
  Lemma upat_step : forall f lb m, upat u look rules (S f) lb m =
    match m with
    | MStart => Ok [TStart]
    | MEnd => Ok [TEnd]
    | MAnchor => Ok [TAnchor]
    | MAny n => Ok (TDot :: count_tokens lb n)
    | MChar l n => Ok (grouped lb n (map TChar l))
    | MClass c n => bind (class_pattern u look f c) (fun p => Ok (grouped lb n p))
    | MChoice n alts => bind (upats u look rules f lb alts) (fun ps => Ok (TOpenNC :: TOpenNC :: alternatives ps ++ TClose :: TClose :: count_tokens lb n))
    | MAhead l => bind (upats u look rules f false l) (fun ps => Ok (TAhead :: List.concat ps ++ [TClose]))
    | MBehind l => bind (upats u look rules f true l) (fun ps => Ok (TBehind :: List.concat ps ++ [TClose]))
    | MRule r n => bind (urpat u look rules f lb r) (fun p => Ok (grouped lb n p))
    end.
  Proof. reflexivity. Qed.
  Lemma upats_step : forall f lb l, upats u look rules (S f) lb l =
    match l with [] => Ok [] | m :: l' => match upat u look rules f lb m with Raise e => Raise e | Ok p => bind (upats u look rules f lb l') (fun ps => Ok (p :: ps)) end end.
  Proof. reflexivity. Qed.
  Lemma pattern_resolves : forall f,
    (forall lb m p, upat u look rules f lb m = Ok p -> (forall c, In c (classes_of_matcher m) -> shaped c) -> resolves u look rules m) /\
    (forall lb l p, upats u look rules f lb l = Ok p -> (forall c, In c (flat_map classes_of_matcher l) -> shaped c) -> forall m, In m l -> resolves u look rules m) /\
    (forall lb r p, urpat u look rules f lb r = Ok p -> (forall c, In c (classes_of_rule r) -> shaped c) -> resolves_rule u look rules r).
  Proof.
    induction f as [|f [IH1 [IH2 IH3]]]; [repeat split; intros; discriminate|]. split; [|split].
    - intros lb m p H Hc. rewrite upat_step in H. destruct m as [| | |n|l n|c n|n l|l|l|r n]; cbn [classes_of_matcher] in Hc; try (constructor; fail).
      + unfold class_pattern in H. destruct (class_set u look f c) as [s|] eqn:E; cbn [bind] in H; [|discriminate].
        eapply V_class. eapply class_result; [apply Hc; left; reflexivity|exact HT|exact E].
      + destruct (upats u look rules f lb l) as [ps|] eqn:E; cbn [bind] in H; [|discriminate]. apply V_choice. exact (IH2 _ _ _ E Hc).
      + destruct (upats u look rules f false l) as [ps|] eqn:E; cbn [bind] in H; [|discriminate]. apply V_ahead. exact (IH2 _ _ _ E Hc).
      + destruct (upats u look rules f true l) as [ps|] eqn:E; cbn [bind] in H; [|discriminate]. apply V_behind. exact (IH2 _ _ _ E Hc).
      + destruct (urpat u look rules f lb r) as [ps|] eqn:E; cbn [bind] in H; [|discriminate]. apply V_rule. exact (IH3 _ _ _ E Hc).
    - intros lb l p H Hc. rewrite upats_step in H. destruct l as [|m l]; [intros m []|]. destruct (upat u look rules f lb m) as [q|] eqn:E; [|discriminate].
      destruct (upats u look rules f lb l) as [ps|] eqn:E2; cbn [bind] in H; [|discriminate]. cbn [flat_map] in Hc. intros m' [<-|Hm].
      + apply (IH1 _ _ _ E). intros c K. apply Hc. apply in_or_app. left. exact K.
      + apply (IH2 _ _ _ E2); [|exact Hm]. intros c K. apply Hc. apply in_or_app. right. exact K.
    - intros lb r p H Hc. rewrite urpat_S in H. destruct r as [id nm [b|] ch]; cbn [r_by_ref r_children classes_of_rule] in *.
      + destruct (dget String.eqb b rules) as [r'|] eqn:E; [|discriminate]. eapply V_by_ref; [exact E|]. apply (IH3 _ _ _ H). exact (HS _ _ E).
      + destruct (upats u look rules f lb ch) as [ps|] eqn:E; [|discriminate]. apply V_children. exact (IH2 _ _ _ E Hc).
  Qed.
End Resolve.

(** ** Patterns under larger tables *)
Definition more_rules (rules rules' : rtable) : Prop := forall n r, dget String.eqb n rules = Some r -> dget String.eqb n rules' = Some r.
Lemma pattern_grow : forall u look look' rules rules', steady look look' -> more_rules rules rules' -> forall fuel,
  (forall lb m k k' p, mpat u look rules fuel lb m k = (k', Ok p) -> mpat u look' rules' fuel lb m k = (k', Ok p)) /\
  (forall lb l k k' p, mpats u look rules fuel lb l k = (k', Ok p) -> mpats u look' rules' fuel lb l k = (k', Ok p)) /\
  (forall lb r k k' p, rpat u look rules fuel lb r k = (k', Ok p) -> rpat u look' rules' fuel lb r k = (k', Ok p)).
Proof.
  intros u look look' rules rules' S M. induction fuel as [|f [IH1 [IH2 IH3]]]; [repeat split; intros; discriminate|]. split; [|split].
  - intros lb m k k' p H. destruct m as [| | |n|l n|c n|n l|l|l|r n]; rewrite mpat_step in H |- *; try exact H.
    + unfold class_pattern in *. destruct (class_set u look f c) as [s|] eqn:E; cbn [bind] in H; [|discriminate]. rewrite (proj1 (class_set_steady u _ _ S f) _ _ E). exact H.
    + destruct (mpats u look rules f lb l k) as [k1 [ps|]] eqn:E; cbn [bind] in H; [|discriminate]. rewrite (IH2 _ _ _ _ _ E). exact H.
    + destruct (mpats u look rules f false l k) as [k1 [ps|]] eqn:E; cbn [bind] in H; [|discriminate]. rewrite (IH2 _ _ _ _ _ E). exact H.
    + destruct (mpats u look rules f true l k) as [k1 [ps|]] eqn:E; cbn [bind] in H; [|discriminate]. rewrite (IH2 _ _ _ _ _ E). exact H.
    + destruct (rpat u look rules f lb r k) as [k1 [ps|]] eqn:E; cbn [bind] in H; [|discriminate]. rewrite (IH3 _ _ _ _ _ E). exact H.
  - intros lb l k k' p H. rewrite mpats_step in H |- *. destruct l as [|m l]; [exact H|]. destruct (mpat u look rules f lb m k) as [k1 [q|]] eqn:E; [|discriminate].
    rewrite (IH1 _ _ _ _ _ E). destruct (mpats u look rules f lb l k1) as [k2 [ps|]] eqn:E2; cbn [bind] in H; [|discriminate]. rewrite (IH2 _ _ _ _ _ E2). exact H.
  - intros lb r k k' p H. rewrite rpat_step in H |- *. destruct (dget key_eqb (r_id r, lb) k); [exact H|]. destruct (r_by_ref r) as [b|].
    + destruct (dget String.eqb b rules) as [r'|] eqn:Eb; [|discriminate]. rewrite (M _ _ Eb). apply IH3. exact H.
    + destruct (mpats u look rules f lb (r_children r) k) as [k1 [ps|]] eqn:E; [|discriminate]. rewrite (IH2 _ _ _ _ _ E). exact H.
Qed.

(** ** Identities of the rules read *)
Definition larger (obj obj' : nat -> option rule) : Prop := forall i r, obj i = Some r -> obj' i = Some r.
Lemma owned_larger : forall obj obj', larger obj obj' ->
  (forall m, owned_matcher obj m -> owned_matcher obj' m) /\ (forall r, owned obj r -> owned obj' r).
Proof.
  intros obj obj' L.
  assert (A : forall l, Forall (fun m => owned_matcher obj m -> owned_matcher obj' m) l -> Forall (owned_matcher obj) l -> Forall (owned_matcher obj') l).
  { induction 1 as [|m l Hm _ IH]; intro K; [constructor|]. inversion K; subst. constructor; auto. }
  set (P := fun m => owned_matcher obj m -> owned_matcher obj' m). set (Q := fun r => owned obj r -> owned obj' r).
  assert (H1 : P MStart) by (intro; exact I). assert (H2 : P MEnd) by (intro; exact I). assert (H3 : P MAnchor) by (intro; exact I).
  assert (H4 : forall k, P (MAny k)) by (intros k K; exact I). assert (H5 : forall l k, P (MChar l k)) by (intros l k K; exact I). assert (H6 : forall c k, P (MClass c k)) by (intros c k K; exact I).
  assert (H7 : forall k l, Forall P l -> P (MChoice k l)) by (intros k l IH K; cbn [owned_matcher] in *; apply owned_list; apply owned_list in K; exact (A l IH K)).
  assert (H8 : forall l, Forall P l -> P (MAhead l)) by (intros l IH K; cbn [owned_matcher] in *; apply owned_list; apply owned_list in K; exact (A l IH K)).
  assert (H9 : forall l, Forall P l -> P (MBehind l)) by (intros l IH K; cbn [owned_matcher] in *; apply owned_list; apply owned_list in K; exact (A l IH K)).
  assert (H10 : forall r k, Q r -> P (MRule r k)) by (intros r k IH K; exact (IH K)).
  assert (H11 : forall id nm b ch, Forall P ch -> Q (Rule id nm b ch)).
  { intros id nm b ch IH K. cbn [owned] in *. destruct K as [K1 K2]. split; [exact (L _ _ K1)|]. apply owned_list. apply owned_list in K2. exact (A ch IH K2). }
  split; [exact (matcher_induct P Q H1 H2 H3 H4 H5 H6 H7 H8 H9 H10 H11)|exact (rule_induct P Q H1 H2 H3 H4 H5 H6 H7 H8 H9 H10 H11)].
Qed.
Section Objects.
  Variable u : unidb.
  Variable Look : table.
  Variable Rules : rtable.
  Notation used := (used u Look Rules).
  Lemma used_larger : forall obj obj', larger obj obj' -> forall k, used obj k -> used obj' k.
  Proof.
    intros obj obj' L k H. induction H as [|k f r label anchor index Hk IH Ho|k f lb r Hk IH Ho]; [apply used_none|apply used_more|apply used_ahead]; try assumption; apply (owned_larger _ _ L); exact Ho.
  Qed.
  (** A pattern of the rule was computed. *)
  Definition patterned (obj : nat -> option rule) (r : rule) : Prop :=
    exists f k k' p, used obj k /\ rpat u Look Rules f false r k = (k', Ok p).
  Lemma patterned_larger : forall obj obj', larger obj obj' -> forall r, patterned obj r -> patterned obj' r.
  Proof. intros obj obj' L r [f [k [k' [p [H1 H2]]]]]. exists f, k, k', p. split; [exact (used_larger _ _ L _ H1)|exact H2]. Qed.

  Definition fits (obj : nat -> option rule) (s : rread) : Prop := (forall i r, obj i = Some r -> i < rd_next s) /\ used obj (rd_cache s).
  Definition beyond (obj obj' : nat -> option rule) (s s' : rread) : Prop :=
    (forall i, i < rd_next s -> obj' i = obj i) /\ rd_next s <= rd_next s' /\ fits obj' s'.
  Lemma beyond_larger : forall obj obj' s s', fits obj s -> beyond obj obj' s s' -> larger obj obj'.
  Proof. intros obj obj' s s' [F _] [B _] i r H. rewrite B; [exact H|]. exact (F _ _ H). Qed.
  Lemma beyond_refl : forall obj s, fits obj s -> beyond obj obj s s.
  Proof. intros obj s F. split; [reflexivity|]. split; [lia|exact F]. Qed.
  Lemma beyond_trans : forall a b c s t v, beyond a b s t -> beyond b c t v -> beyond a c s v.
  Proof. intros a b c s t v [A1 [A2 A3]] [B1 [B2 B3]]. split; [|split; [lia|exact B3]]. intros i Hi. rewrite B1 by lia. apply A1. exact Hi. Qed.

  Variable look : table.
  Variable rules : rtable.
  Variable fuel : nat.
  Hypothesis HL : steady look Look.
  Hypothesis HR : more_rules rules Rules.
  Notation parse_helper := (parse_helper (Some u) look rules fuel).
  Notation parse_items := (parse_items (Some u) look rules fuel).
  Definition holds (obj : nat -> option rule) (o : option matcher) : Prop :=
    match o with Some m => owned_matcher obj m | None => True end.
  Definition numbers_well (e : xelem) : Prop := forall s s' o obj, parse_helper e s = Ok (s', o) -> fits obj s ->
    exists obj', beyond obj obj' s s' /\ holds obj' o.
  Lemma items_number : forall l, Forall numbers_well l -> forall refuse s s' ms obj, parse_items refuse l s = Ok (s', ms) -> fits obj s ->
    exists obj', beyond obj obj' s s' /\ Forall (owned_matcher obj') ms.
  Proof.
    intros l H. induction H as [|e l He Hl IH]; intros refuse s s' ms obj K F; cbn [RulesXmlRule.parse_items] in K.
    - injection K as <- <-. exists obj. split; [apply beyond_refl; exact F|constructor].
    - destruct (parse_helper e s) as [[s1 [m|]]|] eqn:E; cbn [bind fst snd] in K; [| |discriminate].
      + destruct refuse; [discriminate|]. destruct (parse_items false l s1) as [[s2 ms2]|] eqn:E2; cbn [bind fst snd] in K; [|discriminate]. injection K as <- <-.
        destruct (He _ _ _ _ E F) as [o1 [B1 H1]]. destruct (IH _ _ _ _ _ E2 (proj2 (proj2 B1))) as [o2 [B2 H2]]. exists o2. split; [exact (beyond_trans _ _ _ _ _ _ B1 B2)|].
        constructor; [|exact H2]. apply (owned_larger o1); [exact (beyond_larger _ _ _ _ (proj2 (proj2 B1)) B2)|exact H1].
      + destruct (He _ _ _ _ E F) as [o1 [B1 H1]]. destruct (IH _ _ _ _ _ K (proj2 (proj2 B1))) as [o2 [B2 H2]]. exists o2. split; [exact (beyond_trans _ _ _ _ _ _ B1 B2)|exact H2].
  Qed.
  Lemma body_number : forall e, Forall numbers_well (x_children e) -> forall s s' r obj, parse_rule_body (Some u) look rules fuel e s = Ok (s', r) -> fits obj s ->
    exists obj', beyond obj obj' s s' /\ owned obj' r /\ patterned obj' r.
  Proof.
    intros e IH s s' r obj H F. unfold parse_rule_body in H. destruct (new_rule (rd_next s) (x_get e "name") (x_get e "by-ref")) as [r0|] eqn:E0; cbn [bind] in H; [|discriminate].
    assert (Hid : r_id r0 = rd_next s) by (destruct (x_get e "name"), (x_get e "by-ref"); cbn [new_rule] in E0; [discriminate|..]; injection E0 as <-; reflexivity). clear E0.
    destruct (parse_items _ (x_children e) _) as [[s1 ms]|] eqn:E1; cbn [bind fst snd] in H; [|discriminate].
    rewrite Hid in H. set (r1 := Rule (rd_next s) (r_name r0) (r_by_ref r0) ms) in *.
    assert (F0 : fits obj (mkRead (S (rd_next s)) (rd_cache s) (rd_results s))).
    { destruct F as [F1 F2]. split; [|exact F2]. intros i x Hi. cbn [rd_next]. pose proof (F1 _ _ Hi). lia. }
    destruct (items_number _ IH _ _ _ _ _ E1 F0) as [o1 [B1 H1]]. pose proof B1 as [B2 [B3 [B4 B5]]]. cbn [rd_next] in B2, B3.
    set (o2 := fun i => if Nat.eqb i (rd_next s) then Some r1 else o1 i).
    assert (N : o1 (rd_next s) = None).
    { rewrite B2 by lia. destruct (obj (rd_next s)) as [x|] eqn:Ex; [|reflexivity]. apply (proj1 F) in Ex. lia. }
    assert (L : larger o1 o2) by (intros i x Hi; unfold o2; destruct (Nat.eqb_spec i (rd_next s)) as [->|]; [congruence|exact Hi]).
    assert (O : owned o2 r1).
    { unfold r1. cbn [owned]. split; [unfold o2; rewrite Nat.eqb_refl; reflexivity|]. apply owned_list. eapply Forall_impl; [|exact H1]. exact (proj1 (owned_larger _ _ L)). }
    unfold precalculate in H. destruct (rpat u look rules fuel true r1 (rd_cache s1)) as [k1 [p1|]] eqn:R1; cbn [bind] in H; [|discriminate].
    destruct (rpat u look rules fuel false r1 k1) as [k2 [p2|]] eqn:R2; cbn [bind] in H; [|discriminate]. injection H as <- <-.
    pose proof (proj2 (proj2 (pattern_grow u _ _ _ _ HL HR fuel)) _ _ _ _ _ R1) as G1. pose proof (proj2 (proj2 (pattern_grow u _ _ _ _ HL HR fuel)) _ _ _ _ _ R2) as G2.
    assert (U1 : used o2 k1). { replace k1 with (fst (rpat u Look Rules fuel true r1 (rd_cache s1))) by (rewrite G1; reflexivity). apply used_ahead; [|exact O]. exact (used_larger _ _ L _ B5). }
    assert (U2 : used o2 k2). { replace k2 with (fst (rpat u Look Rules fuel false r1 k1)) by (rewrite G2; reflexivity). apply used_ahead; [exact U1|exact O]. }
    exists o2. split; [|split; [exact O|]].
    - split; [|split; [cbn [rd_next]; lia|split; [|exact U2]]].
      + intros i Hi. unfold o2. destruct (Nat.eqb_spec i (rd_next s)); [lia|]. apply B2. lia.
      + intros i x Hx. cbn [rd_next]. unfold o2 in Hx. destruct (Nat.eqb_spec i (rd_next s)); [lia|]. exact (B4 _ _ Hx).
    - exists fuel, k1, k2, p2. split; [exact U1|exact G2].
  Qed.
  Lemma helper_number : forall e, numbers_well e.
  Proof.
    intro e. induction e as [sp n a t ch IH] using xelem_induct. set (e := XElem sp n a t ch). change ch with (x_children e) in IH. clearbody e.
    intros s s' o obj H F. rewrite parse_helper_eq in H. cbv zeta in H.
    assert (Simple : forall m, Ok (s, Some m) = Ok (s', o) -> owned_matcher obj m -> exists obj', beyond obj obj' s s' /\ holds obj' o).
    { intros m K Hm. injection K as <- <-. exists obj. split; [apply beyond_refl; exact F|exact Hm]. }
    assert (Group : forall (mk : list matcher -> matcher), (forall l obj', Forall (owned_matcher obj') l -> owned_matcher obj' (mk l)) ->
       bind (parse_items false (x_children e) s) (fun p => Ok (fst p, Some (mk (snd p)))) = Ok (s', o) -> exists obj', beyond obj obj' s s' /\ holds obj' o).
    { intros mk Hmk K. destruct (parse_items false (x_children e) s) as [[s1 l]|] eqn:E; cbn [bind fst snd] in K; [|discriminate]. injection K as <- <-.
      destruct (items_number _ IH _ _ _ _ _ E F) as [o1 [B1 H1]]. exists o1. split; [exact B1|]. apply Hmk. exact H1. }
    destruct (has_tag "anchor" e); [exact (Simple _ H I)|]. destruct (has_tag "any" e); [exact (Simple _ H I)|].
    destruct (has_tag "char" e). { destruct (elem_cps e) as [l|]; cbn [bind] in H; [|discriminate]. exact (Simple _ H I). }
    destruct (has_tag "choice" e); [apply (Group (fun l => MChoice _ l)) in H; [exact H|]; intros l obj' K; cbn [owned_matcher]; apply owned_list; exact K|].
    destruct (has_tag "end" e); [exact (Simple _ H I)|].
    destruct (has_tag "look-ahead" e); [apply (Group (fun l => MAhead l)) in H; [exact H|]; intros l obj' K; cbn [owned_matcher]; apply owned_list; exact K|].
    destruct (has_tag "look-behind" e); [apply (Group (fun l => MBehind l)) in H; [exact H|]; intros l obj' K; cbn [owned_matcher]; apply owned_list; exact K|].
    destruct (has_tag "start" e); [exact (Simple _ H I)|].
    destruct (has_tag "rule" e).
    { destruct (parse_rule_body (Some u) look rules fuel e s) as [[s1 r]|] eqn:E; cbn [bind fst snd] in H; [|discriminate]. injection H as <- <-.
      destruct (body_number e IH _ _ _ _ E F) as [o1 [B1 [H1 _]]]. exists o1. split; [exact B1|exact H1]. }
    destruct (class_tag e). { destruct (parse_class e) as [c|]; cbn [bind] in H; [|discriminate]. exact (Simple _ H I). }
    injection H as <- <-. exists obj. split; [|exact I]. split; [reflexivity|]. split; [cbn; lia|exact F].
  Qed.
  Lemma rule_number : forall e s s' r obj, lgr_elem "rule" e -> parse_rule (Some u) look rules fuel e s = Ok (s', r) -> fits obj s ->
    exists obj', beyond obj obj' s s' /\ owned obj' r /\ patterned obj' r.
  Proof.
    intros e s s' r obj T H F. rewrite (parse_rule_eq _ _ _ _ _ _ T) in H. eapply body_number; [|exact H|exact F]. apply Forall_forall. intros x _. apply helper_number.
  Qed.
End Objects.
