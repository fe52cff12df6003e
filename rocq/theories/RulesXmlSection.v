(** Validation, actions, and whole sections. *)
From Coq Require Import Ascii.
From Verif Require Import Base BaseFacts UtilsModel UtilsProofs TableSpec TableParts ClassModel ClassSpec ClassProofs ClassFinal RuleModel RuleSpec RuleTable ActionModel
  Rfc7940Model RefProofs SerialModel SerialProofs RulesXmlModel RulesXmlSpec RulesXmlClass RulesXmlRule RulesXmlFinal.
Open Scope string_scope.
Open Scope list_scope.

(** ** Validation *)
Lemma valid_class_more : forall look look', (forall n, dget String.eqb n look <> None -> dget String.eqb n look' <> None) ->
  forall c top, valid_class look top c -> valid_class look' top c.
Proof.
  intros look look' HM. fix F 1. intros c top H. destruct c as [n b t p l|n op l].
  - inversion H as [? ? ? ? ? ? N R|]; subst. constructor; [exact N|]. intros x Hx. apply HM. exact (R x Hx).
  - inversion H as [|? ? ? ? N C R]; subst. constructor; [exact N|exact C|]. clear H N C. induction l as [|c l IH]; intros d Hd; [destruct Hd|].
    destruct Hd as [<-|Hd]; [apply F; apply R; left; reflexivity|]. apply IH; [|exact Hd]. intros x Hx. apply R. right. exact Hx.
Qed.
Lemma valid_rule_more : forall look look' rules rules', (forall n, dget String.eqb n look <> None -> dget String.eqb n look' <> None) ->
  (forall n, dget String.eqb n rules <> None -> dget String.eqb n rules' <> None) ->
  forall r top, valid_rule look rules top r -> valid_rule look' rules' top r.
Proof.
  intros look look' rules rules' HM HM'.
  set (P := fun m => valid_matcher look rules m -> valid_matcher look' rules' m).
  set (Q := fun r => forall top, valid_rule look rules top r -> valid_rule look' rules' top r).
  assert (HL : forall l, Forall P l -> (forall m, In m l -> valid_matcher look rules m) -> forall m, In m l -> valid_matcher look' rules' m).
  { intros l H K m Hm. rewrite Forall_forall in H. apply (H m Hm). apply K. exact Hm. }
  assert (H1 : P MStart) by (intros _; constructor; exact I).
  assert (H2 : P MEnd) by (intros _; constructor; exact I).
  assert (H3 : P MAnchor) by (intros _; constructor; exact I).
  assert (H4 : forall k, P (MAny k)) by (intros k _; constructor; exact I).
  assert (H5 : forall l k, P (MChar l k)) by (intros l k _; constructor; exact I).
  assert (H6 : forall c k, P (MClass c k)).
  { intros c k K. inversion K as [m F| | | | |]; subst; [destruct F|]. apply ok_class. eapply valid_class_more; eassumption. }
  assert (H7 : forall k l, Forall P l -> P (MChoice k l)).
  { intros k l HF K. inversion K as [m F| | | | |]; subst; [destruct F|]. apply ok_choice. apply (HL l HF). assumption. }
  assert (H8 : forall l, Forall P l -> P (MAhead l)).
  { intros l HF K. inversion K as [m F| | | | |]; subst; [destruct F|]. apply ok_ahead. apply (HL l HF). assumption. }
  assert (H9 : forall l, Forall P l -> P (MBehind l)).
  { intros l HF K. inversion K as [m F| | | | |]; subst; [destruct F|]. apply ok_behind. apply (HL l HF). assumption. }
  assert (H10 : forall r k, Q r -> P (MRule r k)).
  { intros r k HQ K. inversion K as [m F| | | | |]; subst; [destruct F|]. apply ok_mrule. apply HQ. assumption. }
  assert (H11 : forall id nm b ch, Forall P ch -> Q (Rule id nm b ch)).
  { intros id nm b ch HF top K. inversion K as [? ? ? ? ? N R C]; subst. constructor; [assumption|intros x Hx; apply HM'; exact (R x Hx)|]. apply (HL ch HF). assumption. }
  exact (rule_induct P Q H1 H2 H3 H4 H5 H6 H7 H8 H9 H10 H11).
Qed.
Lemma valid_class_same : forall look c c' top, same_class c c' -> valid_class look top c -> valid_class look top c'.
Proof.
  intros look. fix F 1. intros c c' top S H. destruct c as [n b t p l|n op l].
  - inversion S; subst. inversion H; subst. constructor; assumption.
  - inversion S as [|? ? ? l' SS]; subst. inversion H as [|? ? ? ? N C R]; subst. 
    assert (L : length l' = length l) by (clear - SS; induction SS; cbn [length]; congruence).
    constructor; [exact N|rewrite L; exact C|]. clear S H N C L. revert l' SS. induction l as [|c l IH]; intros l' SS d Hd; inversion SS as [|? c' ? l2 S1 S2]; subst; [destruct Hd|].
    destruct Hd as [<-|Hd]; [apply (F c c' false S1); apply R; left; reflexivity|]. apply (IH (fun x Hx => R x (or_intror Hx)) l2 S2 d Hd).
Qed.
Lemma valid_rule_same : forall look rules r top r', same_rule r r' -> valid_rule look rules top r -> valid_rule look rules top r'.
Proof.
  intros look rules.
  set (P := fun m => forall m', same_matcher m m' -> valid_matcher look rules m -> valid_matcher look rules m').
  set (Q := fun r => forall top r', same_rule r r' -> valid_rule look rules top r -> valid_rule look rules top r').
  assert (HL : forall l, Forall P l -> forall l', Forall2 same_matcher l l' -> (forall m, In m l -> valid_matcher look rules m) -> forall m, In m l' -> valid_matcher look rules m).
  { intros l H. induction H as [|x l Hx Hl IH]; intros l' S K m Hm; inversion S as [|? x' ? l2 S1 S2]; subst; [destruct Hm|].
    destruct Hm as [<-|Hm]; [apply (Hx x' S1); apply K; left; reflexivity|]. apply (IH l2 S2); [|exact Hm]. intros y Hy. apply K. right. exact Hy. }
  assert (H1 : P MStart) by (intros m' S _; inversion S; subst; constructor; exact I).
  assert (H2 : P MEnd) by (intros m' S _; inversion S; subst; constructor; exact I).
  assert (H3 : P MAnchor) by (intros m' S _; inversion S; subst; constructor; exact I).
  assert (H4 : forall k, P (MAny k)) by (intros k m' S _; inversion S; subst; constructor; exact I).
  assert (H5 : forall l k, P (MChar l k)) by (intros l k m' S _; inversion S; subst; constructor; exact I).
  assert (H6 : forall c k, P (MClass c k)).
  { intros c k m' S K. inversion S as [m F| | | | |]; subst; [destruct F|]. inversion K as [m F| | | | |]; subst; [destruct F|]. apply ok_class. eapply valid_class_same; eassumption. }
  assert (H7 : forall k l, Forall P l -> P (MChoice k l)).
  { intros k l HF m' S K. inversion S as [m F| | | | |]; subst; [destruct F|]. inversion K as [m F| | | | |]; subst; [destruct F|]. apply ok_choice. eapply HL; eassumption. }
  assert (H8 : forall l, Forall P l -> P (MAhead l)).
  { intros l HF m' S K. inversion S as [m F| | | | |]; subst; [destruct F|]. inversion K as [m F| | | | |]; subst; [destruct F|]. apply ok_ahead. eapply HL; eassumption. }
  assert (H9 : forall l, Forall P l -> P (MBehind l)).
  { intros l HF m' S K. inversion S as [m F| | | | |]; subst; [destruct F|]. inversion K as [m F| | | | |]; subst; [destruct F|]. apply ok_behind. eapply HL; eassumption. }
  assert (H10 : forall r k, Q r -> P (MRule r k)).
  { intros r k HQ m' S K. inversion S as [m F| | | | |]; subst; [destruct F|]. inversion K as [m F| | | | |]; subst; [destruct F|]. apply ok_mrule. eapply HQ; eassumption. }
  assert (H11 : forall id nm b ch, Forall P ch -> Q (Rule id nm b ch)).
  { intros id nm b ch HF top r' S K. inversion S; subst. inversion K; subst. constructor; [assumption|assumption|]. eapply HL; eassumption. }
  exact (rule_induct P Q H1 H2 H3 H4 H5 H6 H7 H8 H9 H10 H11).
Qed.

(** ** Actions *)
Lemma txt_bytes : forall s, Forall (fun c => (c < 256)%N) (txt s).
Proof. induction s as [|c s IH]; cbn [txt]; constructor; [apply N_ascii_bounded|exact IH]. Qed.
Lemma join_bytes : forall l (P : N -> Prop), Forall P (join [32%N] l) -> Forall (Forall P) l.
Proof.
  induction l as [|w l IH]; intros P H; [constructor|]. destruct l as [|v l].
  - cbn [join] in H. constructor; [exact H|constructor].
  - change (join [32%N] (w :: v :: l)) with (w ++ [32%N] ++ join [32%N] (v :: l)) in H. apply Forall_app in H. destruct H as [H1 H2]. apply Forall_app in H2. destruct H2 as [_ H2].
    constructor; [exact H1|]. apply IH. exact H2.
Qed.
Lemma attr_words_iff : forall o l, attr_words o = l <-> words_of o l.
Proof.
  intros [s|] l; cbn [attr_words words_of]; [|split; congruence]. destruct (string_dec s "") as [->|N].
  - cbn. split; [intros <-; left; auto|]. intros [[_ ->]|[K _]]; [reflexivity|congruence].
  - assert (E : string_to_list (txt s) = split_on 32 (txt s)) by (destruct s; [congruence|reflexivity]). rewrite E. split.
    + intros <-. right. split; [exact N|]. destruct (split_on 32 (txt s)) as [|w ws] eqn:Es; [apply split_on_is in Es; destruct Es as [Es _]; contradiction|].
      apply split_on_is in Es. destruct Es as [_ [Ej Ef]]. pose proof (txt_bytes s) as B. rewrite Ej in B. apply join_bytes in B.
      assert (R : map txt (map untxt (w :: ws)) = w :: ws).
      { rewrite map_map. transitivity (map (fun x => x) (w :: ws)); [|apply map_id]. apply map_ext_in. intros x Hx. apply txt_untxt. rewrite Forall_forall in B. exact (B x Hx). }
      split; [discriminate|]. split; [rewrite R; exact Ej|]. rewrite Forall_forall in *. intros x Hx. apply Ef. rewrite <- R. apply in_map. exact Hx.
    + intros [[K _]|[_ [Hne [Hj Hf]]]]; [congruence|].
      assert (Es : split_on 32 (txt s) = map txt l).
      { apply split_on_is. split; [destruct l; [congruence|discriminate]|]. split; [exact Hj|]. rewrite Forall_forall in *. intros x Hx. apply in_map_iff in Hx. destruct Hx as [y [<- Hy]]. exact (Hf y Hy). }
      rewrite Es, map_map. transitivity (map (fun x => x) l); [|apply map_id]. apply map_ext. exact untxt_txt.
Qed.
Lemma listed_iff : forall l, listed (nonempty (Some l)) l.
Proof. intros [|x l]; cbn; [reflexivity|split; [reflexivity|discriminate]]. Qed.
Lemma listed_fun : forall o l, listed o l -> o = nonempty (Some l).
Proof. intros [l'|] l; cbn; [intros [-> N]; destruct l'; [congruence|reflexivity]|intros ->; reflexivity]. Qed.
Theorem action_reading : forall e a, parse_action e = Ok a <-> action_of e a.
Proof.
  intros e a. unfold parse_action, new_action, action_of.
  assert (W : forall k, words_of (x_get e k) (attr_words (x_get e k))) by (intro k; apply attr_words_iff; reflexivity).
  split.
  - intro H. assert (D : x_get e "match" = None \/ x_get e "not-match" = None) by (destruct (x_get e "match"); [destruct (x_get e "not-match"); [discriminate|auto]|auto]).
    split; [exact D|]. assert (H' : Ok (mkAction (match x_get e "disp" with Some d => d | None => "" end) (x_get e "match") (x_get e "not-match")
      (nonempty (Some (attr_words (x_get e "any-variant")))) (nonempty (Some (attr_words (x_get e "all-variants")))) (nonempty (Some (attr_words (x_get e "only-variants"))))) = Ok a).
    { rewrite <- H. destruct D as [D|D]; rewrite D; [reflexivity|]. destruct (x_get e "match"); reflexivity. }
    injection H' as <-. cbn [a_disp a_match a_not_match a_any a_all a_only].
    repeat split; (eexists; split; [apply W|apply listed_iff]).
  - intros [D [H1 [H2 [H3 [[l1 [W1 L1]] [[l2 [W2 L2]] [l3 [W3 L3]]]]]]]]. apply attr_words_iff in W1, W2, W3. apply listed_fun in L1, L2, L3.
    rewrite W1, W2, W3. destruct a as [d m nm an al on]. cbn [a_disp a_match a_not_match a_any a_all a_only] in *. subst.
    destruct D as [D|D]; rewrite D; [reflexivity|]. destruct (x_get e "match"); reflexivity.
Qed.
