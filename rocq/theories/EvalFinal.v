(** Evaluation with rules: what it gives, what it may raise, witnesses. *)
From Verif Require Import Base BaseFacts CharModel RepSpec RepProofs RangeProofs ActionModel ActionSpec LgrModel LabelModel LabelSpec LabelProofs LabelElig LabelFinal ClassModel ClassSpec RuleModel RuleSpec RuleProofs RuleCache RuleFinal RuleTable EvalModel EvalSpec EvalProofs EvalErrors.
From Coq Require Import Lia.
Open Scope string_scope.
Open Scope list_scope.
Open Scope nat_scope.

Section Final.
  Variable u : ClassModel.unidb.
  Variable look : table.
  Variable rules : rtable.
  Variable obj : nat -> option rule.
  Hypothesis HT : shaped_table look.
  Hypothesis HG : good_rules u look rules.
  Hypothesis Htab : owned_rules obj rules.
  Hypothesis HR : all_resolve u look rules.

  Lemma deep_enough : exists F, forall n x, dget String.eqb n rules = Some x -> exists p, urpat u look rules F false x = Ok p.
  Proof.
    assert (G : forall names : list string, exists F, forall n x, In n names -> dget String.eqb n rules = Some x -> exists p, urpat u look rules F false x = Ok p).
    { induction names as [|a names [F IH]]; [exists 0; intros n x []|]. destruct (dget String.eqb a rules) as [y|] eqn:Ey.
      - destruct (proj2 (resolves_pattern u look rules HT HG) y (HR a y Ey) (HG a y Ey) false) as [f [p Hp]]. exists (Nat.max F f). intros n x [<-|Hn] Hx.
        + assert (x = y) by congruence. subst x. exists p. apply (urpat_stable u look rules f _ false y _ (Nat.le_max_r F f) Hp). discriminate.
        + destruct (IH n x Hn Hx) as [q Hq]. exists q. apply (urpat_stable u look rules F _ false x _ (Nat.le_max_l F f) Hq). discriminate.
      - exists F. intros n x [<-|Hn] Hx; [congruence|exact (IH n x Hn Hx)]. }
    destruct (G (dkeys rules)) as [F HF]. exists F. intros n x Hx. apply (HF n x); [|exact Hx]. apply (dget_Some_key _ string_eqb_iff) with (v := x). exact Hx.
  Qed.

  Definition oracle (F : nat) : rule_oracle := fun n label ctx =>
    match dget String.eqb n rules with
    | Some x => match verdict x (urpat u look rules F false x) label (option_map fst ctx) (match ctx with Some (_, i) => i | None => 0 end) with Ok b => b | Raise _ => false end
    | None => false
    end.
  (** Compilation does not depend on the label. *)
  Lemma verdict_answers : forall x F p label anchor index, good_rule u look x -> urpat u look rules F false x = Ok p -> exists b, verdict x (Ok p) label anchor index = Ok b.
  Proof.
    intros x F p label anchor index Hg Hp. destruct (verdict_meaning u look rules HT HG x F p [] anchor 0 Hg Hp ltac:(cbn; unfold max_label; lia) ltac:(intros _ []) (Nat.le_0_l _)) as [b [Hb _]].
    unfold verdict in *. destruct p as [|t p]; [exists false; reflexivity|].
    destruct anchor as [a|].
    - destruct (existsb is_anchor (t :: p)).
      + destruct (compile (fill (map TChar a) (t :: p))) as [re|]; [|discriminate]. destruct (search label re index); eexists; reflexivity.
      + destruct (compile (t :: p)) as [re|]; [|discriminate]. destruct (search label re 0); eexists; reflexivity.
    - destruct (compile (t :: p)) as [re|]; [|discriminate]. destruct (search label re index); eexists; reflexivity.
  Qed.

  Lemma ask_oracle : forall F, (forall n x, dget String.eqb n rules = Some x -> exists p, urpat u look rules F false x = Ok p) -> forall f, F <= f ->
    forall n x label ctx, dget String.eqb n rules = Some x -> computes (used u look rules obj) (ask u look rules f n label ctx) (Ok (oracle F n label ctx)).
  Proof.
    intros F HF f Hf n x label ctx Hx k0 Hk0. unfold ask, oracle. rewrite Hx. destruct (HF n x Hx) as [p Hp]. rewrite Hp.
    set (i := match ctx with Some (_, i) => i | None => 0 end). set (a := option_map fst ctx).
    destruct (verdict_answers x F p label a i (HG n x Hx) Hp) as [b Hb]. rewrite Hb.
    pose proof (used_more u look rules obj k0 f x label a i Hk0 (Htab n x Hx)) as Hu.
    pose proof (rule_matches_verdict u look rules f x label a i k0) as Hv.
    destruct (rpat u look rules f false x k0) as [k1 y] eqn:Ey. cbn [snd] in Hv.
    destruct (proj2 (proj2 (cached u look rules obj Htab f)) false x k0 k1 y Ey (Htab n x Hx) (used_fresh u look rules obj Htab k0 Hk0)) as [_ [_ C]].
    rewrite (C _ (urpat_stable u look rules F f false x _ Hf Hp ltac:(discriminate)) ltac:(discriminate)), Hb in Hv.
    destruct (rule_matches u look rules f x label a i k0) as [k2 z]. cbn [fst snd] in *. subst z. exists k2. split; [reflexivity|exact Hu].
  Qed.
  Theorem evaluation : exists rm, truthful u look rules rm /\ exists F, forall f, F <= f ->
    forall r acts script, all_defined r acts rules -> forall k, used u look rules obj k ->
    (forall label v, snd (eligible_e u look rules f r acts label v k) = test_label_eligible rm r acts label v) /\
    (forall label inv hide gc wl, snd (compute_e u look rules f r acts script label inv hide gc wl k) = compute_label_disposition rm r acts script true label inv hide gc wl) /\
    (forall n t label, snd (index_e u look rules f r n t label k) = index_label rm r n t label) /\
    (forall label hide, snd (estimate_e u look rules f r script label hide k) = match estimate_variant_number rm r script label hide with Some n => Ok n | None => Raise OutOfFuel end).
  Proof.
    destruct deep_enough as [F HF]. exists (oracle F). split; [split|].
    - intros n x label a i Hx Hlen Hi. unfold oracle. rewrite Hx. destruct (HF n x Hx) as [p Hp]. rewrite Hp. cbn [option_map fst].
      destruct (verdict_meaning u look rules HT HG x F p label (Some a) i (HG n x Hx) Hp Hlen ltac:(discriminate) Hi) as [b [E1 E2]]. rewrite E1. exact E2.
    - intros n x label Hx Hlen H37. unfold oracle. rewrite Hx. destruct (HF n x Hx) as [p Hp]. rewrite Hp. cbn [option_map].
      destruct (verdict_meaning u look rules HT HG x F p label None 0 (HG n x Hx) Hp Hlen ltac:(intros _; exact H37) (Nat.le_0_l _)) as [b [E1 E2]]. rewrite E1. exact E2.
    - exists F. intros f Hf r acts script HD k Hk.
      assert (Hask : forall n label ctx, mentioned r acts n -> computes (used u look rules obj) (ask u look rules f n label ctx) (Ok (oracle F n label ctx))).
      { intros n label ctx Hn. destruct (HD n Hn) as [_ [x Hx]]. exact (ask_oracle F HF f Hf n x label ctx Hx). }
      assert (Hname : ~ mentioned r acts "") by (intro H; destruct (HD "" H) as [H1 _]; congruence).
      split; [|split; [|split]].
      + intros label v. destruct (c_eligible u look rules f r acts script _ _ Hask Hname label v k Hk) as [k' [E _]]. rewrite E. reflexivity.
      + intros label inv hide gc wl. destruct (c_compute u look rules f r acts script _ _ Hask Hname label inv hide gc wl k Hk) as [k' [E _]]. rewrite E. reflexivity.
      + intros n t label. destruct (c_index u look rules f r acts script _ _ Hask Hname n t label k Hk) as [k' [E _]]. rewrite E. reflexivity.
      + intros label hide. destruct (c_estimate u look rules f r acts script _ _ Hask Hname label hide k Hk) as [k' [E _]]. rewrite E. reflexivity.
  Qed.

  (** The conditions of an oracle are those of RFC 7940. *)
  Section Truthful.
    Variable rm : rule_oracle.
    Hypothesis Hrm : truthful u look rules rm.
    Variable r : repertoire.
    Variable acts : list action.
    Hypothesis HD : all_defined r acts rules.
    Hypothesis Hwf : wf_rep r.
    Variable label : cps.
    Hypothesis Hlen : length label <= max_label.
    Hypothesis H37 : ~ In 37%N label.

    Lemma iff_false : forall (b : bool) (P : Prop), (b = true <-> P) -> (b = false <-> ~ P).
    Proof. intros [] P H; split; intro K; [discriminate|exfalso; apply K, H; reflexivity|intro HP; apply H in HP; discriminate|reflexivity]. Qed.
    Lemma context_met : forall w nw c i, (forall n, consulted w nw = Some n -> mentioned r acts n) -> i <= length label ->
      (context_holds rm w nw c label i <-> condition_met u look rules w nw label (Some c) i).
    Proof.
      intros w nw c i Hn Hi. unfold context_holds, condition_met. destruct w as [w|]; [|destruct nw as [n|]; [|tauto]].
      - destruct (HD w (Hn w eq_refl)) as [_ [x Hx]]. rewrite (proj1 Hrm w x label c i Hx Hlen Hi). split; [intro H; exists x; auto|intros [y [H1 H2]]; congruence].
      - destruct (HD n (Hn n eq_refl)) as [_ [x Hx]]. rewrite (iff_false _ _ (proj1 Hrm n x label c i Hx Hlen Hi)). split; [intro H; exists x; auto|intros [y [H1 H2]]; congruence].
    Qed.
    Lemma occurs_le : forall i c, occurs_at label i c -> i <= length label.
    Proof. intros i c [pre [post [-> <-]]]. rewrite app_length. lia. Qed.
    Lemma entry_mentioned : forall ch, entry r ch -> exists x l, dget N.eqb x (rep_chars r) = Some l /\ In ch l.
    Proof.
      intros ch He. apply entry_lk in He. unfold lk in He. destruct (ch_cp ch) as [|x t]; [discriminate|]. apply find_some in He. destruct He as [He _].
      unfold bucket in He. destruct (dget N.eqb x (rep_chars r)) as [l|] eqn:E; [|contradiction]. exists x, l. auto.
    Qed.
    Lemma stands_iff : forall i ch, applies rm r label i ch <-> stands u look rules r label i ch.
    Proof.
      intros i ch. unfold applies, stands. split; intros [H1 [H2 H3]]; split; auto; split; auto; destruct (entry_mentioned ch H1) as [x [l [K1 K2]]].
      - apply context_met in H3; [exact H3| |exact (occurs_le i _ H2)]. intros n Hn. exact (M_char r acts x l ch n K1 K2 Hn).
      - apply context_met; [|exact (occurs_le i _ H2)|exact H3]. intros n Hn. exact (M_char r acts x l ch n K1 K2 Hn).
    Qed.
    Lemma self_iff : forall i ch v, entry r ch -> i <= length label -> (self_mapping rm label i ch v <-> maps_itself u look rules label i ch v).
    Proof.
      intros i ch v He Hi. unfold self_mapping, maps_itself. destruct (entry_mentioned ch He) as [x [l [K1 K2]]].
      assert (HH : In v (get_variants ch) -> forall n, consulted (v_when v) (v_not_when v) = Some n -> mentioned r acts n).
      { intros Hv n Hn. destruct (owns_variant ch v Hv) as [c [vs [V1 V2]]]. exact (M_variant r acts x l ch c vs v n K1 K2 V1 V2 Hn). }
      split; intros [H1 [H2 H3]]; (split; [exact H1|]); (split; [exact H2|]); apply (context_met _ _ _ i (HH H1) Hi); exact H3.
    Qed.
    Lemma cut_makes : forall i l, cut rm r label i l <-> makes_up u look rules r label i l.
    Proof.
      intros i l. split.
      - induction 1 as [|i ch l Ha Hc IH]; [constructor|]. apply stands_iff in Ha. destruct Ha as [A1 [A2 A3]]. constructor; assumption.
      - induction 1 as [|i ch l A1 A2 A3 Hc IH]; [constructor|]. constructor; [|exact IH]. apply stands_iff. split; [exact A1|]. split; assumption.
    Qed.
    Lemma reflexive_iff : forall t, self_type rm r label t <-> reflexive_type u look rules r label t.
    Proof.
      intro t. split; intros [i [ch [v [H1 [H2 H3]]]]]; exists i, ch, v.
      - pose proof H1 as [He [Ho _]]. apply stands_iff in H1. apply self_iff in H2; [auto|exact He|exact (occurs_le i _ Ho)].
      - pose proof H1 as [He [Ho _]]. apply stands_iff in H1. apply self_iff in H2; [auto|exact He|exact (occurs_le i _ Ho)].
    Qed.
    Lemma all_reflexive_iff : all_self_mapped rm r label <-> all_reflexive u look rules r label.
    Proof.
      split; intros H i ch Ha; pose proof Ha as [He [Ho _]]; pose proof (occurs_le i _ Ho) as Hi; apply stands_iff in Ha; destruct (H i ch Ha) as [v Hv]; exists v; apply self_iff; assumption.
    Qed.
    Lemma action_iff : forall a ds only, In a (acts ++ default_actions) -> (triggers rm a label ds only <-> action_met u look rules a label ds only).
    Proof.
      intros a ds only Ha. unfold triggers, action_met.
      assert (Hm : forall n, consulted (a_match a) (a_not_match a) = Some n -> mentioned r acts n).
      { intros n Hn. apply in_app_iff in Ha. destruct Ha as [Ha|Ha]; [exact (M_action r acts a n Ha Hn)|]. exfalso. repeat (destruct Ha as [<-|Ha]; [discriminate|]). contradiction. }
      assert (rule_condition rm a label <-> condition_met u look rules (a_match a) (a_not_match a) label None 0); [|tauto].
      unfold rule_condition, condition_met. destruct (a_match a) as [w|]; [|destruct (a_not_match a) as [n|]; [|tauto]].
      - destruct (HD w (Hm w eq_refl)) as [_ [x Hx]]. rewrite (proj2 Hrm w x label Hx Hlen H37). split; [intro H; exists x; auto|intros [y [H1 H2]]; congruence].
      - destruct (HD n (Hm n eq_refl)) as [_ [x Hx]]. rewrite (iff_false _ _ (proj2 Hrm n x label Hx Hlen H37)). split; [intro H; exists x; auto|intros [y [H1 H2]]; congruence].
    Qed.
    Lemma decided_iff : forall ds only a i, decided_by rm acts label ds only a i <-> first_met u look rules acts label ds only a i.
    Proof.
      intros ds only a i. unfold decided_by, first_met. split; intros [H1 [H2 H3]]; (split; [exact H1|]); (split; [apply (action_iff a ds only (nth_error_In _ _ H1)); exact H2|]);
        intros j b Hj Hb Ht; apply (action_iff b ds only (nth_error_In _ _ Hb)) in Ht; exact (H3 j b Hj Hb Ht).
    Qed.
  End Truthful.

  Theorem eligible_rfc : exists F, forall f, F <= f -> forall r acts, reachable r -> all_defined r acts rules -> forall k, used u look rules obj k ->
    forall label v, label <> [] -> length label <= max_label -> ~ In 37%N label ->
    exists e, snd (eligible_e u look rules f r acts label v k) = Ok e /\
      (el_invalid e <> [] -> el_ok e = false /\ el_disp e = Some "invalid") /\
      (el_invalid e = [] -> makes_up u look rules r label 0 (el_chars e) /\
         exists ds only a i, (forall t, In t ds <-> v = false /\ reflexive_type u look rules r label t) /\
           (only = true <-> ds <> [] /\ all_reflexive u look rules r label) /\
           first_met u look rules acts label ds only a i /\ el_disp e = Some (a_disp a) /\ el_idx e = Z.of_nat i /\ (el_ok e = true <-> a_disp a <> "invalid")).
  Proof.
    destruct evaluation as [rm [Hrm [F HF]]]. exists F. intros f Hf r acts Hr HD k Hk label v Hne Hlen H37.
    destruct (HF f Hf r acts (fun _ => "") HD k Hk) as [He _]. rewrite He. pose proof (reachable_wf r Hr) as Hwf.
    destruct (test_label_eligible_spec rm r acts label v Hr Hne) as [e [chars [inv [E1 [E2 [E3 [E4 E5]]]]]]]. exists e. split; [exact E1|]. rewrite E4. destruct E5 as [[A1 [A2 [A3 [A4 A5]]]]|[A1 A2]].
    - split; [auto|]. intro H. congruence.
    - split; [congruence|]. intros _. destruct A2 as [ds [only [a [i [B1 [B2 [B3 [B4 [B5 [B6 B7]]]]]]]]]]. split.
      + rewrite E3. apply (cut_makes rm Hrm r acts HD label Hlen H37).
        assert (G : forall j l iv, longest_match rm r label j l iv -> iv = [] -> cut rm r label j l) by (induction 1; intro Ei; try discriminate; constructor; auto).
        exact (G 0 chars inv E2 A1).
      + exists ds, only, a, i. rewrite <- (decided_iff rm Hrm r acts HD label Hlen H37 ds only a i). rewrite <- (all_reflexive_iff rm Hrm r acts HD label Hlen H37).
        split; [intro t; rewrite B1, (reflexive_iff rm Hrm r acts HD label Hlen H37 t); reflexivity|]. auto 10.
  Qed.

End Final.

(** With an action that names a missing rule ahead of the others, no label of the
    repertoire can be evaluated. *)
Theorem missing_action : forall u look rules f r acts a n k label v chars, reachable r -> (forall m, ~ mentioned r [] m) ->
  consulted (a_match a) (a_not_match a) = Some n -> dget String.eqb n rules = None ->
  label <> [] -> longest_match (fun _ _ _ => true) r label 0 chars [] ->
  eligible_e u look rules f r (a :: acts) label v k = (k, Raise (KeyErrorStr n)).
Proof.
  intros u look rules f r acts a n k label v chars Hr Hno Hn Hx Hne Hc. set (rm := fun _ _ _ => true) in *.
  assert (Hask : forall m w ctx, mentioned r [] m -> computes (fun k' => k' = k) (ask u look rules f m w ctx) (Ok (rm m w ctx))) by (intros m w ctx Hm; destruct (Hno m Hm)).
  assert (Hp : exists p, preliminary rm r label = Some p /\ pr_ok p = true).
  { destruct (prelim_loop_spec rm r label (reachable_wf r Hr) (length label) 0 label eq_refl (Nat.le_0_l _) (le_n _)) as [p [P1 [P2 [P3 P4]]]]. exists p. split; [exact P1|].
    destruct (longest_match_unique_reach rm r label 0 _ _ _ _ P2 Hc) as [_ E]. apply P4. destruct (pr_invalid p); [reflexivity|discriminate]. }
  destruct Hp as [p [P1 P2]].
  unfold eligible_e. destruct label as [|x label]; [congruence|]. set (w := x :: label) in *. unfold ebind at 1.
  destruct (c_preliminary u look rules f r [] (fun _ => "") _ rm Hask (Hno "") w k eq_refl) as [k1 [E1 ->]]. rewrite E1, P1. cbn [lift]. rewrite P2. cbn [negb]. unfold ebind at 1. unfold disposition_e, ebind at 1.
  destruct (c_refl u look rules f r [] (fun _ => "") _ rm Hask w w 0 (negb v) k eq_refl) as [k2 [E2 ->]]. rewrite E2. unfold actions_e. cbn [effective_actions app actions_from_e].
  unfold apply_e, ebind. unfold consulted in Hn. destruct (a_match a) as [m|]; [injection Hn as Hn; subst m; unfold ask; rewrite Hx; reflexivity|]. rewrite Hn. unfold ask_not, ebind, ask. rewrite Hx. reflexivity.
Qed.

(** Packaged errors. *)
Theorem errors : forall u look rules obj, owned_rules obj rules -> forall f r acts script k, reachable r -> used u look rules obj k ->
  (forall label v e, snd (eligible_e u look rules f r acts label v k) = Raise e -> rule_trouble u look rules obj r acts e \/ (label = [] /\ e = LGRApiInvalidParameter "label")) /\
  (forall label inv hide gc wl e, snd (snd (compute_e u look rules f r acts script label inv hide gc wl k)) = Raise e ->
     rule_trouble u look rules obj r acts e \/ ((label = [] \/ 63 < length label) /\ e = LGRApiInvalidParameter "label")) /\
  (forall n t label e, snd (index_e u look rules f r n t label k) = Raise e ->
     rule_trouble u look rules obj r acts e \/ (exists c, In c label /\ e = NotInLGR [c]) \/ e = ValueError) /\
  (forall label hide e, snd (estimate_e u look rules f r script label hide k) = Raise e -> rule_trouble u look rules obj r acts e).
Proof.
  intros u look rules obj Htab f r acts script k Hr Hk. pose proof (reachable_wf r Hr) as Hwf. split; [|split; [|split]].
  - intros label v e H. destruct label as [|x label]; [injection H as <-; auto|]. left.
    pose proof (proj2 (s_eligible u look rules obj Htab f r Hwf acts script (x :: label) v ltac:(discriminate) k Hk)) as S. rewrite H in S. exact S.
  - intros label inv hide gc wl e H. destruct (Nat.le_gt_cases (length label) 63) as [Hl|Hl].
    + destruct label as [|x label]; [right; split; [left; reflexivity|]; injection H as <-; reflexivity|]. left.
      pose proof (s_compute u look rules obj Htab f r Hwf acts script (x :: label) inv hide gc wl k Hk ltac:(discriminate) Hl) as S.
      destruct (compute_e u look rules f r acts script (x :: label) inv hide gc wl k) as [k' [ys o]]. cbn [snd] in H. exact (proj2 S e H).
    + right. unfold compute_e in H. replace (Nat.ltb 63 (length label)) with true in H by (symmetry; apply Nat.ltb_lt; exact Hl). injection H as <-. auto.
  - intros n t label e H. pose proof (proj2 (s_index u look rules obj Htab f r Hwf acts script n t label k Hk)) as S. rewrite H in S. exact S.
  - intros label hide e H. pose proof (proj2 (s_estimate u look rules obj Htab f r Hwf acts script label hide k Hk)) as S. rewrite H in S. exact S.
Qed.
(** Evaluations, failed ones too, leave caches that later evaluations can use. *)
Theorem caches_stay : forall u look rules obj, owned_rules obj rules -> forall f r acts script k, reachable r -> used u look rules obj k ->
  (forall label v, used u look rules obj (fst (eligible_e u look rules f r acts label v k))) /\
  (forall label inv hide gc wl, used u look rules obj (fst (compute_e u look rules f r acts script label inv hide gc wl k))) /\
  (forall n t label, used u look rules obj (fst (index_e u look rules f r n t label k))) /\
  (forall label hide, used u look rules obj (fst (estimate_e u look rules f r script label hide k))).
Proof.
  intros u look rules obj Htab f r acts script k Hr Hk. pose proof (reachable_wf r Hr) as Hwf. split; [|split; [|split]].
  - intros [|x label] v; [exact Hk|]. exact (proj1 (s_eligible u look rules obj Htab f r Hwf acts script (x :: label) v ltac:(discriminate) k Hk)).
  - intros label inv hide gc wl. destruct (Nat.le_gt_cases (length label) 63) as [Hl|Hl].
    + destruct label as [|x label]; [exact Hk|].
      pose proof (s_compute u look rules obj Htab f r Hwf acts script (x :: label) inv hide gc wl k Hk ltac:(discriminate) Hl) as S.
      destruct (compute_e u look rules f r acts script (x :: label) inv hide gc wl k) as [k' [ys o]]. exact (proj1 S).
    + unfold compute_e. replace (Nat.ltb 63 (length label)) with true by (symmetry; apply Nat.ltb_lt; exact Hl). exact Hk.
  - intros n t label. exact (proj1 (s_index u look rules obj Htab f r Hwf acts script n t label k Hk)).
  - intros label hide. exact (proj1 (s_estimate u look rules obj Htab f r Hwf acts script label hide k Hk)).
Qed.

(** ** Summary *)
Definition counted_in (d : option string) (l : list (option string)) : nat := length (filter (ostring_eqb d) l).
Lemma ostring_refl : forall d, ostring_eqb d d = true.
Proof. intro d. apply ostring_eqb_eq. reflexivity. Qed.
Lemma counter_get : forall l m d, dget ostring_eqb d (counter l m) = match dget ostring_eqb d m, counted_in d l with None, O => None | Some n, c => Some (n + c) | None, c => Some c end.
Proof.
  induction l as [|x l IH]; intros m d; cbn [counter].
  - unfold counted_in. cbn [filter length]. destruct (dget ostring_eqb d m); [f_equal; lia|reflexivity].
  - rewrite IH. rewrite (dget_dset _ ostring_eqb_eq). unfold counted_in. cbn [filter]. destruct (ostring_eqb d x) eqn:E; cbn [length].
    + apply ostring_eqb_eq in E. subst x. destruct (dget ostring_eqb d m); f_equal; lia.
    + reflexivity.
Qed.
Lemma counter_NoDup : forall l m, NoDup (dkeys m) -> NoDup (dkeys (counter l m)).
Proof. induction l as [|x l IH]; intros m H; [exact H|]. apply IH. apply (dset_NoDup _ ostring_eqb_eq). exact H. Qed.
Lemma counter_keys : forall l d n, In (d, n) (counter l []) <-> 0 < n /\ n = counted_in d l.
Proof.
  intros l d n. pose proof (counter_get l [] d) as H. cbn [dget] in H. split.
  - intro Hin. apply (In_dget _ ostring_eqb_eq) in Hin; [|apply counter_NoDup; constructor]. rewrite Hin in H. destruct (counted_in d l); [discriminate|]. injection H as H. lia.
  - intros [H1 ->]. apply (dget_In _ ostring_eqb_eq). rewrite H. destruct (counted_in d l); [lia|reflexivity].
Qed.
Theorem summary : forall u look rules f r acts script label inv hide k,
  match snd (compute_e u look rules f r acts script label inv hide false [] k) with
  | (ys, Ok _) => exists d, snd (summary_e u look rules f r acts script label inv hide k) = Ok (d, ys) /\ NoDup (map fst d) /\
      forall disp n, In (disp, n) d <-> 0 < n /\ n = length (filter (ostring_eqb disp) (map ls_disp ys))
  | (_, Raise e) => snd (summary_e u look rules f r acts script label inv hide k) = Raise e
  end.
Proof.
  intros. unfold summary_e. destruct (compute_e u look rules f r acts script label inv hide false [] k) as [k' [ys [[]|e]]]; cbn [snd]; [|reflexivity].
  exists (counter (map ls_disp ys) []). split; [reflexivity|]. split; [apply (counter_NoDup _ []); constructor|]. intros disp n. apply counter_keys.
Qed.
