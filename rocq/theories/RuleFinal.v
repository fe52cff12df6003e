(** Whole evaluations of rules. *)
From Verif Require Import Base BaseFacts ClassModel ClassSpec ClassProofs ClassFinal RuleModel RuleSpec RegexProofs RuleProofs RuleCache.
Open Scope string_scope.
Open Scope list_scope.
Open Scope nat_scope.

Lemma existsb_concat : forall {A} (f : A -> bool) ll, existsb f (List.concat ll) = true <-> exists l, In l ll /\ existsb f l = true.
Proof.
  intros A f. induction ll as [|l ll IH]; cbn [List.concat].
  - split; [discriminate|intros [l [[] _]]].
  - rewrite existsb_app, Bool.orb_true_iff, IH. split.
    + intros [H|[l' [H1 H2]]]; [exists l; split; [left; reflexivity|exact H]|exists l'; split; [right; exact H1|exact H2]].
    + intros [l' [[<-|H1] H2]]; [left; exact H2|right; exists l'; auto].
Qed.
Lemma existsb_alternatives : forall ll, existsb is_anchor (alternatives ll) = true <-> exists l, In l ll /\ existsb is_anchor l = true.
Proof.
  induction ll as [|l ll IH]; [split; [discriminate|intros [l [[] _]]]|]. destruct ll as [|l' ll].
  - cbn [alternatives]. split; [intro H; exists l; split; [left; reflexivity|exact H]|intros [l' [[<-|[]] H]]; exact H].
  - change (alternatives (l :: l' :: ll)) with (l ++ [TClose; TBar; TOpenNC] ++ alternatives (l' :: ll)).
    rewrite !existsb_app, !Bool.orb_true_iff, IH. split.
    + intros [H|[H|[l0 [H1 H2]]]]; [exists l; split; [left; reflexivity|exact H]|discriminate|exists l0; split; [right; exact H1|exact H2]].
    + intros [l0 [[<-|H1] H2]]; [left; exact H2|right; right; exists l0; auto].
Qed.
Lemma count_no_anchor : forall lb k, existsb is_anchor (count_tokens lb k) = false.
Proof. intros lb [[a|a|a b|s]|]; reflexivity. Qed.
Lemma grouped_anchor : forall lb k p, existsb is_anchor (grouped lb k p) = existsb is_anchor p.
Proof.
  intros lb [k|] p; [|reflexivity]. unfold grouped. change (existsb is_anchor (TOpen :: p ++ TClose :: count_tokens lb (Some k))) with (existsb is_anchor (p ++ TClose :: count_tokens lb (Some k))).
  rewrite existsb_app. change (existsb is_anchor (TClose :: count_tokens lb (Some k))) with (existsb is_anchor (count_tokens lb (Some k))). rewrite count_no_anchor. apply Bool.orb_false_r.
Qed.
Lemma grouped_nonempty : forall lb k p, p <> [] -> grouped lb k p <> [].
Proof. intros lb [k|] p H; [discriminate|exact H]. Qed.
Lemma Forall2_In_l : forall {A B} (R : A -> B -> Prop) l l', Forall2 R l l' -> forall x, In x l -> exists y, In y l' /\ R x y.
Proof. induction 1 as [|a b l l' H _ IH]; intros x Hx; [destruct Hx|]. destruct Hx as [<-|Hx]; [exists b; split; [left; reflexivity|exact H]|]. destruct (IH x Hx) as [y [A1 A2]]. exists y. split; [right; exact A1|exact A2]. Qed.
Lemma Forall2_In_r : forall {A B} (R : A -> B -> Prop) l l', Forall2 R l l' -> forall y, In y l' -> exists x, In x l /\ R x y.
Proof. induction 1 as [|a b l l' H _ IH]; intros x Hx; [destruct Hx|]. destruct Hx as [<-|Hx]; [exists a; split; [left; reflexivity|exact H]|]. destruct (IH x Hx) as [y [A1 A2]]. exists y. split; [right; exact A1|exact A2]. Qed.

Section Final.
  Variable u : unidb.
  Variable look : table.
  Variable rules : rtable.
  Notation upat := (upat u look rules).
  Notation upats := (upats u look rules).
  Notation urpat := (urpat u look rules).

  Lemma anchor_in_pattern : forall f,
    (forall lb m p, upat f lb m = Ok p -> (existsb is_anchor p = true <-> anchored rules m)) /\
    (forall lb ms ps, upats f lb ms = Ok ps -> Forall2 (fun m p => existsb is_anchor p = true <-> anchored rules m) ms ps) /\
    (forall lb r p, urpat f lb r = Ok p -> (existsb is_anchor p = true <-> anchored_rule rules r)).
  Proof.
    induction f as [|f IH]; [repeat split; discriminate|]. destruct IH as [IHm [IHl IHr]].
    assert (Hsome : forall ms ps, Forall2 (fun m p => existsb is_anchor p = true <-> anchored rules m) ms ps ->
      ((exists p, In p ps /\ existsb is_anchor p = true) <-> exists m, In m ms /\ anchored rules m)).
    { intros ms ps H. split.
      - intros [p [H1 H2]]. destruct (Forall2_In_r _ _ _ H p H1) as [m [A B]]. exists m. split; [exact A|]. apply B. exact H2.
      - intros [m [H1 H2]]. destruct (Forall2_In_l _ _ _ H m H1) as [p [A B]]. exists p. split; [exact A|]. apply B. exact H2. }
    split; [|split].
    - intros lb m p H. destruct m as [ | | |k|l k|c k|k alts|l|l|r k]; cbn [RuleProofs.upat] in H.
      + injection H as H. subst p. split; [discriminate|intro A; inversion A].
      + injection H as H. subst p. split; [discriminate|intro A; inversion A].
      + injection H as H. subst p. split; [constructor|reflexivity].
      + injection H as H. subst p. change (existsb is_anchor (TDot :: count_tokens lb k)) with (existsb is_anchor (count_tokens lb k)). rewrite count_no_anchor. split; [discriminate|intro A; inversion A].
      + injection H as H. subst p. rewrite grouped_anchor, chars_no_anchor. split; [discriminate|intro A; inversion A].
      + unfold class_pattern in H. destruct (class_set u look f c) as [s|e]; [|discriminate]. cbn [bind] in H. injection H as H. subst p. rewrite grouped_anchor.
        destruct (empty_set u s); (split; [discriminate|intro A; inversion A]).
      + change (bind (upats f lb alts) (fun ps => Ok (TOpenNC :: TOpenNC :: alternatives ps ++ TClose :: TClose :: count_tokens lb k)) = Ok p) in H.
        destruct (upats f lb alts) as [ps|e] eqn:Ep; [|discriminate]. cbn [bind] in H. injection H as H. subst p.
        change (existsb is_anchor (TOpenNC :: TOpenNC :: alternatives ps ++ TClose :: TClose :: count_tokens lb k)) with (existsb is_anchor (alternatives ps ++ TClose :: TClose :: count_tokens lb k)).
        rewrite existsb_app. change (existsb is_anchor (TClose :: TClose :: count_tokens lb k)) with (existsb is_anchor (count_tokens lb k)). rewrite count_no_anchor, Bool.orb_false_r.
        rewrite existsb_alternatives, (Hsome _ _ (IHl lb alts ps Ep)). split; [intros [m [A B]]; exact (A_choice rules k alts m A B)|intro A; inversion A; subst; eauto].
      + change (bind (upats f false l) (fun ps => Ok (TAhead :: List.concat ps ++ [TClose])) = Ok p) in H.
        destruct (upats f false l) as [ps|e] eqn:Ep; [|discriminate]. cbn [bind] in H. injection H as H. subst p.
        change (existsb is_anchor (TAhead :: List.concat ps ++ [TClose])) with (existsb is_anchor (List.concat ps ++ [TClose])). rewrite existsb_app. change (existsb is_anchor [TClose]) with false. rewrite Bool.orb_false_r.
        rewrite existsb_concat, (Hsome _ _ (IHl false l ps Ep)). split; [intros [m [A B]]; exact (A_ahead rules l m A B)|intro A; inversion A; subst; eauto].
      + change (bind (upats f true l) (fun ps => Ok (TBehind :: List.concat ps ++ [TClose])) = Ok p) in H.
        destruct (upats f true l) as [ps|e] eqn:Ep; [|discriminate]. cbn [bind] in H. injection H as H. subst p.
        change (existsb is_anchor (TBehind :: List.concat ps ++ [TClose])) with (existsb is_anchor (List.concat ps ++ [TClose])). rewrite existsb_app. change (existsb is_anchor [TClose]) with false. rewrite Bool.orb_false_r.
        rewrite existsb_concat, (Hsome _ _ (IHl true l ps Ep)). split; [intros [m [A B]]; exact (A_behind rules l m A B)|intro A; inversion A; subst; eauto].
      + change (bind (urpat f lb r) (fun p => Ok (grouped lb k p)) = Ok p) in H.
        destruct (urpat f lb r) as [q|e] eqn:Eq; [|discriminate]. cbn [bind] in H. injection H as H. subst p. rewrite grouped_anchor, (IHr lb r q Eq).
        split; [intro A; constructor; exact A|intro A; inversion A; subst; assumption].
    - intros lb ms ps H. destruct ms as [|m ms]; cbn [RuleProofs.upats] in H.
      + injection H as H. subst ps. constructor.
      + change (match upat f lb m with Raise e => Raise e | Ok p => bind (upats f lb ms) (fun ps => Ok (p :: ps)) end = Ok ps) in H.
        destruct (upat f lb m) as [p|e] eqn:Ep; [|discriminate]. destruct (upats f lb ms) as [q|e] eqn:Eq; [|discriminate]. cbn [bind] in H. injection H as H. subst ps.
        constructor; [exact (IHm lb m p Ep)|exact (IHl lb ms q Eq)].
    - intros lb r p H. rewrite urpat_S in H. destruct r as [id nm [b|] ch]; cbn [r_by_ref r_children] in H.
      + destruct (dget String.eqb b rules) as [r|] eqn:Eb; [|discriminate]. rewrite (IHr lb r p H). split; [intro A; exact (A_by_ref rules id nm b ch r Eb A)|intro A; inversion A; subst; congruence].
      + destruct (upats f lb ch) as [ps|e] eqn:Ep; [|discriminate]. injection H as H. subst p. rewrite existsb_concat, (Hsome _ _ (IHl lb ch ps Ep)).
        split; [intros [m [A B]]; exact (A_children rules id nm ch m A B)|intro A; inversion A; subst; eauto].
  Qed.

  Lemma pattern_nonempty : shaped_table look -> good_rules u look rules -> forall f,
    (forall lb m p, upat f lb m = Ok p -> good_matcher u look m -> p <> []) /\
    (forall lb r p, urpat f lb r = Ok p -> good_rule u look r -> p <> []).
  Proof.
    intros HT HG f. induction f as [f IH] using (well_founded_induction lt_wf). destruct f as [|f]; [split; discriminate|]. split.
    - intros lb m p H Hg. destruct m as [ | | |k|l k|c k|k alts|l|l|r k]; cbn [RuleProofs.upat] in H.
      + injection H as H. subst p. discriminate.
      + injection H as H. subst p. discriminate.
      + injection H as H. subst p. discriminate.
      + injection H as H. subst p. discriminate.
      + injection H as H. subst p. apply grouped_nonempty. cbn [good_matcher] in Hg. destruct Hg as [Hl _]. destruct l; [congruence|discriminate].
      + cbn [good_matcher] in Hg. destruct Hg as [[Hsh Hne] _]. unfold class_pattern in H. destruct (class_set u look f c) as [s|e] eqn:Es; [|discriminate]. cbn [bind] in H. injection H as H. subst p.
        apply grouped_nonempty. pose proof (class_result u look c f s Hsh HT Es) as HD. destruct (Hne _ HD) as [x Hx].
        destruct (empty_set u s) eqn:E; [|discriminate]. rewrite empty_set_iff in E. pose proof (denotes_bounded _ _ _ _ HD x Hx) as Hb. rewrite (E x Hb) in Hx. discriminate.
      + change (bind (upats f lb alts) (fun ps => Ok (TOpenNC :: TOpenNC :: alternatives ps ++ TClose :: TClose :: count_tokens lb k)) = Ok p) in H.
        destruct (upats f lb alts) as [ps|e]; [|discriminate]. injection H as H. subst p. discriminate.
      + change (bind (upats f false l) (fun ps => Ok (TAhead :: List.concat ps ++ [TClose])) = Ok p) in H.
        destruct (upats f false l) as [ps|e]; [|discriminate]. injection H as H. subst p. discriminate.
      + change (bind (upats f true l) (fun ps => Ok (TBehind :: List.concat ps ++ [TClose])) = Ok p) in H.
        destruct (upats f true l) as [ps|e]; [|discriminate]. injection H as H. subst p. discriminate.
      + change (bind (urpat f lb r) (fun p => Ok (grouped lb k p)) = Ok p) in H.
        destruct (urpat f lb r) as [q|e] eqn:Eq; [|discriminate]. injection H as H. subst p. apply grouped_nonempty. exact (proj2 (IH f ltac:(lia)) lb r q Eq (proj1 Hg)).
    - intros lb r p H Hg. rewrite urpat_S in H. destruct r as [id nm [b|] ch]; cbn [r_by_ref r_children] in H.
      + destruct (dget String.eqb b rules) as [r|] eqn:Eb; [|discriminate]. exact (proj2 (IH f ltac:(lia)) lb r p H (HG b r Eb)).
      + cbn [good_rule] in Hg. destruct Hg as [Hne Hg]. destruct ch as [|m ch]; [congruence|]. destruct Hg as [Hg _]. destruct f as [|f]; [discriminate|].
        change (match (match upat f lb m with Raise e => Raise e | Ok p => bind (upats f lb ch) (fun ps => Ok (p :: ps)) end) with Raise e => Raise e | Ok ps => Ok (List.concat ps) end = Ok p) in H.
        destruct (upat f lb m) as [q|e] eqn:Eq; [|discriminate]. destruct (upats f lb ch) as [qs|e]; [|discriminate]. cbn [bind] in H. injection H as H. subst p.
        cbn [List.concat]. pose proof (proj1 (IH f ltac:(lia)) lb m q Eq Hg) as Hq. destruct q; [congruence|discriminate].
  Qed.

  (** Rules whose references resolve have a pattern. *)
  Lemma upats_of : forall lb ms, (forall m, In m ms -> exists f p, upat f lb m = Ok p) -> exists f ps, upats f lb ms = Ok ps.
  Proof.
    intros lb. induction ms as [|m ms IH]; intro H; [exists 1, []; reflexivity|].
    destruct (H m (or_introl eq_refl)) as [f1 [p H1]]. destruct (IH (fun x Hx => H x (or_intror Hx))) as [f2 [ps H2]].
    exists (S (Nat.max f1 f2)), (p :: ps). change (match upat (Nat.max f1 f2) lb m with Raise e => Raise e | Ok p => bind (upats (Nat.max f1 f2) lb ms) (fun ps => Ok (p :: ps)) end = Ok (p :: ps)).
    rewrite (upat_stable u look rules f1 _ lb m _ (Nat.le_max_l f1 f2) H1) by discriminate. rewrite (upats_stable u look rules f2 _ lb ms _ (Nat.le_max_r f1 f2) H2) by discriminate. reflexivity.
  Qed.
  Scheme resolves_mut := Induction for resolves Sort Prop with resolves_rule_mut := Induction for resolves_rule Sort Prop.
  Combined Scheme resolves_both from resolves_mut, resolves_rule_mut.

  Definition shaped_m (m : matcher) : Prop := forall c, In c (classes_of_matcher m) -> shaped c.
  Lemma resolves_pattern : shaped_table look -> good_rules u look rules ->
    (forall m, resolves u look rules m -> good_matcher u look m -> forall lb, exists f p, upat f lb m = Ok p) /\
    (forall r, resolves_rule u look rules r -> good_rule u look r -> forall lb, exists f p, urpat f lb r = Ok p).
  Proof.
    intros HT HG.
    apply (resolves_both u look rules (fun m _ => good_matcher u look m -> forall lb, exists f p, upat f lb m = Ok p) (fun r _ => good_rule u look r -> forall lb, exists f p, urpat f lb r = Ok p)).
    - intros _ lb. exists 1. eexists. reflexivity.
    - intros _ lb. exists 1. eexists. reflexivity.
    - intros _ lb. exists 1. eexists. reflexivity.
    - intros k _ lb. exists 1. eexists. reflexivity.
    - intros l k _ lb. exists 1. eexists. reflexivity.
    - intros c k P HD Hg lb. cbn [good_matcher] in Hg. destruct Hg as [[Hsh _] _]. destruct (proj1 (class_evaluates u look c Hsh HT P) HD) as [n Hn].
      destruct (Hn n (le_n n)) as [s [Hs _]]. exists (S n). cbn [RuleProofs.upat]. unfold class_pattern. rewrite Hs. cbn [bind]. eexists. reflexivity.
    - intros k l _ IH Hg lb. cbn [good_matcher] in Hg. destruct Hg as [_ [_ Hg]]. apply good_list in Hg. rewrite Forall_forall in Hg.
      destruct (upats_of lb l (fun m Hm => IH m Hm (Hg m Hm) lb)) as [f [ps H]]. exists (S f). change (exists p0, bind (upats f lb l) (fun ps => Ok (TOpenNC :: TOpenNC :: alternatives ps ++ TClose :: TClose :: count_tokens lb k)) = Ok p0). rewrite H. cbn [bind]. eexists. reflexivity.
    - intros l _ IH Hg lb. cbn [good_matcher] in Hg. apply good_list in Hg. rewrite Forall_forall in Hg.
      destruct (upats_of false l (fun m Hm => IH m Hm (Hg m Hm) false)) as [f [ps H]]. exists (S f). change (exists p0, bind (upats f false l) (fun ps => Ok (TAhead :: List.concat ps ++ [TClose])) = Ok p0). rewrite H. cbn [bind]. eexists. reflexivity.
    - intros l _ IH Hg lb. cbn [good_matcher] in Hg. apply good_list in Hg. rewrite Forall_forall in Hg.
      destruct (upats_of true l (fun m Hm => IH m Hm (Hg m Hm) true)) as [f [ps H]]. exists (S f). change (exists p0, bind (upats f true l) (fun ps => Ok (TBehind :: List.concat ps ++ [TClose])) = Ok p0). rewrite H. cbn [bind]. eexists. reflexivity.
    - intros r k _ IH Hg lb. destruct (IH (proj1 Hg) lb) as [f [p H]]. exists (S f). change (exists p0, bind (urpat f lb r) (fun p => Ok (grouped lb k p)) = Ok p0). rewrite H. cbn [bind]. eexists. reflexivity.
    - intros id nm ch _ IH Hg lb. cbn [good_rule] in Hg. destruct Hg as [_ Hg]. apply good_list in Hg. rewrite Forall_forall in Hg.
      destruct (upats_of lb ch (fun m Hm => IH m Hm (Hg m Hm) lb)) as [f [ps H]]. exists (S f), (List.concat ps). rewrite urpat_S. cbn [r_by_ref r_children]. rewrite H. reflexivity.
    - intros id nm b ch r Hb _ IH Hg lb. destruct (IH (HG b r Hb) lb) as [f [p H]]. exists (S f), p. rewrite urpat_S. cbn [r_by_ref]. rewrite Hb. exact H.
  Qed.

  Lemma compile_renders : forall w anchor p (P : nat -> nat -> Prop), renders w anchor false P p ->
    exists re, compile (match anchor with Some a => fill (map TChar a) p | None => p end) = Some re /\ forall i j, i <= length w -> (mat w re i j = true <-> P i j).
  Proof.
    intros w anchor p P [l [H1 [_ H3]]]. exists (rcat l). split; [|exact H3]. unfold compile, filling in *. destruct anchor as [a|].
    - rewrite fill_none by (apply filled_no_anchor; apply chars_no_anchor). apply parse_whole. exact H1.
    - apply parse_whole. exact H1.
  Qed.

  Variable obj : nat -> option rule.
  Hypothesis Htab : owned_rules obj rules.

  Lemma used_fresh : forall k, used u look rules obj k -> fresh_value u look rules obj k.
  Proof.
    induction 1 as [|k f r label anchor index Hk IH Ho|k f lb r Hk IH Ho]; [intros id lb p H; discriminate| |].
    2: destruct (rpat u look rules f lb r k) as [k1 x] eqn:E; exact (proj1 (proj2 (proj2 (cached u look rules obj Htab f)) lb r k k1 x E Ho IH)).
    unfold rule_matches. destruct (rpat u look rules f false r k) as [k1 x] eqn:E. pose proof (proj1 (proj2 (proj2 (cached u look rules obj Htab f)) false r k k1 x E Ho IH)) as H.
    destruct x as [[|t p]|e]; try exact H. destruct anchor as [a|]; [|exact H]. destruct (existsb is_anchor (t :: p)); exact H.
  Qed.

  (** The verdict for a pattern. *)
  Definition verdict (r : rule) (x : res (list token)) (label : cps) (anchor : option cps) (index : nat) : res bool :=
    match x with
    | Raise e => Raise e
    | Ok [] => Ok false
    | Ok pattern =>
        let '(pattern, anchor, index) :=
          match anchor with
          | None => (pattern, None, index)
          | Some a => if existsb is_anchor pattern then (fill (map TChar a) pattern, Some a, index) else (pattern, None, 0%nat)
          end in
        match compile pattern with
        | None => Raise (RuleError (match r_name r with Some n => n | None => EmptyString end))
        | Some re => match search label re index with
                     | None => Ok false
                     | Some i => match anchor with Some _ => Ok (negb (Nat.ltb index i)) | None => Ok true end
                     end
        end
    end.
  Lemma rule_matches_verdict : forall f r label anchor index k,
    snd (rule_matches u look rules f r label anchor index k) = verdict r (snd (rpat u look rules f false r k)) label anchor index.
  Proof.
    intros. unfold rule_matches, verdict. destruct (rpat u look rules f false r k) as [k1 x]. cbn [snd]. destruct x as [[|t p]|e]; try reflexivity.
    destruct anchor as [a|]; [|reflexivity]. destruct (existsb is_anchor (t :: p)); reflexivity.
  Qed.
  Lemma verdict_out : forall r x label anchor index, verdict r x label anchor index = Raise OutOfFuel <-> x = Raise OutOfFuel.
  Proof.
    intros r x label anchor index. split; [|intros ->; reflexivity]. destruct x as [p|e]; [|intro H; exact (f_equal (fun y => match y with Raise z => Raise z | Ok _ => Raise OutOfFuel end) H)].
    unfold verdict. intro H. exfalso. destruct p as [|t p]; [discriminate|].
    destruct (match anchor with None => _ | Some a => _ end) as [[q a] i] in H. destruct (compile q); [|discriminate]. destruct (search label r0 i); [destruct a; discriminate|discriminate].
  Qed.

  (** C31: the cache makes no difference while definitions stay. *)
  Theorem cache_transparent : forall k r, used u look rules obj k -> owned obj r -> forall label anchor index x,
    (forall f, snd (rule_matches u look rules f r label anchor index []) = x -> x <> Raise OutOfFuel ->
       exists f0, forall f', f0 <= f' -> snd (rule_matches u look rules f' r label anchor index k) = x) /\
    (forall f, snd (rule_matches u look rules f r label anchor index k) = x -> x <> Raise OutOfFuel ->
       exists f0, forall f', f0 <= f' -> snd (rule_matches u look rules f' r label anchor index []) = x).
  Proof.
    intros k r Hk Ho label anchor index x.
    assert (G : forall k1 k2, fresh_value u look rules obj k1 -> fresh_value u look rules obj k2 -> forall f, snd (rule_matches u look rules f r label anchor index k1) = x -> x <> Raise OutOfFuel ->
       exists f0, forall f', f0 <= f' -> snd (rule_matches u look rules f' r label anchor index k2) = x).
    { intros k1 k2 H1 H2 f H Hx. rewrite rule_matches_verdict in H. destruct (rpat u look rules f false r k1) as [k1' y] eqn:E. cbn [snd] in H.
      destruct (proj2 (proj2 (cached u look rules obj Htab f)) false r k1 k1' y E Ho H1) as [_ [B _]].
      assert (Hy : y <> Raise OutOfFuel) by (intro Ey; apply Hx; rewrite <- H; apply verdict_out; exact Ey).
      destruct (B Hy) as [f0 Hf0]. exists f0. intros f' Hf'. rewrite rule_matches_verdict. destruct (rpat u look rules f' false r k2) as [k2' z] eqn:E2. cbn [snd].
      destruct (proj2 (proj2 (cached u look rules obj Htab f')) false r k2 k2' z E2 Ho H2) as [_ [_ C]].
      rewrite (C y (urpat_stable u look rules f0 f' false r y Hf' Hf0 Hy) Hy). exact H. }
    pose proof (used_fresh [] (used_none u look rules obj)) as H0. pose proof (used_fresh k Hk) as H1.
    split; intros f H Hx; [exact (G [] k H0 H1 f H Hx)|exact (G k [] H1 H0 f H Hx)].
  Qed.

  (** C32 *)
  Lemma verdict_meaning : shaped_table look -> good_rules u look rules -> forall r f p label anchor index, good_rule u look r -> urpat f false r = Ok p ->
    length label <= max_label -> (anchor = None -> ~ In 37%N label) -> index <= length label ->
    exists b, verdict r (Ok p) label anchor index = Ok b /\ (b = true <-> rule_verdict u look rules r label anchor index).
  Proof.
    intros HT HG r f p label anchor index Hg Hp Hlen H37 Hidx.
    pose proof (proj2 (pattern_nonempty HT HG f) false r p Hp Hg) as Hne.
    pose proof (proj2 (proj2 (anchor_in_pattern f)) false r p Hp) as HA.
    pose proof (proj2 (proj2 (pattern_means u look rules label anchor Hlen HT HG H37 f)) false r p Hp Hg) as HR.
    unfold verdict. destruct p as [|t p]; [congruence|]. set (q := t :: p) in *.
    destruct (compile_renders label anchor q _ HR) as [re [Hc Hm]].
    destruct anchor as [a|].
    - destruct (existsb is_anchor q) eqn:Eq.
      + rewrite Hc. pose proof (search_spec label re index) as HS. destruct (search label re index) as [i|].
        * destruct HS as [S1 [[j S2] S3]]. exists (negb (Nat.ltb index i)). split; [reflexivity|]. rewrite Bool.negb_true_iff, Nat.ltb_ge. unfold rule_verdict. split.
          -- intro Hle. assert (i = index) by lia. subst i. left. split; [apply HA; reflexivity|]. exists j. apply Hm; assumption.
          -- intros [[_ [j' Hj]]|[Hn _]]; [|exfalso; apply Hn; apply HA; reflexivity].
             destruct (Nat.le_gt_cases i index) as [Hle|Hgt]; [exact Hle|]. exfalso. apply Hm in Hj; [|exact Hidx]. rewrite (S3 index ltac:(lia) j') in Hj. discriminate.
        * exists false. split; [reflexivity|]. split; [discriminate|]. unfold rule_verdict. intros [[_ [j' Hj]]|[Hn _]].
          -- apply Hm in Hj; [|exact Hidx]. rewrite (HS index ltac:(lia) j') in Hj. discriminate.
          -- exfalso. apply Hn. apply HA. reflexivity.
      + assert (Hna : ~ anchored_rule rules r) by (intro A; apply HA in A; congruence).
        rewrite fill_none in Hc by exact Eq. rewrite Hc. pose proof (search_spec label re 0) as HS. destruct (search label re 0) as [i|].
        * destruct HS as [S1 [[j S2] S3]]. exists true. split; [reflexivity|]. split; [|reflexivity]. intros _. right. split; [exact Hna|]. exists i, j. split; [lia|]. apply Hm; [lia|exact S2].
        * exists false. split; [reflexivity|]. split; [discriminate|]. unfold rule_verdict. intros [[A _]|[_ [i [j [Hi Hj]]]]]; [contradiction|].
          apply Hm in Hj; [|exact Hi]. rewrite (HS i ltac:(lia) j) in Hj. discriminate.
    - rewrite Hc. pose proof (search_spec label re index) as HS. destruct (search label re index) as [i|].
      + destruct HS as [S1 [[j S2] S3]]. exists true. split; [reflexivity|]. split; [|reflexivity]. intros _. exists i, j. split; [lia|]. apply Hm; [lia|exact S2].
      + exists false. split; [reflexivity|]. split; [discriminate|]. unfold rule_verdict. intros [i [j [Hi Hj]]]. apply Hm in Hj; [|lia]. rewrite (HS i ltac:(lia) j) in Hj. discriminate.
  Qed.

  Theorem rule_meaning : forall r k label anchor index, shaped_table look -> good_rules u look rules -> good_rule u look r -> owned obj r -> used u look rules obj k ->
    resolves_rule u look rules r -> length label <= max_label -> (anchor = None -> ~ In 37%N label) -> index <= length label ->
    exists n, forall f, n <= f -> exists b, snd (rule_matches u look rules f r label anchor index k) = Ok b /\ (b = true <-> rule_verdict u look rules r label anchor index).
  Proof.
    intros r k label anchor index HT HG Hg Ho Hk Hr Hlen H37 Hidx. destruct (proj2 (resolves_pattern HT HG) r Hr Hg false) as [n [p Hp]]. exists n. intros f Hf.
    rewrite rule_matches_verdict. destruct (rpat u look rules f false r k) as [k' x] eqn:E. cbn [snd].
    pose proof (urpat_stable u look rules n f false r _ Hf Hp ltac:(discriminate)) as Hp'.
    destruct (proj2 (proj2 (cached u look rules obj Htab f)) false r k k' x E Ho (used_fresh k Hk)) as [_ [_ C]]. rewrite (C _ Hp' ltac:(discriminate)).
    exact (verdict_meaning HT HG r f p label anchor index Hg Hp' Hlen H37 Hidx).
  Qed.
  (** Whatever the depth, an answer is the right one. *)
  Theorem rule_answer : forall r k label anchor index f b, shaped_table look -> good_rules u look rules -> good_rule u look r -> owned obj r -> used u look rules obj k ->
    length label <= max_label -> (anchor = None -> ~ In 37%N label) -> index <= length label ->
    snd (rule_matches u look rules f r label anchor index k) = Ok b -> (b = true <-> rule_verdict u look rules r label anchor index).
  Proof.
    intros r k label anchor index f b HT HG Hg Ho Hk Hlen H37 Hidx H. rewrite rule_matches_verdict in H. destruct (rpat u look rules f false r k) as [k' x] eqn:E. cbn [snd] in H.
    destruct x as [p|e]; [|discriminate].
    destruct (proj2 (proj2 (cached u look rules obj Htab f)) false r k k' (Ok p) E Ho (used_fresh k Hk)) as [_ [B _]]. destruct (B ltac:(discriminate)) as [f' Hf'].
    destruct (verdict_meaning HT HG r f' p label anchor index Hg Hf' Hlen H37 Hidx) as [b' [E1 E2]]. rewrite E1 in H. injection H as H. subst b'. exact E2.
  Qed.

  (** A context rule made of look-behind, anchor, look-ahead. *)
  Theorem context_rule : forall id nm lb la label a index, index <= length label ->
    (rule_verdict u look rules (Rule id nm None [MBehind lb; MAnchor; MAhead la]) label (Some a) index <->
     (exists i, i <= length label /\ seqm u look rules label (Some a) lb i index) /\ occurs label a index /\
     exists j, seqm u look rules label (Some a) la (index + length a) j).
  Proof.
    intros id nm lb la label a index Hidx. unfold rule_verdict.
    assert (HA : anchored_rule rules (Rule id nm None [MBehind lb; MAnchor; MAhead la])) by (apply (A_children rules id nm _ MAnchor); [right; left; reflexivity|constructor]).
    assert (HE : forall j, rsem u look rules label (Some a) (Rule id nm None [MBehind lb; MAnchor; MAhead la]) index j <->
      (exists i, i <= length label /\ seqm u look rules label (Some a) lb i index) /\ occurs label a index /\ j = index + length a /\ exists j', seqm u look rules label (Some a) la (index + length a) j').
    { intro j. split.
      - intro H. inversion H as [id' nm' ch' i' j' Hs|]; subst. apply seq_cons_iff in Hs. destruct Hs as [x [H1 Hs]]. apply seq_cons_iff in Hs. destruct Hs as [y [H2 H3]].
        apply seq_one in H1. cbn [count_of] in H1. apply (proj1 (single _ _ _)) in H1. inversion H1 as [| | | | | | | |l i0 j0 A1 A2|]; subst.
        apply seq_one in H2. cbn [count_of] in H2. apply (proj1 (single _ _ _)) in H2. inversion H2 as [| |a' i0 B1 B2| | | | | | |]; subst. injection B1 as B1. subst a'.
        apply seq_one in H3. cbn [count_of] in H3. apply (proj1 (single _ _ _)) in H3. inversion H3 as [| | | | | | |l i0 j1 C1| |]; subst.
        split; [exists j0; auto|]. split; [exact B2|]. split; [reflexivity|]. exists j1. exact C1.
      - intros [[i [A1 A2]] [B [-> [j' C]]]]. constructor. apply seq_cons_iff. exists index. split; [apply seq_one; apply (proj2 (single _ _ _)); exact (O_behind u look rules label (Some a) lb index i A1 A2)|].
        apply seq_cons_iff. exists (index + length a). split; [apply seq_one; apply (proj2 (single _ _ _)); apply O_anchor; [reflexivity|exact B]|].
        apply seq_one. apply (proj2 (single _ _ _)). exact (O_ahead u look rules label (Some a) la _ j' C). }
    split.
    - intros [[_ [j H]]|[H _]]; [|contradiction]. apply HE in H. destruct H as [H1 [H2 [_ H3]]]. auto.
    - intros [H1 [H2 H3]]. left. split; [exact HA|]. exists (index + length a). apply HE. auto.
  Qed.
End Final.
