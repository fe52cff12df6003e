(** What an evaluation can raise. *)
From Verif Require Import Base BaseFacts CharModel RepProofs ActionModel LgrModel LabelModel ClassModel ClassSpec RuleModel RuleSpec RuleProofs RuleCache RuleFinal EvalModel EvalSpec EvalProofs.
From Coq Require Import Lia.
Open Scope string_scope.
Open Scope list_scope.
Open Scope nat_scope.

Section Safe.
  Variable I : cache -> Prop.
  Variable E : exn -> Prop.
  Definition safe {A} (Q : A -> Prop) (m : ev A) : Prop :=
    forall k, I k -> I (fst (m k)) /\ match snd (m k) with Ok a => Q a | Raise e => E e end.
  Lemma s_ret : forall A (Q : A -> Prop) a, Q a -> safe Q (ret a).
  Proof. intros A Q a H k Hk. split; assumption. Qed.
  Lemma s_fail : forall A (Q : A -> Prop) e, E e -> safe Q (fail e).
  Proof. intros A Q a H k Hk. split; assumption. Qed.
  Lemma s_bind : forall A B (P : A -> Prop) (Q : B -> Prop) m f, safe P m -> (forall a, P a -> safe Q (f a)) -> safe Q (ebind m f).
  Proof.
    intros A B P Q m f H1 H2 k Hk. destruct (H1 k Hk) as [I1 P1]. unfold ebind. destruct (m k) as [k1 [a|e]]; cbn [fst snd] in *; [exact (H2 a P1 k1 I1)|]. split; assumption.
  Qed.
  Lemma s_weak : forall A (P Q : A -> Prop) m, safe P m -> (forall a, P a -> Q a) -> safe Q m.
  Proof. intros A P Q m H HQ k Hk. destruct (H k Hk) as [H1 H2]. split; [exact H1|]. destruct (snd (m k)); auto. Qed.
  Lemma s_filter : forall A (p : A -> ev bool) l, (forall x, In x l -> safe (fun _ => True) (p x)) -> safe (fun ys => forall y, In y ys -> In y l) (filter_e p l).
  Proof.
    intros A p. induction l as [|x l IH]; intro H; [apply s_ret; auto|]. cbn [filter_e].
    eapply s_bind; [exact (H x (or_introl eq_refl))|]. intros b _. eapply s_bind; [exact (IH (fun y Hy => H y (or_intror Hy)))|]. intros ys Hys. apply s_ret.
    intros y Hy. destruct b; [destruct Hy as [<-|Hy]; [left; reflexivity|]|]; right; auto.
  Qed.
  Lemma s_map : forall A B (Q : B -> Prop) (f : A -> ev B) l, (forall x, In x l -> safe Q (f x)) -> safe (Forall Q) (map_e f l).
  Proof.
    intros A B Q f. induction l as [|x l IH]; intro H; [apply s_ret; constructor|]. cbn [map_e].
    eapply s_bind; [exact (H x (or_introl eq_refl))|]. intros b Hb. eapply s_bind; [exact (IH (fun y Hy => H y (or_intror Hy)))|]. intros ys Hys. apply s_ret. constructor; assumption.
  Qed.
  Lemma s_flat : forall A B (Q : B -> Prop) (f : A -> ev (list B)) l, (forall x, In x l -> safe (Forall Q) (f x)) -> safe (Forall Q) (flat_map_e f l).
  Proof.
    intros A B Q f. induction l as [|x l IH]; intro H; [apply s_ret; constructor|]. cbn [flat_map_e].
    eapply s_bind; [exact (H x (or_introl eq_refl))|]. intros b Hb. eapply s_bind; [exact (IH (fun y Hy => H y (or_intror Hy)))|]. intros ys Hys. apply s_ret. apply Forall_app. split; assumption.
  Qed.
End Safe.
Lemma s_errors : forall I (E E' : exn -> Prop) A (Q : A -> Prop) m, (forall e, E e -> E' e) -> safe I E Q m -> safe I E' Q m.
Proof. intros I E E' A Q m HE H k Hk. destruct (H k Hk) as [H1 H2]. split; [exact H1|]. destruct (snd (m k)); auto. Qed.

Section Errors.
  Variable u : ClassModel.unidb.
  Variable look : table.
  Variable rules : rtable.
  Variable obj : nat -> option rule.
  Hypothesis Htab : owned_rules obj rules.
  Variable fuel : nat.
  Variable r : repertoire.
  Hypothesis Hwf : wf_rep r.
  Variable acts : list action.
  Variable script : N -> string.
  Let I := used u look rules obj.
  Let E := rule_trouble u look rules obj r acts.
  Notation any := (fun _ => True).

  Lemma s_ask : forall n label ctx, mentioned r acts n -> safe I E any (ask u look rules fuel n label ctx).
  Proof.
    intros n label ctx H k Hk. unfold ask. destruct (dget String.eqb n rules) as [x|] eqn:Ex.
    - split; [apply used_more; [exact Hk|exact (Htab n x Ex)]|]. set (y := snd _). destruct y as [b|e] eqn:Ey; [exact Logic.I|]. right. right.
      exists n, x, fuel, k, label. do 2 eexists. split; [exact H|]. split; [exact Ex|]. split; [exact Hk|]. exact Ey.
    - split; [exact Hk|]. left. exists n. auto.
  Qed.
  Lemma s_context : forall w nw c label i, (forall n, consulted w nw = Some n -> mentioned r acts n) -> safe I E (fun b => b = false -> consulted w nw <> None) (context_e u look rules fuel w nw c label i).
  Proof.
    intros w nw c label i H. unfold context_e. destruct w as [w|].
    - eapply s_weak; [apply s_ask; apply H; reflexivity|]. intros b _ _. discriminate.
    - destruct nw as [n|]; [|apply s_ret; discriminate]. unfold ask_not. eapply s_bind; [apply s_ask; apply H; reflexivity|]. intros b _. apply s_ret. discriminate.
  Qed.
  Lemma s_char : forall ch label i, known r ch -> safe I E (fun b => b = false -> consulted (ch_when ch) (ch_not_when ch) <> None) (char_e u look rules fuel ch label i).
  Proof. intros ch label i [x [l [H1 H2]]]. apply s_context. intros n Hn. exact (M_char r acts x l ch n H1 H2 Hn). Qed.
  Lemma s_var : forall ch v label i, known r ch -> owns ch v -> safe I E any (var_e u look rules fuel v label i).
  Proof.
    intros ch v label i [x [l [H1 H2]]] [c [vs [H3 H4]]]. eapply s_weak; [apply s_context|auto]. intros n Hn. exact (M_variant r acts x l ch c vs v n H1 H2 H3 H4 Hn).
  Qed.
  Lemma s_actions : forall l idx label ds only, (forall a n, In a l -> consulted (a_match a) (a_not_match a) = Some n -> mentioned r acts n) ->
    safe I E any (actions_from_e u look rules fuel l idx label ds only).
  Proof.
    induction l as [|a l IH]; intros idx label ds only H; [apply s_ret; exact Logic.I|]. cbn [actions_from_e]. unfold apply_e.
    eapply s_bind with (P := any).
    - eapply s_bind with (P := any); [|intros b _; apply s_ret; exact Logic.I]. destruct (a_match a) as [n|] eqn:Ea.
      + apply s_ask. apply (H a n (or_introl eq_refl)). rewrite Ea. reflexivity.
      + destruct (a_not_match a) as [n|] eqn:E2; [|apply s_ret; exact Logic.I]. unfold ask_not. eapply s_bind with (P := any); [|intros b _; apply s_ret; exact Logic.I].
        apply s_ask. apply (H a n (or_introl eq_refl)). rewrite Ea, E2. reflexivity.
    - intros [d|] _; [apply s_ret; exact Logic.I|]. apply IH. intros a' n Ha. exact (H a' n (or_intror Ha)).
  Qed.
  Lemma s_effective : forall label ds only, safe I E any (actions_e u look rules fuel acts label ds only).
  Proof.
    intros label ds only. apply s_actions. intros a n Ha Hn. unfold effective_actions in Ha. apply in_app_iff in Ha. destruct Ha as [Ha|Ha]; [exact (M_action r acts a n Ha Hn)|].
    exfalso. repeat (destruct Ha as [<-|Ha]; [discriminate|]). contradiction.
  Qed.

  Lemma known_nonempty : forall ch, known r ch -> ch_cp ch <> [].
  Proof.
    intros ch [x [l [H1 H2]]]. destruct (bucket_wf r x ch Hwf) as [_ [t Ht]]; [unfold bucket; rewrite H1; exact H2|]. rewrite Ht. discriminate.
  Qed.
  Lemma owned_nonempty : forall ch v, known r ch -> owns ch v -> v_cp v <> [].
  Proof.
    intros ch v [x [l [H1 H2]]] [c [vs [H3 H4]]]. destruct (bucket_wf r x ch Hwf) as [[[_ Hv] _] _]; [unfold bucket; rewrite H1; exact H2|].
    apply (dget_In _ cps_eqb_eq) in H3. destruct (Hv c vs H3) as [K1 [_ [K2 _]]]. rewrite (K2 v H4). exact K1.
  Qed.

  (** A rule without a name that can be joined: the empty name. *)
  Lemma nameless : forall ch, known r ch -> consulted (ch_when ch) (ch_not_when ch) <> None -> failed_rule ch = None -> mentioned r acts "".
  Proof.
    intros ch [x [l [H1 H2]]] Hc Hf. unfold failed_rule in Hf. destruct (ch_when ch) as [w|] eqn:Ew.
    - unfold truthy in Hf. destruct w; [|discriminate]. exact (M_char r acts x l ch "" H1 H2 ltac:(rewrite Ew; reflexivity)).
    - exfalso. cbn [consulted truthy] in *. congruence.
  Qed.
  Definition joins (l : list (option string)) : Prop := In None l -> mentioned r acts "" /\ exists x, dget String.eqb "" rules = Some x.
  (** A failed condition was looked up, so its name is defined. *)
  Lemma s_defined : forall ch label i, known r ch -> safe I E (fun b => b = false -> forall n, consulted (ch_when ch) (ch_not_when ch) = Some n -> exists x, dget String.eqb n rules = Some x) (char_e u look rules fuel ch label i).
  Proof.
    intros ch label i Hk k Hi. pose proof (s_char ch label i Hk k Hi) as [S1 S2]. split; [exact S1|].
    destruct (snd (char_e u look rules fuel ch label i k)) as [b|e] eqn:Es; [|exact S2]. intros Hb n Hn.
    unfold char_e, context_e in Es. unfold consulted in Hn. destruct (ch_when ch) as [w|].
    - injection Hn as Hn. subst w. unfold ask in Es. destruct (dget String.eqb n rules) as [x|]; [exists x; reflexivity|discriminate].
    - rewrite Hn in Es. unfold ask_not, ebind, ask in Es. destruct (dget String.eqb n rules) as [x|]; [exists x; reflexivity|discriminate].
  Qed.
  Lemma s_and : forall A (P Q : A -> Prop) m, safe I E P m -> safe I E Q m -> safe I E (fun a => P a /\ Q a) m.
  Proof. intros A P Q m H1 H2 k Hk. destruct (H1 k Hk) as [A1 A2]. destruct (H2 k Hk) as [B1 B2]. split; [exact A1|]. destruct (snd (m k)); auto. Qed.
  Lemma s_try : forall label rest i l pending, (forall ch, In ch l -> known r ch) -> joins pending ->
    safe I E (fun t : option char * list (option string) => (forall ch, fst t = Some ch -> known r ch) /\ joins (snd t)) (try_e u look rules fuel label rest i l pending).
  Proof.
    intros label rest i. induction l as [|ch l IH]; intros pending H Hp; [apply s_ret; split; [discriminate|exact Hp]|]. cbn [try_e].
    assert (Hl : forall c, In c l -> known r c) by (intros c Hc; exact (H c (or_intror Hc))). pose proof (H ch (or_introl eq_refl)) as Hk.
    destruct (is_seq ch && negb (is_prefix_of ch rest))%bool; [exact (IH pending Hl Hp)|].
    eapply s_bind; [exact (s_and _ _ _ _ (s_char ch label i Hk) (s_defined ch label i Hk))|]. intros b [H1 H2]. destruct b; cbn [negb].
    - apply s_ret. split; [intros c Hc; injection Hc as Hc; subst c; exact Hk|exact Hp].
    - apply IH; [exact Hl|]. intro HN. apply in_app_iff in HN. destruct HN as [HN|[HN|[]]]; [exact (Hp HN)|].
      split; [exact (nameless ch Hk (H1 eq_refl) HN)|]. unfold failed_rule in HN. destruct (ch_when ch) as [w|] eqn:Ew.
      + unfold truthy in HN. destruct w; [|discriminate]. apply (H2 eq_refl). reflexivity.
      + exfalso. cbn [truthy] in HN. exact (H1 eq_refl HN).
  Qed.
  Lemma s_prelim : forall f label rest i, length rest <= f ->
    safe I E (fun p => (forall ch, In ch (pr_chars p) -> known r ch) /\ (pr_ok p = false -> exists c o l, pr_invalid p = (c, o) :: l /\ In c rest)) (prelim_e u look rules fuel r f label rest i).
  Proof.
    induction f as [|f IH]; intros label rest i Hf; (destruct rest as [|x rest]; [apply s_ret; split; [contradiction|discriminate]|]); cbn [length] in Hf; [lia|]. cbn [prelim_e].
    assert (Hbad : forall reason, safe I E (fun p => (forall ch, In ch (pr_chars p) -> known r ch) /\ (pr_ok p = false -> exists c o l, pr_invalid p = (c, o) :: l /\ In c (x :: rest)))
      (ebind (prelim_e u look rules fuel r f label rest (S i)) (fun p => ret (mkPrelim false (pr_parts p) ((x, reason) :: pr_invalid p) (pr_chars p))))).
    { intro reason. eapply s_bind; [apply IH; lia|]. intros p [Hp _]. apply s_ret. split; [exact Hp|]. intros _. cbn [pr_invalid]. exists x, reason, (pr_invalid p). split; [reflexivity|left; reflexivity]. }
    destruct (get_chars_from_prefix r x false) as [l|e] eqn:El; [|apply Hbad].
    eapply s_bind; [apply (s_try label (x :: rest) i l []); [intros ch Hch; exact (known_prefix r script x false l ch El Hch)|intros []]|].
    intros [[ch|] pending] [H1 H2]; cbn [fst snd] in *.
    - specialize (H1 ch eq_refl). eapply s_bind; [apply IH|].
      + pose proof (known_nonempty ch H1) as Hne. unfold ch_len. destruct (ch_cp ch) as [|y t]; [congruence|]. rewrite skipn_length. cbn [length]. lia.
      + intros p [Hp Hq]. apply s_ret. cbn [pr_chars pr_ok pr_invalid]. split; [intros c [<-|Hc]; [exact H1|exact (Hp c Hc)]|].
        intro Hok. destruct (Hq Hok) as [c [o [l' [Q1 Q2]]]]. exists c, o, l'. split; [exact Q1|].
        rewrite <- (firstn_skipn (ch_len ch) (x :: rest)). apply in_app_iff. right. exact Q2.
    - destruct pending as [|o pending]; [apply Hbad|].
      destruct (existsb (fun o0 : option string => match o0 with None => true | Some _ => false end) (o :: pending)) eqn:En; [|apply Hbad].
      apply s_fail. apply existsb_exists in En. destruct En as [[s|] [En1 En2]]; [discriminate|]. destruct (H2 En1) as [K1 [x0 K2]]. right. left. exists x0. auto.
  Qed.
  Lemma s_preliminary : forall label, safe I E (fun p => (forall ch, In ch (pr_chars p) -> known r ch) /\ (pr_ok p = false -> exists c o l, pr_invalid p = (c, o) :: l /\ In c label)) (preliminary_e u look rules fuel r label).
  Proof. intro label. apply s_prelim. lia. Qed.

  Lemma s_refl_at : forall label rest i ar l, (forall ch, In ch l -> known r ch) -> safe I E any (refl_at_e u look rules fuel label rest i ar l).
  Proof.
    intros label rest i ar. induction l as [|ch l IH]; intro H; [apply s_ret; exact Logic.I|]. cbn [refl_at_e].
    assert (Hl : forall c, In c l -> known r c) by (intros c Hc; exact (H c (or_intror Hc))). specialize (IH Hl). pose proof (H ch (or_introl eq_refl)) as Hk.
    destruct (is_seq ch && negb (is_prefix_of ch rest))%bool; [exact IH|]. eapply s_bind; [exact (s_char ch label i Hk)|]. intros b _. destruct b; [|exact IH].
    eapply s_bind with (P := any).
    - destruct ar; [|apply s_ret; exact Logic.I]. eapply s_weak; [apply s_filter; intros v Hv; exact (s_var ch v label i Hk (owns_reflexive ch v Hv))|auto].
    - intros vs _. eapply s_bind; [exact IH|]. intros ls _. apply s_ret. exact Logic.I.
  Qed.
  Lemma s_refl : forall label rest i ar, safe I E any (refl_e u look rules fuel r label rest i ar).
  Proof.
    intros label. induction rest as [|x rest IH]; intros i ar; [apply s_ret; exact Logic.I|]. cbn [refl_e].
    eapply s_bind with (P := any).
    - destruct (get_chars_from_prefix r x false) as [l|e] eqn:El; [|apply s_ret; exact Logic.I]. apply s_refl_at. intros ch Hch. exact (known_prefix r script x false l ch El Hch).
    - intros here _. eapply s_bind; [apply IH|]. intros p _. apply s_ret. exact Logic.I.
  Qed.
  Lemma s_eligible : forall label v, label <> [] -> safe I E any (eligible_e u look rules fuel r acts label v).
  Proof.
    intros label v Hne. unfold eligible_e. destruct label as [|x label]; [congruence|]. eapply s_bind; [apply s_preliminary|]. intros p _.
    destruct (negb (pr_ok p)); [apply s_ret; exact Logic.I|]. eapply s_bind with (P := any).
    - unfold disposition_e. eapply s_bind; [apply s_refl|]. intros q _. apply s_effective.
    - intros d _. destruct (ostring_eqb (fst d) (Some "invalid")); apply s_ret; exact Logic.I.
  Qed.
  Lemma s_estimate : forall label hide, safe I E any (estimate_e u look rules fuel r script label hide).
  Proof. intros label hide. unfold estimate_e. eapply s_bind; [apply s_preliminary|]. intros p _. apply s_ret. exact Logic.I. Qed.

  Lemma s_partitions : forall f prefix label, label <> [] -> length label <= f -> safe I E (Forall (fun p => forall ch, In ch p -> known r ch)) (partitions_e u look rules fuel r f prefix label).
  Proof.
    induction f as [|f IH]; intros prefix label Hne Hf; (destruct label as [|x label]; [congruence|]); cbn [length] in Hf; [lia|]. cbn [partitions_e].
    destruct (get_chars_from_prefix r x false) as [l|e] eqn:El; [|apply s_ret; constructor]. apply s_flat. intros ch Hch. pose proof (known_prefix r script x false l ch El Hch) as Hk.
    destruct (negb (is_prefix_of ch (x :: label))); [apply s_ret; constructor|]. eapply s_bind; [exact (s_char ch _ _ Hk)|]. intros b _. destruct b; cbn [negb]; [|apply s_ret; constructor].
    destruct (Nat.ltb (ch_len ch) (length (x :: label))) eqn:Hlt; [|apply s_ret; constructor; [intros c [<-|[]]; exact Hk|constructor]].
    apply Nat.ltb_lt in Hlt. eapply s_bind; [apply IH|].
    - intro Ex. apply (f_equal (@length N)) in Ex. rewrite skipn_length in Ex. cbn [length] in *. lia.
    - pose proof (known_nonempty ch Hk) as Hn. rewrite skipn_length. unfold ch_len in *. destruct (ch_cp ch); [congruence|]. cbn [length] in *. lia.
    - intros ps Hps. apply s_ret. apply Forall_forall. intros q Hq. apply in_map_iff in Hq. destruct Hq as [q' [<- Hq]]. intros c [<-|Hc]; [exact Hk|]. rewrite Forall_forall in Hps. exact (Hps q' Hq c Hc).
  Qed.
  Lemma s_index_on : forall chars prefix, (forall ch, In ch chars -> known r ch) -> safe I E any (index_on_e u look rules fuel prefix chars).
  Proof.
    induction chars as [|ch chars IH]; intros prefix H; [apply s_ret; exact Logic.I|]. cbn [index_on_e].
    eapply s_bind; [apply s_filter; intros v Hv; exact (s_var ch v _ _ (H ch (or_introl eq_refl)) (owns_variant ch v Hv))|]. intros vs _.
    eapply s_bind; [apply IH; intros c Hc; exact (H c (or_intror Hc))|]. intros rest _. apply s_ret. exact Logic.I.
  Qed.
  Definition index_trouble (label : cps) (e : exn) : Prop := E e \/ (exists c, In c label /\ e = NotInLGR [c]) \/ e = ValueError.
  Lemma s_index_once : forall label, safe I (index_trouble label) any (index_once_e u look rules fuel r label).
  Proof.
    intro label. assert (HE : forall e, E e -> index_trouble label e) by (intros e He; left; exact He).
    unfold index_once_e. destruct label as [|x label]; [apply s_ret; exact Logic.I|]. set (w := x :: label) in *.
    eapply s_bind; [apply (s_errors I E); [exact HE|apply s_preliminary]|]. intros p [_ Hp]. destruct (pr_ok p); cbn [negb].
    - eapply s_bind; [apply (s_errors I E); [exact HE|apply s_partitions; [discriminate|lia]]|]. intros ps Hps.
      eapply s_bind; [apply (s_map I _ _ _ any); intros q Hq; apply (s_errors I E); [exact HE|]; apply s_index_on; rewrite Forall_forall in Hps; exact (Hps q Hq)|].
      intros l _. destruct l; [apply s_fail; right; right; reflexivity|apply s_ret; exact Logic.I].
    - destruct (Hp eq_refl) as [c [o [l [H1 H2]]]]. rewrite H1. apply s_fail. right. left. exists c. auto.
  Qed.
  Lemma s_index : forall n t label, safe I (index_trouble label) any (index_e u look rules fuel r n t label).
  Proof.
    induction n as [|n IH]; intros t label; cbn [index_e]; (eapply s_bind; [apply s_index_once|]); intros i _; (destruct label as [|x label]; [apply s_ret; exact Logic.I|]).
    - apply s_ret. exact Logic.I.
    - destruct (t && cps_eqb i (x :: label))%bool; [apply s_ret; exact Logic.I|]. intros k Hk. destruct (IH true i k Hk) as [H1 _].
      destruct (index_e u look rules fuel r n true i k) as [k1 y]. cbn [fst snd] in *. split; [exact H1|exact Logic.I].
  Qed.

  Lemma s_same_prefix : forall lp label, safe I E (fun l => forall ch, In ch l -> known r ch) (same_prefix_e u look rules fuel r lp label).
  Proof.
    intros lp label. unfold same_prefix_e. eapply s_bind with (P := fun l => forall ch, In ch l -> known r ch).
    - destruct label as [|x label]; [apply s_ret; contradiction|]. destruct (get_chars_from_prefix r x true) as [l|e] eqn:El; [|apply s_ret; contradiction].
      eapply s_bind; [apply s_filter|].
      + intros ch Hch. destruct (is_prefix_of ch (x :: label)); [|apply s_ret; exact Logic.I]. eapply s_weak; [exact (s_char ch _ _ (known_prefix r script x true l ch El Hch))|auto].
      + intros l' Hl'. apply s_ret. destruct l' as [|c l']; [|intros ch Hch; exact (known_prefix r script x true l ch El (Hl' ch Hch))].
        intros ch Hch. destruct (find (fun ch0 => is_prefix_of ch0 (x :: label)) (all_from r (x :: label))) as [c|] eqn:Ef; [|contradiction]. destruct Hch as [<-|[]].
        apply find_some in Ef. exact (known_all r script _ c (proj1 Ef)).
    - intros sp Hsp. apply s_ret. intros ch Hch. apply in_app_iff in Hch. destruct Hch as [Hch|Hch]; [exact (Hsp ch Hch)|].
      apply in_flat_map in Hch. destruct Hch as [s [_ Hs]]. apply filter_In in Hs. exact (known_all r script _ ch (proj1 Hs)).
  Qed.
  Definition sized (p : perm) : Prop := let '(pc, _, _, _) := p in piece_cp pc <> [].
  Lemma s_char_perms : forall lp label fc flt ch, known r ch -> safe I E (Forall sized) (char_perms_e u look rules fuel script lp label fc flt ch).
  Proof.
    intros lp label fc flt ch Hk. unfold char_perms_e. eapply s_bind with (P := Forall sized).
    - apply s_flat. intros v Hv. pose proof (owns_variant ch v Hv) as Ho. unfold var_perm_e.
      assert (Hkeep : forall f : option sfilter, safe I E (Forall sized) (ebind (var_e u look rules fuel v (lp ++ v_cp v ++ skipn (ch_len ch) label) (length lp))
        (fun b => ret (if b then [(PVar v, match v_type v with None => [] | Some t => [Some t] end, true, f)] else [])))).
      { intro f. eapply s_bind; [exact (s_var ch v _ _ Hk Ho)|]. intros b _. apply s_ret. destruct b; constructor; [exact (owned_nonempty ch v Hk Ho)|constructor]. }
      destruct flt as [f|]; [|apply Hkeep]. destruct (fc && cp_in_other script f (v_cp v))%bool; [apply Hkeep|]. destruct (negb (cp_in_base script f (v_cp v))); [apply s_ret; constructor|apply Hkeep].
    - intros vs Hvs. apply s_ret. destruct (negb (existsb (is_refl_perm ch) vs) && _)%bool; [constructor; [exact (known_nonempty ch Hk)|exact Hvs]|exact Hvs].
  Qed.
  Lemma s_gen : forall f lp label hv fc flt, length label <= f -> safe I E (Forall (fun w => vl_cp w <> [])) (gen_e u look rules fuel r script f lp label hv fc flt).
  Proof.
    induction f as [|f IH]; intros lp label hv fc flt Hf; (destruct label as [|x label]; [apply s_ret; constructor|]); cbn [length] in Hf; [lia|]. cbn [gen_e]. set (w := x :: label).
    eapply s_bind; [apply s_same_prefix|]. intros sp Hsp. apply s_flat. intros ch Hch. pose proof (Hsp ch Hch) as Hk.
    eapply s_bind; [exact (s_char_perms lp w fc flt ch Hk)|]. intros perms Hperms. rewrite Forall_forall in Hperms. destruct (Nat.ltb (ch_len ch) (length w)).
    - apply s_flat. intros [[[pc ds] isv] flt'] Hp. eapply s_bind; [apply IH|].
      + pose proof (known_nonempty ch Hk) as Hn. unfold w. rewrite skipn_length. unfold ch_len. destruct (ch_cp ch); [congruence|]. cbn [length]. lia.
      + intros l _. apply s_ret. apply Forall_forall. intros y Hy. apply in_map_iff in Hy. destruct Hy as [z [<- _]]. cbn [vl_cp]. intro Ez. apply app_eq_nil in Ez. exact (Hperms _ Hp (proj1 Ez)).
    - destruct (hv || has_variant ch)%bool; apply s_ret; [|constructor]. apply Forall_forall. intros y Hy. apply in_map_iff in Hy. destruct Hy as [[[[pc ds] isv] flt'] [<- Hp]]. cbn [vl_cp]. exact (Hperms _ Hp).
  Qed.
  Lemma s_variants : forall label hide, safe I E (Forall (fun w => vl_cp w <> [])) (variants_e u look rules fuel r script label hide).
  Proof. intros label hide. apply s_gen. lia. Qed.
  Lemma s_judge : forall label w, vl_cp w <> [] -> safe I E any (judge_e u look rules fuel r acts label w).
  Proof.
    intros label w Hw. unfold judge_e. eapply s_bind; [apply s_eligible; exact Hw|]. intros e _. destruct (negb (el_ok e)); [apply s_ret; exact Logic.I|].
    eapply s_bind; [apply s_effective|]. intros d _. apply s_ret. exact Logic.I.
  Qed.
  Lemma s_listing : forall label inv gc wl l handled orig k, I k -> Forall (fun w => vl_cp w <> []) l ->
    let '(k', (ys, o)) := listing_e u look rules fuel r acts label inv gc wl l handled orig k in I k' /\ forall e, o = Raise e -> E e.
  Proof.
    intros label inv gc wl. induction l as [|w l IH]; intros handled orig k Hk Hl; [split; [exact Hk|discriminate]|]. cbn [listing_e]. inversion Hl as [|? ? Hw Hl']; subst.
    destruct (negb gc && memb cps_eqb (vl_cp w) handled)%bool; [exact (IH handled orig k Hk Hl')|].
    destruct (negb (match wl with [] => true | _ => memb cps_eqb (vl_cp w) wl end)); [exact (IH handled orig k Hk Hl')|].
    destruct (s_judge label w Hw k Hk) as [H1 H2]. destruct (judge_e u look rules fuel r acts label w k) as [k1 y]. cbn [fst snd] in *.
    destruct y as [x|e]; [|split; [exact H1|intros e' He; injection He as He; subst e'; exact H2]].
    destruct (negb (ostring_eqb (ls_disp x) (Some "invalid")) || inv)%bool; [|exact (IH _ orig k1 H1 Hl')].
    destruct (cps_eqb (vl_cp w) label); [exact (IH _ (Some x) k1 H1 Hl')|].
    pose proof (IH (vl_cp w :: handled) orig k1 H1 Hl') as H. destruct (listing_e u look rules fuel r acts label inv gc wl l (vl_cp w :: handled) orig k1) as [k2 [ys o]]. exact H.
  Qed.
  Lemma s_compute : forall label inv hide gc wl k, I k -> label <> [] -> length label <= 63 ->
    let '(k', (ys, o)) := compute_e u look rules fuel r acts script label inv hide gc wl k in I k' /\ forall e, o = Raise e -> E e.
  Proof.
    intros label inv hide gc wl k Hk Hne Hlen. unfold compute_e. replace (Nat.ltb 63 (length label)) with false by (symmetry; apply Nat.ltb_ge; exact Hlen).
    destruct (s_variants label hide k Hk) as [H1 H2]. destruct (variants_e u look rules fuel r script label hide k) as [k1 x]. cbn [fst snd] in *.
    destruct x as [vs|e]; [|split; [exact H1|intros e' He; injection He as He; subst e'; exact H2]].
    pose proof (s_listing label inv gc wl vs [] None k1 H1 H2) as H. destruct (listing_e u look rules fuel r acts label inv gc wl vs [] None k1) as [k2 [ys o]]. destruct H as [H3 H4].
    destruct o as [[o|]|e]; [split; [exact H3|discriminate]| |split; [exact H3|intros e' He; injection He as He; subst e'; exact (H4 e eq_refl)]].
    destruct (s_eligible label false Hne k2 H3) as [H5 H6]. destruct (eligible_e u look rules fuel r acts label false k2) as [k3 [y|e]]; cbn [fst snd] in *;
      [split; [exact H5|discriminate]|split; [exact H5|intros e' He; injection He as He; subst e'; exact H6]].
  Qed.
End Errors.
