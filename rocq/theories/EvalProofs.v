(** Evaluation with the rules of the LGR is evaluation with an oracle. *)
From Verif Require Import Base BaseFacts CharModel ActionModel LgrModel LabelModel ClassModel ClassSpec RuleModel RuleSpec RuleProofs RuleCache RuleFinal EvalModel EvalSpec.
From Coq Require Import Lia.
Open Scope string_scope.
Open Scope list_scope.
Open Scope nat_scope.

Section Computes.
  Variable I : cache -> Prop.
  Definition computes {A} (m : ev A) (x : res A) : Prop := forall k, I k -> exists k', m k = (k', x) /\ I k'.
  Definition lift {A} (o : option A) : res A := match o with Some a => Ok a | None => Raise OutOfFuel end.

  Lemma c_ret : forall A (a : A), computes (ret a) (Ok a).
  Proof. intros A a k H. exists k. split; [reflexivity|exact H]. Qed.
  Lemma c_fail : forall A e, computes (@fail A e) (Raise e).
  Proof. intros A e k H. exists k. split; [reflexivity|exact H]. Qed.
  Lemma c_bind : forall A B (m : ev A) (f : A -> ev B) x g, computes m x -> (forall a, x = Ok a -> computes (f a) (g a)) -> computes (ebind m f) (bind x g).
  Proof.
    intros A B m f x g H1 H2 k Hk. destruct (H1 k Hk) as [k1 [E1 I1]]. unfold ebind. rewrite E1. destruct x as [a|e]; cbn [bind].
    - exact (H2 a eq_refl k1 I1).
    - exists k1. split; [reflexivity|exact I1].
  Qed.
  Lemma c_then : forall A B (m : ev A) (f : A -> ev B) a y, computes m (Ok a) -> computes (f a) y -> computes (ebind m f) y.
  Proof. intros A B m f a y H1 H2. apply (c_bind A B m f (Ok a) (fun _ => y) H1). intros b E. injection E as E. subst b. exact H2. Qed.
  Lemma c_eq : forall A (m : ev A) x y, computes m x -> x = y -> computes m y.
  Proof. intros; subst; assumption. Qed.
  Lemma c_filter : forall A (p : A -> ev bool) q l, (forall x, In x l -> computes (p x) (Ok (q x))) -> computes (filter_e p l) (Ok (filter q l)).
  Proof.
    intros A p q. induction l as [|x l IH]; intro H; [apply c_ret|]. cbn [filter_e filter].
    eapply c_then; [exact (H x (or_introl eq_refl))|]. cbv beta. eapply c_then; [exact (IH (fun y Hy => H y (or_intror Hy)))|]. cbv beta. apply c_ret.
  Qed.
  Lemma c_map : forall A B (f : A -> ev B) g l, (forall x, In x l -> computes (f x) (Ok (g x))) -> computes (map_e f l) (Ok (map g l)).
  Proof.
    intros A B f g. induction l as [|x l IH]; intro H; [apply c_ret|]. cbn [map_e map].
    eapply c_then; [exact (H x (or_introl eq_refl))|]. cbv beta. eapply c_then; [exact (IH (fun y Hy => H y (or_intror Hy)))|]. apply c_ret.
  Qed.
  Lemma c_flat_map : forall A B (f : A -> ev (list B)) g l, (forall x, In x l -> computes (f x) (lift (g x))) -> computes (flat_map_e f l) (lift (flat_mapM g l)).
  Proof.
    intros A B f g. induction l as [|x l IH]; intro H; [apply c_ret|]. cbn [flat_map_e flat_mapM].
    eapply c_eq.
    - eapply c_bind; [exact (H x (or_introl eq_refl))|]. intros a _. eapply c_bind; [exact (IH (fun y Hy => H y (or_intror Hy)))|]. intros b _. apply c_ret.
    - destruct (g x) as [a|]; cbn [lift bind]; [|reflexivity]. destruct (flat_mapM g l) as [b|]; reflexivity.
  Qed.
  Lemma c_flat_pure : forall A B (f : A -> ev (list B)) g l, (forall x, In x l -> computes (f x) (Ok (g x))) -> computes (flat_map_e f l) (Ok (flat_map g l)).
  Proof.
    intros A B f g. induction l as [|x l IH]; intro H; [apply c_ret|]. cbn [flat_map_e flat_map].
    eapply c_then; [exact (H x (or_introl eq_refl))|]. cbv beta. eapply c_then; [exact (IH (fun y Hy => H y (or_intror Hy)))|]. apply c_ret.
  Qed.
End Computes.

Section Simulation.
  Variable u : ClassModel.unidb.
  Variable look : table.
  Variable rules : rtable.
  Variable fuel : nat.
  Variable r : repertoire.
  Variable acts : list action.
  Variable script : N -> string.
  Variable I : cache -> Prop.
  Variable rm : rule_oracle.
  Hypothesis Hask : forall n label ctx, mentioned r acts n -> computes I (ask u look rules fuel n label ctx) (Ok (rm n label ctx)).
  Hypothesis Hname : ~ mentioned r acts "".

  Lemma c_context : forall w nw c label i, (forall n, consulted w nw = Some n -> mentioned r acts n) ->
    computes I (context_e u look rules fuel w nw c label i) (Ok (test_context rm w nw c label i)).
  Proof.
    intros w nw c label i H. unfold context_e, test_context. destruct w as [w|]; [apply Hask; apply H; reflexivity|].
    destruct nw as [n|]; [|apply c_ret]. unfold ask_not. eapply c_then; [apply Hask; apply H; reflexivity|]. apply c_ret.
  Qed.
  Definition known (ch : char) : Prop := exists x l, dget N.eqb x (rep_chars r) = Some l /\ In ch l.
  Lemma known_prefix : forall x b l ch, get_chars_from_prefix r x b = Ok l -> In ch l -> known ch.
  Proof.
    intros x b l ch H Hin. unfold get_chars_from_prefix in H. destruct (dget N.eqb x (rep_chars r)) as [l0|] eqn:E; [|discriminate]. injection H as H. subst l.
    apply isort_In in Hin. exists x, l0. split; [exact E|]. destruct b; [apply filter_In in Hin; tauto|exact Hin].
  Qed.
  Lemma c_char : forall ch label i, known ch -> computes I (char_e u look rules fuel ch label i) (Ok (ctx_char rm ch label i)).
  Proof. intros ch label i [x [l [H1 H2]]]. apply c_context. intros n Hn. exact (M_char r acts x l ch n H1 H2 Hn). Qed.
  Definition owns (ch : char) (v : variant) : Prop := exists c vs, dget cps_eqb c (ch_variants ch) = Some vs /\ In v vs.
  Lemma owns_variant : forall ch v, In v (get_variants ch) -> owns ch v.
  Proof.
    intros ch v H. unfold get_variants in H. apply in_flat_map in H. destruct H as [k [_ H]]. destruct (dget cps_eqb k (ch_variants ch)) as [vs|] eqn:E; [|contradiction].
    exists k, vs. auto.
  Qed.
  Lemma owns_reflexive : forall ch v, In v (get_reflexive_variants ch) -> owns ch v.
  Proof.
    intros ch v H. unfold get_reflexive_variants in H. destruct (dget cps_eqb (ch_cp ch) (ch_variants ch)) as [vs|] eqn:E; [|contradiction]. exists (ch_cp ch), vs. auto.
  Qed.
  Lemma c_var : forall ch v label i, known ch -> owns ch v -> computes I (var_e u look rules fuel v label i) (Ok (ctx_var rm v label i)).
  Proof. intros ch v label i [x [l [H1 H2]]] [c [vs [H3 H4]]]. apply c_context. intros n Hn. exact (M_variant r acts x l ch c vs v n H1 H2 H3 H4 Hn). Qed.

  Lemma c_actions : forall l idx label ds only, (forall a n, In a l -> consulted (a_match a) (a_not_match a) = Some n -> mentioned r acts n) ->
    computes I (actions_from_e u look rules fuel l idx label ds only) (Ok (apply_actions_from rm l idx label ds only)).
  Proof.
    induction l as [|a l IH]; intros idx label ds only H; [apply c_ret|]. cbn [actions_from_e apply_actions_from]. unfold apply_e, act_apply.
    eapply c_then.
    - eapply c_then with (a := act_rule rm a label); [|apply c_ret]. unfold act_rule. destruct (a_match a) as [n|] eqn:E.
      + apply Hask. apply (H a n (or_introl eq_refl)). rewrite E. reflexivity.
      + destruct (a_not_match a) as [n|] eqn:E2; [|apply c_ret]. unfold ask_not. eapply c_then; [|apply c_ret]. apply Hask. apply (H a n (or_introl eq_refl)). rewrite E, E2. reflexivity.
    - cbv beta. destruct (act_rule rm a label && act_variant a ds only)%bool; [apply c_ret|]. apply IH. intros a' n Ha. exact (H a' n (or_intror Ha)).
  Qed.
  Lemma c_effective : forall label ds only, computes I (actions_e u look rules fuel acts label ds only) (Ok (apply_actions rm acts label ds only)).
  Proof.
    intros label ds only. apply c_actions. intros a n Ha Hn. unfold effective_actions in Ha. apply in_app_iff in Ha. destruct Ha as [Ha|Ha]; [exact (M_action r acts a n Ha Hn)|].
    exfalso. repeat (destruct Ha as [<-|Ha]; [discriminate|]). contradiction.
  Qed.

  Lemma failed_named : forall ch, known ch -> forall label i, ctx_char rm ch label i = false -> failed_rule ch <> None.
  Proof.
    intros ch [x [l [H1 H2]]] label i H E. unfold failed_rule in E. unfold ctx_char, test_context in H.
    destruct (ch_when ch) as [w|] eqn:Ew.
    - unfold truthy in E. destruct w; [|discriminate]. apply Hname. exact (M_char r acts x l ch "" H1 H2 ltac:(rewrite Ew; reflexivity)).
    - cbn in E. destruct (ch_not_when ch); discriminate.
  Qed.
  Definition no_none (l : list (option string)) : Prop := existsb (fun o : option string => match o with None => true | Some _ => false end) l = false.
  Lemma c_try : forall label rest i l pending, (forall ch, In ch l -> known ch) -> no_none pending ->
    computes I (try_e u look rules fuel label rest i l pending) (Ok (prelim_try rm label rest i l pending)) /\ no_none (snd (prelim_try rm label rest i l pending)).
  Proof.
    intros label rest i. induction l as [|ch l IH]; intros pending H Hp; [split; [apply c_ret|exact Hp]|]. cbn [try_e prelim_try].
    assert (Hl : forall c, In c l -> known c) by (intros c Hc; exact (H c (or_intror Hc))).
    destruct (is_seq ch && negb (is_prefix_of ch rest))%bool; [exact (IH pending Hl Hp)|].
    pose proof (H ch (or_introl eq_refl)) as Hk. pose proof (c_char ch label i Hk) as Hc. destruct (ctx_char rm ch label i) eqn:E; cbn [negb].
    - split; [|exact Hp]. eapply c_then; [exact Hc|]. cbv beta. cbn [negb]. apply c_ret.
    - assert (Hp' : no_none (pending ++ [failed_rule ch])).
      { unfold no_none in *. rewrite existsb_app, Hp. cbn [existsb]. pose proof (failed_named ch Hk label i E) as Hf. destruct (failed_rule ch); [reflexivity|congruence]. }
      destruct (IH _ Hl Hp') as [A B]. split; [|exact B]. eapply c_then; [exact Hc|]. cbv beta. cbn [negb]. exact A.
  Qed.
  Lemma c_prelim : forall f label rest i, computes I (prelim_e u look rules fuel r f label rest i) (lift (prelim_loop rm r f label rest i)).
  Proof.
    induction f as [|f IH]; intros label rest i; (destruct rest as [|x rest]; [apply c_ret|]); [apply c_fail|]. cbn [prelim_e prelim_loop].
    assert (Hbad : forall reason, computes I (ebind (prelim_e u look rules fuel r f label rest (S i)) (fun p => ret (mkPrelim false (pr_parts p) ((x, reason) :: pr_invalid p) (pr_chars p))))
      (lift (match prelim_loop rm r f label rest (S i) with Some p => Some (mkPrelim false (pr_parts p) ((x, reason) :: pr_invalid p) (pr_chars p)) | None => None end))).
    { intro reason. eapply c_eq; [eapply c_bind; [apply IH|]; intros p _; apply c_ret|]. destruct (prelim_loop rm r f label rest (S i)); reflexivity. }
    destruct (get_chars_from_prefix r x false) as [l|e] eqn:El; [|apply Hbad].
    destruct (c_try label (x :: rest) i l [] (fun ch Hch => known_prefix x false l ch El Hch) eq_refl) as [A B].
    destruct (prelim_try rm label (x :: rest) i l []) as [[ch|] pending]; cbn [snd] in B.
    - eapply c_then; [exact A|]. cbv beta iota. eapply c_eq; [eapply c_bind; [apply IH|]; intros p _; apply c_ret|].
      destruct (prelim_loop rm r f label (skipn (ch_len ch) (x :: rest)) (i + ch_len ch)); reflexivity.
    - eapply c_then; [exact A|]. cbv beta iota. destruct pending as [|o pending]; [apply Hbad|]. unfold no_none in B. rewrite B. apply Hbad.
  Qed.
  Lemma c_preliminary : forall label, computes I (preliminary_e u look rules fuel r label) (lift (preliminary rm r label)).
  Proof. intro label. apply c_prelim. Qed.

  Lemma c_refl_at : forall label rest i ar l, (forall ch, In ch l -> known ch) ->
    computes I (refl_at_e u look rules fuel label rest i ar l)
      (Ok (map (fun ch => if ar then refl_types rm label i ch else []) (filter (fun ch => (negb (is_seq ch) || is_prefix_of ch rest) && ctx_char rm ch label i)%bool l))).
  Proof.
    intros label rest i ar. induction l as [|ch l IH]; intro H; [apply c_ret|]. cbn [refl_at_e filter].
    assert (Hl : forall c, In c l -> known c) by (intros c Hc; exact (H c (or_intror Hc))). specialize (IH Hl).
    pose proof (H ch (or_introl eq_refl)) as Hk.
    replace (negb (is_seq ch) || is_prefix_of ch rest)%bool with (negb (is_seq ch && negb (is_prefix_of ch rest)))%bool by (destruct (is_seq ch), (is_prefix_of ch rest); reflexivity).
    destruct (is_seq ch && negb (is_prefix_of ch rest))%bool; cbn [negb andb]; [exact IH|].
    eapply c_then; [exact (c_char ch label i Hk)|]. cbv beta. destruct (ctx_char rm ch label i); [|exact IH]. cbn [map].
    destruct ar.
    - eapply c_then; [apply c_filter; intros v Hv; exact (c_var ch v label i Hk (owns_reflexive ch v Hv))|]. cbv beta. eapply c_then; [exact IH|]. apply c_ret.
    - eapply c_then; [apply c_ret|]. cbv beta. eapply c_then; [exact IH|]. apply c_ret.
  Qed.
  Lemma c_refl : forall label rest i ar, computes I (refl_e u look rules fuel r label rest i ar) (Ok (refl_collect rm r label rest i ar)).
  Proof.
    intros label. induction rest as [|x rest IH]; intros i ar; [apply c_ret|]. cbn [refl_e refl_collect]. unfold entries_at.
    destruct (refl_collect rm r label rest (S i) ar) as [ds only] eqn:Ec.
    eapply c_then with (a := map (fun ch => if ar then refl_types rm label i ch else []) (match get_chars_from_prefix r x false with Raise _ => [] | Ok l => filter (fun ch => (negb (is_seq ch) || is_prefix_of ch (x :: rest)) && ctx_char rm ch label i)%bool l end)).
    - destruct (get_chars_from_prefix r x false) as [l|e] eqn:El; [|apply c_ret]. apply c_refl_at. intros ch Hch. exact (known_prefix x false l ch El Hch).
    - cbv beta. eapply c_then; [apply IH|]. rewrite Ec. apply c_ret.
  Qed.
  Lemma c_disposition : forall label ar, computes I (disposition_e u look rules fuel r acts label ar) (Ok (label_disposition rm r acts label ar)).
  Proof.
    intros label ar. unfold disposition_e, label_disposition. eapply c_then; [apply c_refl|]. destruct (refl_collect rm r label label 0 ar) as [ds only]. apply c_effective.
  Qed.
  Lemma c_eligible : forall label v, computes I (eligible_e u look rules fuel r acts label v) (test_label_eligible rm r acts label v).
  Proof.
    intros label v. unfold eligible_e, test_label_eligible. destruct label as [|x label]; [apply c_fail|]. set (w := x :: label).
    eapply c_eq.
    - eapply c_bind with (g := fun p => if negb (pr_ok p) then Ok (mkElig false (pr_parts p) (pr_invalid p) (Some "invalid") (-1)%Z (pr_chars p)) else
        let '(d, idx) := label_disposition rm r acts w (negb v) in
        if ostring_eqb d (Some "invalid") then Ok (mkElig false [] [] d idx (pr_chars p)) else Ok (mkElig true w [] d idx (pr_chars p))); [apply c_preliminary|].
      intros p _. destruct (negb (pr_ok p)); [apply c_ret|]. eapply c_then; [apply c_disposition|]. destruct (label_disposition rm r acts w (negb v)) as [d idx]. cbn [fst snd].
      destruct (ostring_eqb d (Some "invalid")); apply c_ret.
    - destruct (preliminary rm r w); reflexivity.
  Qed.

  Lemma c_partitions : forall f prefix label, label <> [] -> computes I (partitions_e u look rules fuel r f prefix label) (lift (partitions rm r f prefix label)).
  Proof.
    induction f as [|f IH]; intros prefix label Hne; (destruct label as [|x label]; [congruence|]); [apply c_fail|]. cbn [partitions_e partitions].
    destruct (get_chars_from_prefix r x false) as [l|e] eqn:El; [|apply c_ret]. apply c_flat_map. intros ch Hch.
    destruct (negb (is_prefix_of ch (x :: label))); [apply c_ret|].
    eapply c_then; [exact (c_char ch _ _ (known_prefix x false l ch El Hch))|]. cbv beta. destruct (ctx_char rm ch (prefix ++ x :: label) (length prefix)); cbn [negb]; [|apply c_ret].
    destruct (Nat.ltb (ch_len ch) (length (x :: label))) eqn:Hlt; [|apply c_ret]. apply Nat.ltb_lt in Hlt.
    eapply c_eq; [eapply c_bind; [apply IH|]; [|intros ps _; apply c_ret]|].
    - intro E. apply (f_equal (@length N)) in E. rewrite skipn_length in E. cbn [length] in *. lia.
    - destruct (partitions rm r f (prefix ++ ch_cp ch) (skipn (ch_len ch) (x :: label))); reflexivity.
  Qed.
  Lemma partitions_known : forall f prefix label ps p ch, partitions rm r f prefix label = Some ps -> In p ps -> In ch p -> known ch.
  Proof.
    induction f as [|f IH]; intros prefix label ps p ch H Hp Hch; (destruct label as [|x label]; [discriminate|]); [discriminate|]. cbn [partitions] in H.
    destruct (get_chars_from_prefix r x false) as [l|e] eqn:El; [|injection H as H; subst ps; contradiction].
    assert (Hl : forall c, In c l -> known c) by (intros c Hc; exact (known_prefix x false l c El Hc)). clear El. revert ps H Hp.
    induction l as [|c l IHl]; intros ps H Hp; [injection H as H; subst ps; contradiction|]. cbn [flat_mapM] in H.
    match type of H with match ?a with _ => _ end = _ => destruct a as [a0|] eqn:Ea; [|discriminate] end.
    match type of H with match ?a with _ => _ end = _ => destruct a as [b0|] eqn:Eb; [|discriminate] end. injection H as H. subst ps.
    apply in_app_iff in Hp. destruct Hp as [Hp|Hp]; [|exact (IHl (fun c' Hc' => Hl c' (or_intror Hc')) b0 eq_refl Hp)].
    destruct (negb (is_prefix_of c (x :: label))); [injection Ea as Ea; subst a0; contradiction|].
    destruct (negb (ctx_char rm c (prefix ++ x :: label) (length prefix))); [injection Ea as Ea; subst a0; contradiction|].
    destruct (Nat.ltb (ch_len c) (length (x :: label))).
    - destruct (partitions rm r f (prefix ++ ch_cp c) (skipn (ch_len c) (x :: label))) as [qs|] eqn:Eq; [|discriminate]. injection Ea as Ea. subst a0.
      apply in_map_iff in Hp. destruct Hp as [q [<- Hq]]. destruct Hch as [<-|Hch]; [exact (Hl c (or_introl eq_refl))|]. exact (IH _ _ qs q ch Eq Hq Hch).
    - injection Ea as Ea. subst a0. destruct Hp as [<-|[]]. destruct Hch as [<-|[]]. exact (Hl c (or_introl eq_refl)).
  Qed.
  Lemma c_index_on : forall chars prefix, (forall ch, In ch chars -> known ch) -> computes I (index_on_e u look rules fuel prefix chars) (Ok (index_on rm prefix chars)).
  Proof.
    induction chars as [|ch chars IH]; intros prefix H; [apply c_ret|]. cbn [index_on_e index_on]. unfold index_choices.
    eapply c_then; [apply c_filter; intros v Hv; exact (c_var ch v _ _ (H ch (or_introl eq_refl)) (owns_variant ch v Hv))|]. cbv beta.
    eapply c_then; [apply IH; intros c Hc; exact (H c (or_intror Hc))|]. apply c_ret.
  Qed.
  Lemma c_index_once : forall label, computes I (index_once_e u look rules fuel r label) (index_once rm r label).
  Proof.
    intros [|x label]; [apply c_ret|]. unfold index_once_e, index_once. set (w := x :: label).
    eapply c_eq.
    - eapply c_bind with (g := fun p => if negb (pr_ok p) then match pr_invalid p with (c, _) :: _ => Raise (NotInLGR [c]) | [] => Raise IndexError end else
        match label_partitions rm r w with None => Raise OutOfFuel | Some ps => match map (index_on rm []) ps with [] => Raise ValueError | i :: is => Ok (min_cps i is) end end); [apply c_preliminary|].
      intros p _. destruct (negb (pr_ok p)); [destruct (pr_invalid p) as [|[c o] l]; apply c_fail|].
      eapply c_eq; [eapply c_bind with (g := fun ps => match map (index_on rm []) ps with [] => Raise ValueError | i :: is => Ok (min_cps i is) end); [apply c_partitions; discriminate|]|].
      + intros ps Hps. assert (Hps' : partitions rm r (length w) [] w = Some ps) by (destruct (partitions rm r (length w) [] w); [injection Hps as Hps; subst; reflexivity|discriminate]).
        eapply c_then; [apply c_map; intros q Hq; apply c_index_on; intros ch Hch; exact (partitions_known _ _ _ ps q ch Hps' Hq Hch)|]. cbv beta.
        destruct (map (index_on rm []) ps); [apply c_fail|apply c_ret].
      + unfold label_partitions. destruct (partitions rm r (length w) [] w); reflexivity.
    - destruct (preliminary rm r w); reflexivity.
  Qed.
  Lemma c_index : forall n t label, computes I (index_e u look rules fuel r n t label) (index_label rm r n t label).
  Proof.
    induction n as [|n IH]; intros t label.
    - cbn [index_e index_label]. eapply c_eq.
      + eapply c_bind with (g := fun i => match label with [] => Ok [] | _ => Ok i end); [apply c_index_once|]. intros i _. destruct label; apply c_ret.
      + destruct (index_once rm r label); [|reflexivity]. destruct label; reflexivity.
    - cbn [index_e index_label]. eapply c_eq.
      + eapply c_bind with (g := fun i => match label with [] => Ok [] | _ => if (t && cps_eqb i label)%bool then Ok i else match index_label rm r n true i with Ok i' => Ok i' | Raise _ => Ok i end end); [apply c_index_once|].
        intros i _. destruct label as [|x label]; [apply c_ret|]. destruct (t && cps_eqb i (x :: label))%bool; [apply c_ret|].
        intros k Hk. destruct (IH true i k Hk) as [k1 [E H]]. rewrite E. exists k1. split; [|exact H]. destruct (index_label rm r n true i); reflexivity.
      + destruct (index_once rm r label); [|reflexivity]. destruct label; reflexivity.
  Qed.

  Lemma c_same_prefix : forall lp label, computes I (same_prefix_e u look rules fuel r lp label) (Ok (same_prefix rm r lp label)).
  Proof.
    intros lp label. unfold same_prefix_e, same_prefix. eapply c_then; [|apply c_ret]. unfold prefix_list.
    destruct label as [|x label]; [apply c_ret|]. set (w := x :: label).
    destruct (get_chars_from_prefix r x true) as [l|e] eqn:El; cbn [bind]; [|apply c_ret].
    eapply c_then.
    - apply c_filter with (q := fun ch => (is_prefix_of ch w && ctx_char rm ch (lp ++ ch_cp ch ++ skipn (ch_len ch) w) (length lp))%bool).
      intros ch Hch. destruct (is_prefix_of ch w); cbn [andb]; [|apply c_ret]. exact (c_char ch _ _ (known_prefix x true l ch El Hch)).
    - cbv beta. apply c_ret.
  Qed.
  Lemma known_all : forall label ch, In ch (all_from r label) -> known ch.
  Proof.
    intros [|x label] ch H; [contradiction|]. unfold all_from in H. destruct (get_chars_from_prefix r x false) as [l|e] eqn:El; [|contradiction]. exact (known_prefix x false l ch El H).
  Qed.
  Lemma known_same : forall lp label ch, In ch (same_prefix rm r lp label) -> known ch.
  Proof.
    intros lp label ch H. unfold same_prefix in H. apply in_app_iff in H. destruct H as [H|H].
    - unfold prefix_list in H. destruct label as [|x label]; [contradiction|]. destruct (get_chars_from_prefix r x true) as [l|e] eqn:El; cbn [bind] in H; [|contradiction].
      set (F := filter _ l) in H. assert (HF : In ch F -> known ch) by (intro HF; apply filter_In in HF; exact (known_prefix x true l ch El (proj1 HF))).
      destruct F as [|c F]; [|exact (HF H)].
      destruct (find (fun ch0 => is_prefix_of ch0 (x :: label)) (all_from r (x :: label))) as [c|] eqn:Ef; [|contradiction]. destruct H as [<-|[]].
      apply find_some in Ef. exact (known_all _ c (proj1 Ef)).
    - apply in_flat_map in H. destruct H as [s [_ H]]. apply filter_In in H. exact (known_all _ ch (proj1 H)).
  Qed.
  Lemma c_var_perm : forall ch v lp rest fc flt, known ch -> owns ch v ->
    computes I (var_perm_e u look rules fuel script lp rest fc flt v) (Ok (var_perm rm script lp rest fc flt v)).
  Proof.
    intros ch v lp rest fc flt Hk Ho. unfold var_perm_e, var_perm.
    assert (Hkeep : forall f : option sfilter, computes I (ebind (var_e u look rules fuel v (lp ++ v_cp v ++ rest) (length lp)) (fun b => ret (if b then [(PVar v, match v_type v with None => [] | Some t => [Some t] end, true, f)] else [])))
      (Ok (if ctx_var rm v (lp ++ v_cp v ++ rest) (length lp) then [(PVar v, match v_type v with None => [] | Some t => [Some t] end, true, f)] else []))).
    { intro f. eapply c_then; [exact (c_var ch v _ _ Hk Ho)|]. apply c_ret. }
    destruct flt as [f|]; [|apply Hkeep]. destruct (fc && cp_in_other script f (v_cp v))%bool; [apply Hkeep|]. destruct (negb (cp_in_base script f (v_cp v))); [apply c_ret|apply Hkeep].
  Qed.
  Lemma c_char_perms : forall lp label fc flt ch, known ch -> computes I (char_perms_e u look rules fuel script lp label fc flt ch) (Ok (char_perms rm script lp label fc flt ch)).
  Proof.
    intros lp label fc flt ch Hk. unfold char_perms_e, char_perms. eapply c_then; [apply c_flat_pure; intros v Hv; exact (c_var_perm ch v _ _ fc flt Hk (owns_variant ch v Hv))|]. apply c_ret.
  Qed.
  Lemma c_gen : forall f lp label hv fc flt, computes I (gen_e u look rules fuel r script f lp label hv fc flt) (lift (gen_variants rm r script f lp label hv fc flt)).
  Proof.
    induction f as [|f IH]; intros lp label hv fc flt; (destruct label as [|x label]; [apply c_ret|]); [apply c_fail|]. cbn [gen_e gen_variants]. set (w := x :: label).
    eapply c_then; [apply c_same_prefix|]. apply c_flat_map. intros ch Hch. pose proof (known_same lp w ch Hch) as Hk.
    eapply c_then; [exact (c_char_perms lp w fc flt ch Hk)|]. cbv beta zeta. destruct (Nat.ltb (ch_len ch) (length w)).
    - apply c_flat_map. intros [[[pc ds] isv] flt'] _. eapply c_eq; [eapply c_bind; [apply IH|]; intros l _; apply c_ret|].
      destruct (gen_variants rm r script f (lp ++ piece_cp pc) (skipn (ch_len ch) w) (isv || hv) false flt'); reflexivity.
    - destruct (hv || has_variant ch)%bool; apply c_ret.
  Qed.
  Lemma c_variants : forall label hide, computes I (variants_e u look rules fuel r script label hide) (lift (label_variants rm r script label hide)).
  Proof. intros label hide. apply c_gen. Qed.
  Lemma c_judge : forall label w, computes I (judge_e u look rules fuel r acts label w) (judge rm r acts label w).
  Proof.
    intros label w. unfold judge_e, judge. eapply c_bind; [apply c_eligible|]. intros e _. destruct (negb (el_ok e)); [apply c_ret|].
    eapply c_then; [apply c_effective|]. destruct (apply_actions rm acts (vl_cp w) (vl_disp w) (vl_only w)) as [d idx]. apply c_ret.
  Qed.
  Lemma c_listing : forall label inv gc wl l handled orig k, I k -> exists k',
    listing_e u look rules fuel r acts label inv gc wl l handled orig k = (k', listing_loop rm r acts label inv gc wl l handled orig) /\ I k'.
  Proof.
    intros label inv gc wl. induction l as [|w l IH]; intros handled orig k Hk; [exists k; split; [reflexivity|exact Hk]|]. cbn [listing_e listing_loop].
    destruct (negb gc && memb cps_eqb (vl_cp w) handled)%bool; [exact (IH handled orig k Hk)|].
    destruct (negb (match wl with [] => true | _ => memb cps_eqb (vl_cp w) wl end)); [exact (IH handled orig k Hk)|].
    destruct (c_judge label w k Hk) as [k1 [E H1]]. rewrite E. destruct (judge rm r acts label w) as [x|e]; [|exists k1; split; [reflexivity|exact H1]].
    cbv zeta. destruct (negb (ostring_eqb (ls_disp x) (Some "invalid")) || inv)%bool; [|exact (IH _ orig k1 H1)].
    destruct (cps_eqb (vl_cp w) label); [exact (IH _ (Some x) k1 H1)|].
    destruct (IH (vl_cp w :: handled) orig k1 H1) as [k2 [E2 H2]]. rewrite E2. exists k2. split; [|exact H2].
    destruct (listing_loop rm r acts label inv gc wl l (vl_cp w :: handled) orig); reflexivity.
  Qed.
  Lemma c_compute : forall label inv hide gc wl k, I k -> exists k',
    compute_e u look rules fuel r acts script label inv hide gc wl k = (k', compute_label_disposition rm r acts script true label inv hide gc wl) /\ I k'.
  Proof.
    intros label inv hide gc wl k Hk. unfold compute_e, compute_label_disposition. cbn [negb]. destruct (Nat.ltb 63 (length label)); [exists k; split; [reflexivity|exact Hk]|].
    destruct (c_variants label hide k Hk) as [k1 [E1 H1]]. rewrite E1. destruct (label_variants rm r script label hide) as [vs|]; cbn [lift]; [|exists k1; split; [reflexivity|exact H1]].
    destruct (c_listing label inv gc wl vs [] None k1 H1) as [k2 [E2 H2]]. rewrite E2. destruct (listing_loop rm r acts label inv gc wl vs [] None) as [ys [[o|]|e]]; [exists k2; split; [reflexivity|exact H2]| |exists k2; split; [reflexivity|exact H2]].
    destruct (c_eligible label false k2 H2) as [k3 [E3 H3]]. rewrite E3. exists k3. split; [|exact H3]. destruct (test_label_eligible rm r acts label false); reflexivity.
  Qed.
  Lemma c_estimate : forall label hide, computes I (estimate_e u look rules fuel r script label hide) (lift (estimate_variant_number rm r script label hide)).
  Proof.
    intros label hide. unfold estimate_e, estimate_variant_number. eapply c_eq; [eapply c_bind; [apply c_preliminary|]; intros p _; apply c_ret|].
    destruct (preliminary rm r label); reflexivity.
  Qed.
End Simulation.
