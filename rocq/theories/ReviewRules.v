(** Proofs about the review of rules. *)
From Coq Require Import Permutation Sorted Lia.
From Verif Require Import Base BaseFacts CharModel RepSpec RepProofs IterProofs RepFinal ActionModel LgrModel LabelModel LabelSpec LabelProofs CompareModel CompareProofs ReviewModel ReviewSpec
  ReviewRepertoire ReviewSets.
Open Scope string_scope.
Open Scope list_scope.

Lemma add_context_In : forall d k c n x, In x (context_of (add_context d k c) n) <-> In x (context_of d n) \/ (n = k /\ x = c).
Proof.
  intros d k c n x. unfold add_context, context_of. rewrite (dget_dset _ string_eqb_iff). destruct (String.eqb_spec n k) as [E|E].
  - subst n. rewrite in_app_iff. destruct (dget String.eqb k d); cbn [In]; intuition.
  - intuition.
Qed.
Lemma truthy_some : forall s, truthy (Some s) = true <-> s <> "".
Proof. intros [|a s]; cbn; split; intros H; try discriminate; try reflexivity. destruct (H eq_refl). Qed.
Lemma idn_contexts_In : forall r n x, In x (context_of (idn_contexts r) n) <-> exists ch, In ch (all_chars r) /\ ch_cp ch = x /\ idn_rule ch n.
Proof.
  intros r n x. unfold idn_contexts. rewrite all_repertoire_all. generalize (all_chars r). intros l.
  assert (G : forall l d, In x (context_of (fold_left (fun d ch =>
               match ch_when ch, ch_not_when ch with
               | Some w, n => if truthy (Some w) then add_context d w (ch_cp ch)
                              else match n with Some x => if truthy n then add_context d x (ch_cp ch) else d | None => d end
               | None, Some x => if truthy (Some x) then add_context d x (ch_cp ch) else d
               | None, None => d
               end) l d) n) <-> In x (context_of d n) \/ exists ch, In ch l /\ ch_cp ch = x /\ idn_rule ch n).
  { induction l0 as [|ch l0 IH]; intros d; cbn [fold_left].
    - split; [intros H; left; exact H | intros [H | (ch & [] & _)]; exact H].
    - rewrite IH. clear IH.
      assert (S : In x (context_of (match ch_when ch, ch_not_when ch with
               | Some w, n => if truthy (Some w) then add_context d w (ch_cp ch)
                              else match n with Some x => if truthy n then add_context d x (ch_cp ch) else d | None => d end
               | None, Some x => if truthy (Some x) then add_context d x (ch_cp ch) else d
               | None, None => d
               end) n) <-> In x (context_of d n) \/ (ch_cp ch = x /\ idn_rule ch n)).
      { unfold idn_rule. destruct (ch_when ch) as [[|a w]|], (ch_not_when ch) as [[|b v]|]; cbn [truthy String.eqb negb]; rewrite ?add_context_In; intuition (try congruence). }
      rewrite S. split.
      + intros [[H | H] | (c & Hc & H)]; [left; exact H | right; exists ch; split; [left; reflexivity | exact H] | right; exists c; split; [right; exact Hc | exact H]].
      + intros [H | (c & [<- | Hc] & H)]; [left; left; exact H | left; right; exact H | right; exists c; auto]. }
  rewrite G. split; [intros [[] | H]; exact H | intros H; right; exact H].
Qed.
Lemma ref_contexts_In : forall r n x, In x (context_of (ref_contexts r) n) <-> exists ch, In ch (rep_iter r) /\ ch_cp ch = x /\ ref_rule ch n.
Proof.
  intros r n x. unfold ref_contexts. generalize (rep_iter r). intros l.
  assert (G : forall l d, In x (context_of (fold_left (fun d ch =>
               let d1 := match ch_when ch with Some w => if truthy (Some w) then add_context d w (ch_cp ch) else d | None => d end in
               match ch_not_when ch with Some x => if truthy (Some x) then add_context d1 x (ch_cp ch) else d1 | None => d1 end) l d) n) <->
             In x (context_of d n) \/ exists ch, In ch l /\ ch_cp ch = x /\ ref_rule ch n).
  { induction l0 as [|ch l0 IH]; intros d; cbn [fold_left].
    - split; [intros H; left; exact H | intros [H | (ch & [] & _)]; exact H].
    - rewrite IH. clear IH. cbv zeta.
      assert (S : In x (context_of (let d1 := match ch_when ch with Some w => if truthy (Some w) then add_context d w (ch_cp ch) else d | None => d end in
               match ch_not_when ch with Some x => if truthy (Some x) then add_context d1 x (ch_cp ch) else d1 | None => d1 end) n) <-> In x (context_of d n) \/ (ch_cp ch = x /\ ref_rule ch n)).
      { unfold ref_rule. cbv zeta. destruct (ch_when ch) as [[|a w]|], (ch_not_when ch) as [[|b v]|]; cbn [truthy String.eqb negb]; rewrite ?add_context_In; intuition (try congruence). }
      cbv zeta in S. rewrite S. split.
      + intros [[H | H] | (c & Hc & H)]; [left; exact H | right; exists ch; split; [left; reflexivity | exact H] | right; exists c; split; [right; exact Hc | exact H]].
      + intros [H | (c & [<- | Hc] & H)]; [left; left; exact H | left; right; exact H | right; exists c; auto]. }
  rewrite G. split; [intros [[] | H]; exact H | intros H; right; exact H].
Qed.
Lemma cps_xor_empty : forall a b, nonempty (cps_xor a b) = false <-> same_set a b.
Proof.
  intros a b. assert (X : forall x, In x (cps_xor a b) <-> (In x a /\ ~ In x b) \/ (In x b /\ ~ In x a)).
  { intros x. unfold cps_xor. rewrite (set_union_In _ cps_eqb_eq), !(set_diff_In _ cps_eqb_eq). reflexivity. }
  rewrite nonempty_false. unfold same_set. split.
  - intros H x. specialize (H x). rewrite X in H. destruct (in_dec cps_eq_dec x a), (in_dec cps_eq_dec x b); tauto.
  - intros H x Hx. apply X in Hx. specialize (H x). tauto.
Qed.
(** A line on a rule. *)
Lemma wle_line_names : forall ir rr idn ref, map wl_name (wle_report ir rr idn ref) = isort string_leb (set_union String.eqb (dkeys idn) (dkeys ref)).
Proof. intros. unfold wle_report. rewrite map_map. apply map_id. Qed.
Lemma wle_names : forall ir rr idn ref n, In n (map wl_name (wle_report ir rr idn ref)) <-> In n (dkeys idn) \/ In n (dkeys ref).
Proof. intros. rewrite wle_line_names, isort_In, (set_union_In _ string_eqb_iff). reflexivity. Qed.
Lemma wle_NoDup : forall ir rr idn ref, NoDup (map wl_name (wle_report ir rr idn ref)).
Proof. intros. rewrite wle_line_names. apply isort_NoDup, (set_union_NoDup _ string_eqb_iff). Qed.
Lemma wle_line_is : forall ir rr idn ref l, In l (wle_report ir rr idn ref) ->
  wl_result l = compare_wle (map ch_cp (rep_iter ir)) (dget String.eqb (wl_name l) idn) (dget String.eqb (wl_name l) ref)
                            (context_of (idn_contexts ir) (wl_name l)) (context_of (ref_contexts rr) (wl_name l)).
Proof. intros ir rr idn ref l H. unfold wle_report in H. apply in_map_iff in H. destruct H as (n & <- & _). reflexivity. Qed.
Lemma no_ranges_iter : forall r ch, wf_rep r -> no_ranges r -> (In ch (rep_iter r) <-> In ch (all_chars r)).
Proof.
  intros r ch Hr Hn. destruct (iter_general r Hr) as (_ & _ & H3 & H4). split; [apply H3|]. intros H. apply H4; [exact H|].
  apply (Hn (ch_cp ch)). rewrite lookup_lk. apply in_all_chars_lk; assumption.
Qed.
Lemma rule_agree : forall ch n, truthy (ch_when ch) = false \/ truthy (ch_not_when ch) = false -> (idn_rule ch n <-> ref_rule ch n).
Proof.
  intros ch n H. unfold idn_rule, ref_rule. split; [intuition|]. intros [Hn [E | E]]; (split; [exact Hn|]); [left; exact E|].
  destruct H as [H | H]; [right; auto|]. rewrite E in H. apply truthy_some in Hn. congruence.
Qed.
Lemma wle_self : forall r rules l, wf_rep r -> no_ranges r -> one_rule r -> In l (wle_report r r rules rules) -> fst (wl_result l) = RMatch.
Proof.
  intros r rules l Hr Hn H1 Hl. assert (K : In (wl_name l) (map wl_name (wle_report r r rules rules))) by (apply in_map, Hl).
  apply wle_names in K. rewrite (wle_line_is _ _ _ _ _ Hl). destruct (dget String.eqb (wl_name l) rules) as [t|] eqn:E; [|apply (dget_None _ string_eqb_iff) in E; tauto].
  cbn [compare_wle]. rewrite String.eqb_refl. rewrite (proj2 (cps_xor_empty _ _)); [reflexivity|].
  intros x. rewrite idn_contexts_In, ref_contexts_In. split; intros (ch & Hc & Ex & Hx); exists ch.
  - split; [apply no_ranges_iter; assumption|]. split; [exact Ex|]. apply rule_agree; [|exact Hx]. apply (H1 (ch_cp ch)). rewrite lookup_lk. apply in_all_chars_lk; assumption.
  - apply (no_ranges_iter r ch Hr Hn) in Hc. split; [exact Hc|]. split; [exact Ex|]. apply rule_agree; [|exact Hx]. apply (H1 (ch_cp ch)). rewrite lookup_lk. apply in_all_chars_lk; assumption.
Qed.
(** "Subset" without ranges in the table. *)
Lemma wle_subset : forall ir rr idn ref l, wf_rep ir -> no_ranges ir -> wf_rep rr -> no_ranges rr -> In l (wle_report ir rr idn ref) ->
  (fst (wl_result l) = RSubset <->
   dget String.eqb (wl_name l) idn = None /\ (exists c ch, lookup rr c = Some ch /\ ref_rule ch (wl_name l)) /\
   forall c ch, lookup rr c = Some ch -> ref_rule ch (wl_name l) -> lookup ir c = None).
Proof.
  intros ir rr idn ref l Hi Ni Hr Nr Hl. rewrite (wle_line_is _ _ _ _ _ Hl).
  assert (C : forall c, In c (context_of (ref_contexts rr) (wl_name l)) <-> exists ch, lookup rr c = Some ch /\ ref_rule ch (wl_name l)).
  { intros c. rewrite ref_contexts_In. split.
    - intros (ch & Hc & <- & H). apply (no_ranges_iter rr ch Hr Nr) in Hc. exists ch. split; [rewrite lookup_lk; apply in_all_chars_lk; assumption | exact H].
    - intros (ch & L & H). rewrite lookup_lk in L. pose proof (lk_cp _ _ _ L) as E. exists ch. split; [|auto]. apply no_ranges_iter; [exact Hr | exact Nr|]. apply in_all_chars_lk; [exact Hr | rewrite E; exact L]. }
  assert (D : forall c, In c (map ch_cp (rep_iter ir)) <-> lookup ir c <> None).
  { intros c. rewrite in_map_iff. split.
    - intros (ch & <- & Hc). apply (no_ranges_iter ir ch Hi Ni) in Hc. apply in_all_chars_lk in Hc; [|exact Hi]. rewrite lookup_lk, Hc. discriminate.
    - intros H. destruct (lookup ir c) as [ch|] eqn:L; [|congruence]. rewrite lookup_lk in L. pose proof (lk_cp _ _ _ L) as E. exists ch. split; [exact E|].
      apply no_ranges_iter; [exact Hi | exact Ni|]. apply in_all_chars_lk; [exact Hi | rewrite E; exact L]. }
  destruct (dget String.eqb (wl_name l) idn) as [t|] eqn:E.
  - split; [|intros (H & _); discriminate H]. destruct (dget String.eqb (wl_name l) ref); cbn [compare_wle]; [|discriminate].
    destruct (String.eqb _ _); [|discriminate]. destruct (nonempty _); discriminate.
  - cbn [compare_wle]. destruct (nonempty (context_of (ref_contexts rr) (wl_name l))) eqn:En.
    + destruct (nonempty (set_inter cps_eqb (map ch_cp (rep_iter ir)) (context_of (ref_contexts rr) (wl_name l)))) eqn:Ei.
      * split; [discriminate|]. intros (_ & _ & H). exfalso. apply nonempty_iff in Ei. destruct Ei as (c & Hc). apply (set_inter_In _ cps_eqb_eq) in Hc. destruct Hc as [H1 H2].
        apply C in H2. destruct H2 as (ch & L & R). apply D in H1. apply H1. apply (H c ch L R).
      * split; [intros _ | reflexivity]. split; [reflexivity|]. split.
        -- apply nonempty_iff in En. destruct En as (c & Hc). apply C in Hc. destruct Hc as (ch & L & R). exists c, ch. auto.
        -- intros c ch L R. destruct (lookup ir c) eqn:Li; [|reflexivity]. exfalso. rewrite nonempty_false in Ei. apply (Ei c). apply (set_inter_In _ cps_eqb_eq). split.
           ++ apply D. congruence.
           ++ apply C. exists ch. auto.
    + split; [discriminate|]. intros (_ & (c & ch & L & R) & _). exfalso. rewrite nonempty_false in En. apply (En c). apply C. exists ch. auto.
Qed.

(** ** Is a label made of the table's entries? *)
Fixpoint each_char (f : nat) (r : repertoire) (label rest : cps) (l : list char) (result : bool) : res bool :=
  match l with
  | [] => Ok result
  | ch :: l' =>
      if is_seq ch then
        if prefixb (ch_cp ch) label
        then bind (label_in f r (skipn (List.length (ch_cp ch)) label)) (fun b => each_char f r label rest l' (result || b)%bool)
        else each_char f r label rest l' result
      else match rest with
           | [] => Ok true
           | _ :: _ => bind (label_in f r rest) (fun b => each_char f r label rest l' (result || b)%bool)
           end
  end.
Lemma label_in_unfold : forall f r x rest, label_in (S f) r (x :: rest) =
  match get_chars_from_prefix r x false with
  | Raise (NotInLGR _) => Ok false
  | Raise e => Raise e
  | Ok chars => each_char f r (x :: rest) rest chars false
  end.
Proof.
  intros f r x rest. cbn [label_in]. destruct (get_chars_from_prefix r x false) as [chars|e]; [|reflexivity].
  generalize false. induction chars as [|ch chars IH]; intros b; [reflexivity|]. cbn [each_char].
  destruct (is_seq ch).
  - destruct (prefixb (ch_cp ch) (x :: rest)); [|apply IH]. destruct (label_in f r (skipn (List.length (ch_cp ch)) (x :: rest))); [cbn [bind]; apply IH | reflexivity].
  - destruct rest; [reflexivity|]. destruct (label_in f r (n :: rest)); [cbn [bind]; apply IH | reflexivity].
Qed.
Lemma made_of_nil : forall r, made_of r [].
Proof. intros r. exists []. split; [intros ? [] | reflexivity]. Qed.
Lemma made_of_step : forall r label, wf_rep r -> label <> [] ->
  (made_of r label <-> exists ch, entry r ch /\ prefixb (ch_cp ch) label = true /\ made_of r (skipn (List.length (ch_cp ch)) label)).
Proof.
  intros r label Hr Hl. split.
  - intros (l & He & <-). destruct l as [|ch l]; [contradiction|]. exists ch. cbn [map concat]. split; [apply He; left; reflexivity|]. split.
    + apply prefixb_spec. exists (concat (map ch_cp l)). reflexivity.
    + rewrite skipn_app, skipn_all, Nat.sub_diag. cbn [skipn app]. exists l. split; [intros c Hc; apply He; right; exact Hc | reflexivity].
  - intros (ch & He & Hp & l & Hl' & E). apply prefixb_spec in Hp. destruct Hp as (t & Et). exists (ch :: l). split.
    + intros c [<- | Hc]; [exact He | apply Hl', Hc].
    + cbn [map concat]. rewrite E, Et, skipn_app, skipn_all, Nat.sub_diag. reflexivity.
Qed.
Definition answers (r : repertoire) (label : cps) (x : res bool) : Prop :=
  match x with Ok b => label <> [] /\ (b = true <-> made_of r label) | Raise e => e = IndexError /\ exists ch, entry r ch /\ is_seq ch = true end.
Lemma entry_wf : forall r ch, wf_rep r -> entry r ch -> wf_char ch.
Proof. intros r ch Hr He. apply entry_lk in He. apply (lk_wf _ _ _ Hr He). Qed.
Lemma not_seq_single : forall ch, wf_char ch -> is_seq ch = false -> exists x, ch_cp ch = [x].
Proof. intros ch [_ W] H. unfold is_seq in H. destruct (ch_kind ch); [exact W | discriminate H | destruct W as (_ & (x & E & _) & _); exists x; exact E]. Qed.
Lemma each_char_spec : forall f r x rest l result, wf_rep r ->
  (forall lab, (List.length lab <= List.length rest)%nat -> lab <> [] -> answers r lab (label_in f r lab)) ->
  (exists g, f = S g) ->
  (forall ch, In ch l -> entry r ch /\ exists t, ch_cp ch = x :: t) ->
  match each_char f r (x :: rest) rest l result with
  | Ok b => b = true <-> result = true \/ exists ch, In ch l /\ prefixb (ch_cp ch) (x :: rest) = true /\ made_of r (skipn (List.length (ch_cp ch)) (x :: rest))
  | Raise e => e = IndexError /\ exists ch, entry r ch /\ is_seq ch = true
  end.
Proof.
  intros f r x rest l. induction l as [|ch l IH]; intros result Hr Hrec Hf Hl.
  - cbn [each_char]. split; [intros H; left; exact H | intros [H | (ch & [] & _)]; exact H].
  - assert (Hl' : forall c, In c l -> entry r c /\ exists t, ch_cp c = x :: t) by (intros c Hc; apply Hl; right; exact Hc).
    destruct (Hl ch (or_introl eq_refl)) as (He & t & Et). cbn [each_char].
    destruct (is_seq ch) eqn:Es.
    + destruct (prefixb (ch_cp ch) (x :: rest)) eqn:Ep.
      * assert (Hs : (List.length (skipn (List.length (ch_cp ch)) (x :: rest)) <= List.length rest)%nat).
        { rewrite skipn_length, Et. cbn [List.length]. lia. }
        destruct (skipn (List.length (ch_cp ch)) (x :: rest)) as [|y s] eqn:Ek.
        -- destruct Hf as (g & ->). cbn [label_in bind]. split; [reflexivity|]. exists ch. auto.
        -- pose proof (Hrec (y :: s) Hs ltac:(discriminate)) as Hx. destruct (label_in f r (y :: s)) as [b|e]; cbn [bind answers] in *; [|exact Hx].
           destruct Hx as [_ Hx]. specialize (IH (result || b)%bool Hr Hrec Hf Hl').
           destruct (each_char f r (x :: rest) rest l (result || b)); [|exact IH]. rewrite IH, Bool.orb_true_iff, Hx, <- Ek. split.
           ++ intros [[H|H] | (c & Hc & H)]; [left; exact H | right; exists ch; split; [left; reflexivity | split; assumption] | right; exists c; split; [right; exact Hc | exact H]].
           ++ intros [H | (c & [<-|Hc] & H1 & H2)]; [left; left; exact H | left; right; exact H2 | right; exists c; auto].
      * specialize (IH result Hr Hrec Hf Hl'). destruct (each_char f r (x :: rest) rest l result); [|exact IH]. rewrite IH. split.
        -- intros [H | (c & Hc & H)]; [left; exact H | right; exists c; split; [right; exact Hc | exact H]].
        -- intros [H | (c & [<-|Hc] & H1 & H2)]; [left; exact H | congruence | right; exists c; auto].
    + destruct (not_seq_single ch (entry_wf r ch Hr He) Es) as (z & Ez). rewrite Et in Ez. injection Ez as -> ->.
      destruct rest as [|y s].
      * split; [intros _; right | reflexivity]. exists ch. split; [left; reflexivity|]. rewrite Et. split; [apply prefixb_spec; exists []; reflexivity | cbn [List.length skipn]; apply made_of_nil].
      * pose proof (Hrec (y :: s) (le_n _) ltac:(discriminate)) as Hx. destruct (label_in f r (y :: s)) as [b|e]; cbn [bind answers] in *; [|exact Hx].
        destruct Hx as [_ Hx]. specialize (IH (result || b)%bool Hr Hrec Hf Hl').
        destruct (each_char f r (z :: y :: s) (y :: s) l (result || b)); [|exact IH]. rewrite IH, Bool.orb_true_iff, Hx. split.
        -- intros [[H|H] | (c & Hc & H)]; [left; exact H | right; exists ch; split; [left; reflexivity | rewrite Et; split; [apply prefixb_spec; exists (y :: s); reflexivity | exact H]] | right; exists c; split; [right; exact Hc | exact H]].
        -- intros [H | (c & [<-|Hc] & H1 & H2)]; [left; left; exact H | left; right; rewrite Et in H2; exact H2 | right; exists c; auto].
Qed.
Lemma label_in_answers : forall r, wf_rep r -> forall f lab, (List.length lab < f)%nat -> lab <> [] -> answers r lab (label_in f r lab).
Proof.
  intros r Hr. induction f as [|f IH]; intros lab Hf Hn; [lia|]. destruct lab as [|x rest]; [contradiction|].
  rewrite label_in_unfold. cbn [List.length] in Hf.
  pose proof (prefix_cases r x Hr) as Hp. destruct (get_chars_from_prefix r x false) as [chars|e] eqn:Eg.
  - destruct Hp as (Hp & _ & _).
    assert (Hs : exists g, f = S g) by (destruct f; [lia | eauto]).
    pose proof (each_char_spec f r x rest chars false Hr (fun lab Hl Hne => IH lab ltac:(lia) Hne) Hs (fun ch Hc => proj1 (Hp ch) Hc)) as He.
    destruct (each_char f r (x :: rest) rest chars false) as [b|e]; [|exact He]. split; [discriminate|].
    rewrite He, (made_of_step r (x :: rest) Hr Hn). split.
    + intros [H | (ch & Hc & H1 & H2)]; [discriminate H|]. exists ch. split; [apply Hp, Hc | split; assumption].
    + intros (ch & Hc & H1 & H2). right. exists ch. split; [|split; assumption]. apply Hp. split; [exact Hc|].
      destruct (ch_cp ch) as [|y t] eqn:Ec; [apply entry_nonempty in Hc; contradiction|].
      apply prefixb_spec in H1. destruct H1 as (s & Es). injection Es as -> _. exists t. reflexivity.
  - assert (Hno : ~ made_of r (x :: rest)).
    { intros H. apply (made_of_step r _ Hr Hn) in H. destruct H as (ch & Hc & H1 & _).
      destruct (ch_cp ch) as [|y t] eqn:Ec; [apply entry_nonempty in Hc; contradiction|].
      apply prefixb_spec in H1. destruct H1 as (s & Es). injection Es as -> _. apply (Hp ch Hc t Ec). }
    assert (He : exists c, e = NotInLGR c).
    { unfold get_chars_from_prefix in Eg. destruct (dget N.eqb x (rep_chars r)); [discriminate Eg|]. injection Eg as <-. eauto. }
    destruct He as (c & ->). split; [discriminate|]. split; [discriminate | intros H; contradiction].
Qed.
(** The check never runs out of steps; its answer, when it gives one, is right. *)
Theorem label_answer : forall r label, wf_rep r -> label <> [] ->
  match check_label_in r label with
  | Ok b => b = true <-> made_of r label
  | Raise e => e = IndexError /\ exists ch, entry r ch /\ is_seq ch = true
  end.
Proof.
  intros r label Hr Hl. pose proof (label_in_answers r Hr (S (List.length label)) label ltac:(lia) Hl) as H.
  unfold check_label_in. destruct (label_in (S (List.length label)) r label); [apply H | exact H].
Qed.
