(** Rules added with validation resolve; samples and counterexamples. *)
From Verif Require Import Base BaseFacts ClassModel ClassSpec ClassProofs ClassFinal RuleModel RuleSpec RegexProofs RuleProofs RuleCache RuleFinal.
Open Scope string_scope.
Open Scope list_scope.
Open Scope nat_scope.

Section Induct.
  Variable P : matcher -> Prop.
  Variable Q : rule -> Prop.
  Hypothesis Hstart : P MStart.
  Hypothesis Hend : P MEnd.
  Hypothesis Hanchor : P MAnchor.
  Hypothesis Hany : forall k, P (MAny k).
  Hypothesis Hchar : forall l k, P (MChar l k).
  Hypothesis Hclass : forall c k, P (MClass c k).
  Hypothesis Hchoice : forall k l, Forall P l -> P (MChoice k l).
  Hypothesis Hahead : forall l, Forall P l -> P (MAhead l).
  Hypothesis Hbehind : forall l, Forall P l -> P (MBehind l).
  Hypothesis Hrule : forall r k, Q r -> P (MRule r k).
  Hypothesis Hrules : forall id nm b ch, Forall P ch -> Q (Rule id nm b ch).
  Fixpoint matcher_induct (m : matcher) : P m :=
    match m with
    | MStart => Hstart | MEnd => Hend | MAnchor => Hanchor
    | MAny k => Hany k | MChar l k => Hchar l k | MClass c k => Hclass c k
    | MChoice k l => Hchoice k l ((fix all l : Forall P l := match l with [] => Forall_nil P | x :: l' => Forall_cons x (matcher_induct x) (all l') end) l)
    | MAhead l => Hahead l ((fix all l : Forall P l := match l with [] => Forall_nil P | x :: l' => Forall_cons x (matcher_induct x) (all l') end) l)
    | MBehind l => Hbehind l ((fix all l : Forall P l := match l with [] => Forall_nil P | x :: l' => Forall_cons x (matcher_induct x) (all l') end) l)
    | MRule r k => Hrule r k (rule_induct r)
    end
  with rule_induct (r : rule) : Q r :=
    match r with
    | Rule id nm b ch => Hrules id nm b ch ((fix all l : Forall P l := match l with [] => Forall_nil P | x :: l' => Forall_cons x (matcher_induct x) (all l') end) ch)
    end.
End Induct.

Definition validate_all (look : table) (rules : rtable) (l : list matcher) : res unit :=
  (fix all (l : list matcher) : res unit := match l with [] => Ok tt | x :: l' => bind (validate_matcher look rules x) (fun _ => all l') end) l.
Lemma validate_all_iff : forall look rules l, validate_all look rules l = Ok tt <-> forall m, In m l -> validate_matcher look rules m = Ok tt.
Proof.
  intros look rules. induction l as [|m l IH]; [split; [intros _ m []|reflexivity]|].
  change (validate_all look rules (m :: l)) with (bind (validate_matcher look rules m) (fun _ => validate_all look rules l)). split.
  - intros H m' Hm. destruct (validate_matcher look rules m) as [[]|e] eqn:E; [|discriminate]. cbn [bind] in H. destruct Hm as [<-|Hm]; [exact E|]. apply IH; assumption.
  - intro H. rewrite (H m (or_introl eq_refl)). cbn [bind]. apply IH. intros m' Hm. apply H. right. exact Hm.
Qed.
Lemma validate_rule_iff : forall look rules top id nm b ch, validate_rule look rules top (Rule id nm b ch) = Ok tt <->
  (forall x, b = Some x -> dget String.eqb x rules <> None) /\ (top = true <-> nm <> None) /\ forall m, In m ch -> validate_matcher look rules m = Ok tt.
Proof.
  intros look rules top id nm b ch.
  change (validate_rule look rules top (Rule id nm b ch)) with
    (bind (match b with Some b => if dmem String.eqb b rules then Ok tt else Raise (LGRFormatException INVALID_BY_REF) | None => Ok tt end) (fun _ =>
      if Bool.eqb top (match nm with Some _ => true | None => false end) then validate_all look rules ch else Raise (LGRFormatException INVALID_TOP_LEVEL_NAME))).
  rewrite <- (validate_all_iff look rules ch).
  assert (HN : Bool.eqb top (match nm with Some _ => true | None => false end) = true <-> (top = true <-> nm <> None)).
  { rewrite Bool.eqb_true_iff. destruct top, nm; split; intro H; try reflexivity; try discriminate; try (split; intro; congruence); exfalso; destruct H as [H1 H2]; [exact (H1 eq_refl eq_refl)|discriminate H2; discriminate]. }
  rewrite <- HN. destruct b as [b|].
  - unfold dmem. destruct (dget String.eqb b rules) as [r|] eqn:E; cbn [bind].
    + destruct (Bool.eqb top _); [|split; [discriminate|intros [_ [H _]]; discriminate]]. split; [intro H; split; [intros x Hx; injection Hx as Hx; subst x; congruence|auto]|tauto].
    + split; [discriminate|]. intros [H _]. exfalso. exact (H b eq_refl E).
  - cbn [bind]. destruct (Bool.eqb top _); [|split; [discriminate|intros [_ [H _]]; discriminate]]. split; [intro H; split; [discriminate|auto]|tauto].
Qed.

Theorem valid_rule_iff : forall look rules,
  (forall m, validate_matcher look rules m = Ok tt <-> valid_matcher look rules m) /\
  (forall r top, validate_rule look rules top r = Ok tt <-> valid_rule look rules top r).
Proof.
  intros look rules.
  set (P := fun m => validate_matcher look rules m = Ok tt <-> valid_matcher look rules m).
  set (Q := fun r => forall top, validate_rule look rules top r = Ok tt <-> valid_rule look rules top r).
  assert (HL : forall l, Forall P l -> (validate_all look rules l = Ok tt <-> forall m, In m l -> valid_matcher look rules m)).
  { intros l H. rewrite validate_all_iff. rewrite Forall_forall in H. split; intros K m Hm; apply (H m Hm); apply K; exact Hm. }
  assert (H1 : P MStart) by (split; [intros _; constructor; exact I|reflexivity]).
  assert (H2 : P MEnd) by (split; [intros _; constructor; exact I|reflexivity]).
  assert (H3 : P MAnchor) by (split; [intros _; constructor; exact I|reflexivity]).
  assert (H4 : forall k, P (MAny k)) by (split; [intros _; constructor; exact I|reflexivity]).
  assert (H5 : forall l k, P (MChar l k)) by (split; [intros _; constructor; exact I|reflexivity]).
  assert (H6 : forall c k, P (MClass c k)).
  { intros c k. split; [intro K; apply ok_class; apply validate_class_iff; exact K|]. intro K. inversion K as [m F| | | | |]; subst; [destruct F|]. apply validate_class_iff. assumption. }
  assert (H7 : forall k l, Forall P l -> P (MChoice k l)).
  { intros k l HF. split; [intro K; apply ok_choice; apply (HL l HF); exact K|]. intro K. inversion K as [m F| | | | |]; subst; [destruct F|]. apply (HL l HF). assumption. }
  assert (H8 : forall l, Forall P l -> P (MAhead l)).
  { intros l HF. split; [intro K; apply ok_ahead; apply (HL l HF); exact K|]. intro K. inversion K as [m F| | | | |]; subst; [destruct F|]. apply (HL l HF). assumption. }
  assert (H9 : forall l, Forall P l -> P (MBehind l)).
  { intros l HF. split; [intro K; apply ok_behind; apply (HL l HF); exact K|]. intro K. inversion K as [m F| | | | |]; subst; [destruct F|]. apply (HL l HF). assumption. }
  assert (H10 : forall r k, Q r -> P (MRule r k)).
  { intros r k HQ. split; [intro K; apply ok_mrule; apply HQ; exact K|]. intro K. inversion K as [m F| | | | |]; subst; [destruct F|]. apply HQ. assumption. }
  assert (H11 : forall id nm b ch, Forall P ch -> Q (Rule id nm b ch)).
  { intros id nm b ch HF top. rewrite validate_rule_iff. rewrite <- validate_all_iff, (HL ch HF). split.
    - intros [K1 [K2 K3]]. constructor; assumption.
    - intro K. inversion K; subst. auto. }
  split; [exact (matcher_induct P Q H1 H2 H3 H4 H5 H6 H7 H8 H9 H10 H11)|exact (rule_induct P Q H1 H2 H3 H4 H5 H6 H7 H8 H9 H10 H11)].
Qed.
Lemma resolves_more : forall u look rules rules', (forall n r, dget String.eqb n rules = Some r -> dget String.eqb n rules' = Some r) ->
  (forall m, resolves u look rules m -> resolves u look rules' m) /\ (forall r, resolves_rule u look rules r -> resolves_rule u look rules' r).
Proof.
  intros u look rules rules' H. apply (resolves_both u look rules (fun m _ => resolves u look rules' m) (fun r _ => resolves_rule u look rules' r)); intros; try (constructor; assumption).
  - eapply V_class. eassumption.
  - eapply V_by_ref; [apply H; eassumption|assumption].
Qed.
Lemma valid_resolves : forall u look rules, (forall n r, dget String.eqb n rules = Some r -> resolves_rule u look rules r) ->
  (forall m, validate_matcher look rules m = Ok tt -> (forall c, In c (classes_of_matcher m) -> exists P, denotes u look c P) -> resolves u look rules m) /\
  (forall r top, validate_rule look rules top r = Ok tt -> (forall c, In c (classes_of_rule r) -> exists P, denotes u look c P) -> resolves_rule u look rules r).
Proof.
  intros u look rules HT.
  assert (HL : forall l, Forall (fun m => validate_matcher look rules m = Ok tt -> (forall c, In c (classes_of_matcher m) -> exists P, denotes u look c P) -> resolves u look rules m) l ->
    validate_all look rules l = Ok tt -> (forall c, In c (flat_map classes_of_matcher l) -> exists P, denotes u look c P) -> forall m, In m l -> resolves u look rules m).
  { intros l HF Hv Hc m Hm. rewrite Forall_forall in HF. apply HF; [exact Hm|exact (proj1 (validate_all_iff _ _ _) Hv m Hm)|]. intros c Hin. apply Hc. apply in_flat_map. exists m. auto. }
  assert (G : (forall m, validate_matcher look rules m = Ok tt -> (forall c, In c (classes_of_matcher m) -> exists P, denotes u look c P) -> resolves u look rules m) /\
    (forall r, forall top, validate_rule look rules top r = Ok tt -> (forall c, In c (classes_of_rule r) -> exists P, denotes u look c P) -> resolves_rule u look rules r)); [|exact G].
  set (P := fun m => validate_matcher look rules m = Ok tt -> (forall c, In c (classes_of_matcher m) -> exists P, denotes u look c P) -> resolves u look rules m).
  set (Q := fun r => forall top, validate_rule look rules top r = Ok tt -> (forall c, In c (classes_of_rule r) -> exists P, denotes u look c P) -> resolves_rule u look rules r).
  assert (H1 : P MStart) by (intros _ _; constructor).
  assert (H2 : P MEnd) by (intros _ _; constructor).
  assert (H3 : P MAnchor) by (intros _ _; constructor).
  assert (H4 : forall k, P (MAny k)) by (intros k _ _; constructor).
  assert (H5 : forall l k, P (MChar l k)) by (intros l k _ _; constructor).
  assert (H6 : forall c k, P (MClass c k)) by (intros c k _ Hc; destruct (Hc c (or_introl eq_refl)) as [S HS]; eapply V_class; exact HS).
  assert (H7 : forall k l, Forall P l -> P (MChoice k l)) by (intros k l HF Hv Hc; constructor; exact (HL l HF Hv Hc)).
  assert (H8 : forall l, Forall P l -> P (MAhead l)) by (intros l HF Hv Hc; constructor; exact (HL l HF Hv Hc)).
  assert (H9 : forall l, Forall P l -> P (MBehind l)) by (intros l HF Hv Hc; constructor; exact (HL l HF Hv Hc)).
  assert (H10 : forall r k, Q r -> P (MRule r k)) by (intros r k HQ Hv Hc; constructor; exact (HQ false Hv Hc)).
  assert (H11 : forall id nm b ch, Forall P ch -> Q (Rule id nm b ch)).
  { intros id nm b ch HF top Hv Hc. apply validate_rule_iff in Hv. destruct Hv as [Hb [_ Hch]]. destruct b as [b|].
    - destruct (dget String.eqb b rules) as [r|] eqn:E; [|exfalso; exact (Hb b eq_refl E)]. exact (V_by_ref u look rules id nm b ch r E (HT b r E)).
    - constructor. apply (HL ch HF); [apply validate_all_iff; exact Hch|exact Hc]. }
  split; [exact (matcher_induct P Q H1 H2 H3 H4 H5 H6 H7 H8 H9 H10 H11)|exact (rule_induct P Q H1 H2 H3 H4 H5 H6 H7 H8 H9 H10 H11)].
Qed.

Lemma rules_run_snoc : forall look l r, rules_run look (l ++ [r]) = fst (add_rule look (rules_run look l) r false).
Proof. intros look l r. unfold rules_run. rewrite fold_left_app. reflexivity. Qed.
Theorem tidy_rules_resolve : forall u look l n r, tidy_rules u look l -> dget String.eqb n (rules_run look l) = Some r -> resolves_rule u look (rules_run look l) r.
Proof.
  intros u look l n r. revert n r. induction l as [|r0 l IH] using rev_ind; intros n r HT Hr; [discriminate|].
  assert (HT' : tidy_rules u look l) by (intros pre x post E; apply (HT pre x (post ++ [r0])); rewrite E, <- app_assoc; reflexivity).
  pose proof (fun n r => IH n r HT') as IHt. clear IH.
  destruct (HT l r0 [] eq_refl) as [H1 [H2 H3]]. rewrite rules_run_snoc in *. set (t := rules_run look l) in *.
  unfold add_rule in *. destruct (validate_rule look t true r0) as [[]|e] eqn:Ev; [|discriminate H1]. cbn [fst] in *.
  assert (Hr0 : resolves_rule u look t r0) by exact (proj2 (valid_resolves u look t IHt) r0 true Ev H3).
  destruct (r_name r0) as [nm|] eqn:En; [|exact (IHt n r Hr)].
  assert (Hext : forall m x, dget String.eqb m t = Some x -> dget String.eqb m (dset String.eqb nm r0 t) = Some x).
  { intros m x Hm. rewrite (dget_dset _ string_eqb_iff). destruct (String.eqb m nm) eqn:E; [|exact Hm]. apply String.eqb_eq in E. subst m. rewrite (H2 nm eq_refl) in Hm. discriminate. }
  apply (proj2 (resolves_more u look t _ Hext)). rewrite (dget_dset _ string_eqb_iff) in Hr. destruct (String.eqb n nm); [injection Hr as Hr; subst r; exact Hr0|exact (IHt n r Hr)].
Qed.

Lemma validate_errors : forall look rules,
  (forall m e, validate_matcher look rules m = Raise e -> exists x, e = LGRFormatException x) /\
  (forall r top e, validate_rule look rules top r = Raise e -> exists x, e = LGRFormatException x).
Proof.
  intros look rules. set (P := fun m => forall e, validate_matcher look rules m = Raise e -> exists x, e = LGRFormatException x).
  set (Q := fun r => forall top e, validate_rule look rules top r = Raise e -> exists x, e = LGRFormatException x).
  assert (HL : forall l, Forall P l -> forall e, validate_all look rules l = Raise e -> exists x, e = LGRFormatException x).
  { intros l HF. induction HF as [|m l Hm HF IH]; intros e H; [discriminate|].
    change (validate_all look rules (m :: l)) with (bind (validate_matcher look rules m) (fun _ => validate_all look rules l)) in H.
    destruct (validate_matcher look rules m) as [u|e'] eqn:E; cbn [bind] in H; [exact (IH e H)|]. injection H as <-. exact (Hm _ E). }
  assert (H1 : P MStart) by (intros e H; discriminate). assert (H2 : P MEnd) by (intros e H; discriminate).
  assert (H3 : P MAnchor) by (intros e H; discriminate). assert (H4 : forall k, P (MAny k)) by (intros k e H; discriminate).
  assert (H5 : forall l k, P (MChar l k)) by (intros l k e H; discriminate).
  assert (H6 : forall c k, P (MClass c k)) by (intros c k e H; exact (validate_class_error look c false e H)).
  assert (H7 : forall k l, Forall P l -> P (MChoice k l)) by (intros k l HF e H; exact (HL l HF e H)).
  assert (H8 : forall l, Forall P l -> P (MAhead l)) by (intros l HF e H; exact (HL l HF e H)).
  assert (H9 : forall l, Forall P l -> P (MBehind l)) by (intros l HF e H; exact (HL l HF e H)).
  assert (H10 : forall r k, Q r -> P (MRule r k)) by (intros r k HQ e H; exact (HQ false e H)).
  assert (H11 : forall id nm b ch, Forall P ch -> Q (Rule id nm b ch)).
  { intros id nm b ch HF top e H. cbn [validate_rule] in H. fold (validate_all look rules ch) in H. destruct b as [b|].
    - destruct (dmem String.eqb b rules); cbn [bind] in H; [|injection H as <-; eauto]. destruct (Bool.eqb top _); [exact (HL ch HF e H)|injection H as <-; eauto].
    - cbn [bind] in H. destruct (Bool.eqb top _); [exact (HL ch HF e H)|injection H as <-; eauto]. }
  split; [exact (matcher_induct P Q H1 H2 H3 H4 H5 H6 H7 H8 H9 H10 H11)|exact (rule_induct P Q H1 H2 H3 H4 H5 H6 H7 H8 H9 H10 H11)].
Qed.
(** add_rule: what is accepted, and what changes. *)
Theorem add_rule_spec : forall look rules r force rules' o, add_rule look rules r force = (rules', o) ->
  (o = Ok tt <-> force = true \/ valid_rule look rules true r) /\
  (o <> Ok tt -> rules' = rules /\ exists x, o = Raise (LGRFormatException x)) /\
  (o = Ok tt -> forall n, r_name r = Some n -> forall m, dget String.eqb m rules' = if String.eqb m n then Some r else dget String.eqb m rules).
Proof.
  intros look rules r force rules' o H. unfold add_rule in H. rewrite <- (proj2 (valid_rule_iff look rules)).
  assert (HS : forall n, r_name r = Some n -> forall m, dget String.eqb m (match r_name r with Some n => dset String.eqb n r rules | None => rules end) = if String.eqb m n then Some r else dget String.eqb m rules).
  { intros n Hn m. rewrite Hn. apply (dget_dset _ string_eqb_iff). }
  destruct (validate_rule look rules true r) as [[]|e] eqn:Ev; [|destruct force]; injection H as E1 E2; subst rules' o.
  - split; [split; auto|]. split; [congruence|]. intros _. exact HS.
  - split; [split; auto|]. split; [congruence|]. intros _. exact HS.
  - split; [split; [discriminate|intros [H|H]; discriminate]|]. split; [|discriminate]. intros _. split; [reflexivity|].
    destruct (proj2 (validate_errors look rules) r true e Ev) as [x ->]. eauto.
Qed.

(** ** Samples *)
Definition sample_look : table := class_run [CAdd (ClPlain (Some "A") None None None [3; 4]%N) false].
Definition tail_rule : rule := Rule 1 (Some "tail") None [MChoice None [MChar [2]%N None; MClass (cref "A") (Some (CAtLeast 1))]; MEnd].
Definition mid_rule : rule := Rule 2 (Some "mid") None
  [MBehind [MStart; MChar [1]%N (Some (CAtLeast 1))]; MAnchor; MAhead [MRule (Rule 3 None (Some "tail") []) None]].
Definition sample_rules : rtable := rules_run sample_look [tail_rule; mid_rule].
Definition sample_obj (n : nat) : option rule :=
  match n with 1 => Some tail_rule | 2 => Some mid_rule | 3 => Some (Rule 3 None (Some "tail") []) | _ => None end.
Lemma sample_rules_value : sample_rules = [("tail", tail_rule); ("mid", mid_rule)].
Proof. vm_compute. reflexivity. Qed.
Lemma sample_A : denotes sample_db sample_look (cref "A") (fun x => (x <= 40)%N /\ In x [3; 4]%N).
Proof. apply (D_by_ref _ _ None "A" None None [] (ClPlain (Some "A") None None None [3; 4]%N)); [reflexivity|]. constructor. intro x. reflexivity. Qed.
Lemma sample_tidy_rules : tidy_rules sample_db sample_look [tail_rule; mid_rule].
Proof.
  intros pre r post E. destruct pre as [|r1 [|r2 pre]]; cbn [app] in E; inversion E; subst; clear E.
  - split; [reflexivity|]. split; [intros n Hn; reflexivity|]. intros c [<-|[]]. eexists. exact sample_A.
  - split; [reflexivity|]. split; [intros n Hn; injection Hn as Hn; subst n; reflexivity|]. intros c [].
  - destruct pre; discriminate.
Qed.
Lemma sample_owned : owned_rules sample_obj sample_rules.
Proof.
  rewrite sample_rules_value. intros n r H. cbn [dget] in H. destruct (String.eqb n "tail"); [injection H as H; subst r; cbn; auto|]. destruct (String.eqb n "mid"); [injection H as H; subst r; cbn; auto 10|discriminate].
Qed.
Lemma sample_A_good : good_class sample_db sample_look (cref "A").
Proof. split; [exact I|]. intros P HP. exists 3%N. apply (denotes_unique _ _ _ _ _ HP sample_A). split; [lia|left; reflexivity]. Qed.
Lemma sample_good : good_rules sample_db sample_look sample_rules.
Proof.
  rewrite sample_rules_value. intros n r H. cbn [dget] in H.
  destruct (String.eqb n "tail").
  - injection H as H. subst r. cbn. repeat split; try discriminate; try exact (proj1 sample_A_good); try (exact (proj2 sample_A_good)). unfold max_label. lia.
  - destruct (String.eqb n "mid"); [|discriminate]. injection H as H. subst r. cbn. repeat split; try discriminate. unfold max_label. lia.
Qed.
Lemma sample_matches :
  let eval w i := snd (rule_matches sample_db sample_look sample_rules 20 mid_rule w (Some [9]%N) i []) in
  eval [1; 1; 9; 3; 4]%N 2 = Ok true /\ eval [1; 9; 2]%N 1 = Ok true /\ eval [1; 9; 2; 3]%N 1 = Ok false /\ eval [9; 3]%N 0 = Ok false /\ eval [9; 1; 9; 2]%N 2 = Ok false.
Proof. vm_compute. repeat split. Qed.

(** Counterexamples. *)
Definition tag_rule : rule := Rule 1 (Some "r") None [MClass (ClPlain None None (Some "t") None []) None].
Lemma stale_tag : exists look look' rules r label f, let k := fst (rule_matches sample_db look rules f r label None 0 []) in
  look' = set_tag_class look "t" [7]%N /\
  snd (rule_matches sample_db look' rules f r label None 0 []) = Ok true /\ snd (rule_matches sample_db look' rules f r label None 0 k) = Ok false.
Proof. exists (set_tag_class [] "t" [5]%N), (set_tag_class (set_tag_class [] "t" [5]%N) "t" [7]%N), [("r", tag_rule)], tag_rule, [7]%N, 10. vm_compute. repeat split. Qed.
Lemma stale_child : exists r r' label f, let k := fst (rule_matches sample_db [] [] f r label None 0 []) in
  rule_add_child r MEnd = Ok r' /\ r_id r' = r_id r /\
  snd (rule_matches sample_db [] [] f r' label None 0 []) = Ok false /\ snd (rule_matches sample_db [] [] f r' label None 0 k) = Ok true.
Proof. exists (Rule 1 (Some "r") None [MChar [5]%N None]), (Rule 1 (Some "r") None [MChar [5]%N None; MEnd]), [5; 6]%N, 10. vm_compute. repeat split. Qed.
Lemma stale_reference : exists look rules rules' r r2 label f, let k := fst (rule_matches sample_db look rules f r label None 0 []) in
  add_rule look rules r2 false = (rules', Ok tt) /\
  snd (rule_matches sample_db look rules' f r label None 0 []) = Ok true /\ snd (rule_matches sample_db look rules' f r label None 0 k) = Ok false.
Proof.
  exists [], (rules_run [] [Rule 1 (Some "a") None [MChar [5]%N None]; Rule 2 (Some "r") None [MRule (Rule 3 None (Some "a") []) None]]).
  eexists. exists (Rule 2 (Some "r") None [MRule (Rule 3 None (Some "a") []) None]), (Rule 4 (Some "a") None [MChar [6]%N None]), [6]%N, 10.
  split; [reflexivity|]. vm_compute. repeat split.
Qed.
Lemma empty_class_matches : exists look c rules r label f, (denotes sample_db look c (fun _ => False)) /\ r = Rule 1 (Some "r") None [MChar [5]%N None; MClass c None] /\
  snd (rule_matches sample_db look rules f r label None 0 []) = Ok true /\ ~ exists i j, rsem sample_db look rules label None r i j.
Proof.
  exists [], (lit []), [], (Rule 1 (Some "r") None [MChar [5]%N None; MClass (lit []) None]), [5]%N, 10.
  split; [constructor; intro x; split; [intros []|intros [_ []]]|]. split; [reflexivity|]. split; [vm_compute; reflexivity|].
  intros [i [j H]]. inversion H as [id nm ch i' j' Hs|]; subst. apply seq_cons_iff in Hs. destruct Hs as [x [_ Hs]]. apply seq_one in Hs. cbn [count_of] in Hs. apply (proj1 (single _ _ _)) in Hs.
  inversion Hs as [| | | | |c' k' i' y P HP H1 H2| | | |]; subst. inversion HP as [| | | |n' l' S' HS| | | | | |]; subst. apply HS in H2. destruct H2 as [_ []].
Qed.
(** A choice without members matches. *)
Lemma empty_choice_matches : exists r label f, r = Rule 1 (Some "r") None [MChoice None []] /\ valid_rule [] [] true r /\
  snd (rule_matches sample_db [] [] f r label None 0 []) = Ok true /\ ~ exists i j, rsem sample_db [] [] label None r i j.
Proof.
  exists (Rule 1 (Some "r") None [MChoice None []]), [5]%N, 10. split; [reflexivity|].
  split; [apply valid_rule_iff; vm_compute; reflexivity|]. split; [vm_compute; reflexivity|].
  intros [i [j H]]. inversion H as [id nm ch i' j' Hs|]; subst. apply seq_one in Hs. cbn [count_of] in Hs. apply (proj1 (single _ _ _)) in Hs.
  inversion Hs as [| | | | | |k' alts m i' j' Hm| | |]; subst. destruct Hm.
Qed.
(** Without an anchor, its place holder is read as text. *)
Lemma place_holder_matches : exists r label f, r = Rule 1 (Some "r") None [MAnchor] /\ label = [37; 97; 110; 99; 104; 111; 114; 115]%N /\
  snd (rule_matches sample_db [] [] f r label None 0 []) = Ok true /\ ~ exists i j, rsem sample_db [] [] label None r i j.
Proof.
  do 2 eexists. exists 10. split; [reflexivity|]. split; [reflexivity|]. split; [vm_compute; reflexivity|].
  intros [i [j H]]. inversion H as [id nm ch i' j' Hs|]; subst. apply seq_one in Hs. cbn [count_of] in Hs. apply (proj1 (single _ _ _)) in Hs.
  inversion Hs as [| |a i' Ha| | | | | | |]; subst. discriminate.
Qed.
(** A minimal count beyond the length of a label is refused by the engine in a
    look-behind, and only there. *)
Lemma long_look_behind : exists r r' label f, r = Rule 1 (Some "r") None [MBehind [MAny (Some (CAtLeast 64))]; MAnchor] /\ r' = Rule 1 (Some "r") None [MAnchor; MAhead [MAny (Some (CAtLeast 64))]] /\
  snd (rule_matches sample_db [] [] f r label (Some [5]%N) 0 []) = Raise (RuleError "r") /\
  snd (rule_matches sample_db [] [] f r' label (Some [5]%N) 0 []) = Ok false.
Proof. do 2 eexists. exists [5]%N, 10. split; [reflexivity|]. split; [reflexivity|]. vm_compute. repeat split. Qed.
(** A rule redefined by itself is accepted and never evaluates. *)
Definition self_rule : rule := Rule 2 (Some "a") None [MRule (Rule 3 None (Some "a") []) None].
Lemma self_never : forall u lb f, urpat u [] (rules_run [] [Rule 1 (Some "a") None [MChar [5]%N None]; self_rule]) f lb self_rule = Raise OutOfFuel.
Proof.
  intros u lb f. replace (rules_run [] [Rule 1 (Some "a") None [MChar [5]%N None]; self_rule]) with [("a", self_rule)] by (vm_compute; reflexivity).
  induction f as [f IH] using lt_wf_ind. destruct f as [|[|[|[|f]]]]; try reflexivity.
  change (match (match bind (urpat u [] [("a", self_rule)] f lb self_rule) (fun p => Ok (grouped lb None p)) with Raise e => Raise e | Ok p => bind (upats u [] [("a", self_rule)] (S (S f)) lb []) (fun ps => Ok (p :: ps)) end)
    with Raise e => Raise e | Ok ps => Ok (List.concat ps) end = Raise OutOfFuel). rewrite IH by lia. reflexivity.
Qed.
Lemma redefined_rule_loops : exists look l r, (forall pre x post, l = pre ++ x :: post -> snd (add_rule look (rules_run look pre) x false) = Ok tt) /\
  dget String.eqb "a" (rules_run look l) = Some r /\ forall u f label anchor index, snd (rule_matches u look (rules_run look l) f r label anchor index []) = Raise OutOfFuel.
Proof.
  exists [], [Rule 1 (Some "a") None [MChar [5]%N None]; self_rule], self_rule. split; [|split; [reflexivity|]].
  - intros pre x post E. destruct pre as [|r1 [|r2 pre]]; cbn [app] in E; inversion E; subst; clear E; [reflexivity|reflexivity|destruct pre; discriminate].
  - assert (HN : forall u lb f, urpat u [] (rules_run [] [Rule 1 (Some "a") None [MChar [5]%N None]; self_rule]) f lb self_rule = Raise OutOfFuel).
    { apply self_never. }
    intros u f label anchor index. rewrite rule_matches_verdict. apply verdict_out.
    destruct (rpat u [] (rules_run [] [Rule 1 (Some "a") None [MChar [5]%N None]; self_rule]) f false self_rule []) as [k x] eqn:E. cbn [snd].
    set (obj := fun n : nat => match n with 2 => Some self_rule | 3 => Some (Rule 3 None (Some "a") []) | _ => None end).
    assert (Ho : owned obj self_rule) by (cbn; auto).
    assert (Ht : owned_rules obj (rules_run [] [Rule 1 (Some "a") None [MChar [5]%N None]; self_rule])).
    { replace (rules_run [] [Rule 1 (Some "a") None [MChar [5]%N None]; self_rule]) with [("a", self_rule)] by (vm_compute; reflexivity).
      intros n r Hr. cbn [dget] in Hr. destruct (String.eqb n "a"); [injection Hr as Hr; subst r; exact Ho|discriminate]. }
    destruct (proj2 (proj2 (cached u [] _ obj Ht f)) false self_rule [] k x E Ho (fun id lb p H => False_ind _ ltac:(discriminate H))) as [_ [B _]].
    destruct x as [p|e]; [exfalso; destruct (B ltac:(discriminate)) as [f' Hf']; rewrite HN in Hf'; discriminate|].
    destruct e; try reflexivity; exfalso; destruct (B ltac:(discriminate)) as [f' Hf']; rewrite HN in Hf'; discriminate.
Qed.
