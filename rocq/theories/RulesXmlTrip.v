(** Writing the rules of an LGR and reading them back. *)
From Verif Require Import Base BaseFacts ClassModel ClassSpec ClassProofs ClassFinal RuleModel RuleTable ActionModel
  Rfc7940Model SerialModel RulesXmlModel RulesXmlSpec RulesXmlClass RulesXmlRule RulesXmlFinal RulesXmlSection RulesXmlDoc.
Open Scope string_scope.
Open Scope list_scope.

(** ** Names of elements *)
Lemma qualified_back : forall e, qualified e -> in_default_ns (drop_ns e) = e.
Proof.
  intro e. induction e as [s n a t ch IH] using xelem_induct. intro Q. inversion Q as [e0 Q1 Q2]; subst. cbn [x_space x_children] in Q1, Q2.
  cbn [drop_ns in_default_ns]. f_equal; [destruct s; [reflexivity|contradiction|reflexivity]|]. clear Q Q1.
  induction ch as [|x ch IHc]; [reflexivity|]. inversion IH as [|? ? I1 I2]; subst. inversion Q2 as [|? ? K1 K2]; subst. cbn [map]. rewrite (I1 K1), (IHc I2 K2). reflexivity.
Qed.
Lemma qualified_all : forall l, Forall qualified l -> map in_default_ns (map drop_ns l) = l.
Proof. intros l H. induction H as [|e l He Hl IH]; [reflexivity|]. cbn [map]. rewrite IH, qualified_back by exact He. reflexivity. Qed.
Lemma qualified_filter : forall f l, Forall qualified l -> Forall qualified (filter f l).
Proof. intros f l H. apply Forall_forall. intros x Hx. apply filter_In in Hx. destruct Hx as [Hx _]. revert x Hx. apply Forall_forall. exact H. Qed.

(** ** Patterns under larger tables of classes *)
Definition steady (look look' : table) : Prop :=
  (forall n c, dget String.eqb n look = Some c -> dget String.eqb n look' = Some c) /\
  (forall t, dget String.eqb (tag_classname t) look' = dget String.eqb (tag_classname t) look).
Lemma class_set_steady : forall u look look', steady look look' -> forall fuel,
  (forall c s, class_set u look fuel c = Ok s -> class_set u look' fuel c = Ok s) /\
  (forall l acc s, union_set u look fuel l acc = Ok s -> union_set u look' fuel l acc = Ok s).
Proof.
  intros u look look' [S1 S2]. induction fuel as [|f [IH1 IH2]]; [split; discriminate|]. split.
  - intros c s H. destruct c as [n [b|] [t|] [p|] l|n op l]; cbn [class_set] in *; try exact H;
      try (destruct (dget String.eqb b look) as [c'|] eqn:E; [rewrite (S1 _ _ E); apply IH1; exact H|discriminate]);
      try (rewrite S2; destruct (dget String.eqb (tag_classname t) look) as [c'|] eqn:E; [apply IH1; exact H|exact H]).
    destruct op; [destruct l as [|c1 l]; [discriminate|]; destruct (class_set u look f c1) as [s1|] eqn:E; cbn [bind] in H; [rewrite (IH1 _ _ E); exact H|discriminate]| |..];
      try (apply IH2; exact H);
      (destruct l as [|c1 [|c2 l]]; [discriminate|destruct (class_set u look f c1); cbn [bind] in H; discriminate|];
       destruct (class_set u look f c1) as [s1|] eqn:E; cbn [bind] in H; [|discriminate]; rewrite (IH1 _ _ E); cbn [bind];
       destruct (class_set u look f c2) as [s2|] eqn:E2; cbn [bind] in H; [|discriminate]; rewrite (IH1 _ _ E2); exact H).
  - intros l acc s H. destruct l as [|c l]; [exact H|].
    change (bind (class_set u look f c) (fun s0 => union_set u look f l (fun x => acc x || s0 x)%bool) = Ok s) in H.
    change (bind (class_set u look' f c) (fun s0 => union_set u look' f l (fun x => acc x || s0 x)%bool) = Ok s). destruct (class_set u look f c) as [s1|] eqn:E; cbn [bind] in H; [|discriminate].
    rewrite (IH1 _ _ E). cbn [bind]. apply IH2. exact H.
Qed.
Section Steps.
  Variable u : unidb.
  Variable look : table.
  Variable rules : rtable.
  Notation mpat := (mpat u look rules).
  Notation mpats := (mpats u look rules).
  Notation rpat := (rpat u look rules).
  Lemma mpat_step : forall f lb m k, mpat (S f) lb m k =
    match m with
    | MStart => (k, Ok [TStart])
    | MEnd => (k, Ok [TEnd])
    | MAnchor => (k, Ok [TAnchor])
    | MAny n => (k, Ok (TDot :: count_tokens lb n))
    | MChar l n => (k, Ok (grouped lb n (map TChar l)))
    | MClass c n => (k, bind (class_pattern u look f c) (fun p => Ok (grouped lb n p)))
    | MChoice n alts =>
        let '(k1, x) := mpats f lb alts k in
        (k1, bind x (fun ps => Ok (TOpenNC :: TOpenNC :: alternatives ps ++ TClose :: TClose :: count_tokens lb n)))
    | MAhead l => let '(k1, x) := mpats f false l k in (k1, bind x (fun ps => Ok (TAhead :: List.concat ps ++ [TClose])))
    | MBehind l => let '(k1, x) := mpats f true l k in (k1, bind x (fun ps => Ok (TBehind :: List.concat ps ++ [TClose])))
    | MRule r n => let '(k1, x) := rpat f lb r k in (k1, bind x (fun p => Ok (grouped lb n p)))
    end.
  Proof. reflexivity. Qed.
  Lemma mpats_step : forall f lb l k, mpats (S f) lb l k =
    match l with
    | [] => (k, Ok [])
    | m :: l' =>
        let '(k1, x) := mpat f lb m k in
        match x with
        | Raise e => (k1, Raise e)
        | Ok p => let '(k2, y) := mpats f lb l' k1 in (k2, bind y (fun ps => Ok (p :: ps)))
        end
    end.
  Proof. reflexivity. Qed.
  Lemma rpat_step : forall f lb r k, rpat (S f) lb r k =
    match dget key_eqb (r_id r, lb) k with
    | Some p => (k, Ok p)
    | None =>
        match r_by_ref r with
        | Some b => match dget String.eqb b rules with None => (k, Raise (RuleError b)) | Some r' => rpat f lb r' k end
        | None =>
            let '(k1, x) := mpats f lb (r_children r) k in
            match x with
            | Raise e => (k1, Raise e)
            | Ok ps => (dset key_eqb (r_id r, lb) (List.concat ps) k1, Ok (List.concat ps))
            end
        end
    end.
  Proof. reflexivity. Qed.
End Steps.
Lemma pattern_steady : forall u look look' rules, steady look look' -> forall fuel,
  (forall lb m k k' p, mpat u look rules fuel lb m k = (k', Ok p) -> mpat u look' rules fuel lb m k = (k', Ok p)) /\
  (forall lb l k k' p, mpats u look rules fuel lb l k = (k', Ok p) -> mpats u look' rules fuel lb l k = (k', Ok p)) /\
  (forall lb r k k' p, rpat u look rules fuel lb r k = (k', Ok p) -> rpat u look' rules fuel lb r k = (k', Ok p)).
Proof.
  intros u look look' rules S. induction fuel as [|f [IH1 [IH2 IH3]]]; [repeat split; intros; discriminate|]. split; [|split].
  - intros lb m k k' p H. destruct m as [| | |n|l n|c n|n l|l|l|r n]; rewrite mpat_step in H |- *; try exact H.
    + unfold class_pattern in *. destruct (class_set u look f c) as [s|] eqn:E; cbn [bind] in H; [|discriminate]. rewrite (proj1 (class_set_steady u _ _ S f) _ _ E). exact H.
    + destruct (mpats u look rules f lb l k) as [k1 [ps|]] eqn:E; cbn [bind] in H; [|discriminate]. rewrite (IH2 _ _ _ _ _ E). exact H.
    + destruct (mpats u look rules f false l k) as [k1 [ps|]] eqn:E; cbn [bind] in H; [|discriminate]. rewrite (IH2 _ _ _ _ _ E). exact H.
    + destruct (mpats u look rules f true l k) as [k1 [ps|]] eqn:E; cbn [bind] in H; [|discriminate]. rewrite (IH2 _ _ _ _ _ E). exact H.
    + destruct (rpat u look rules f lb r k) as [k1 [ps|]] eqn:E; cbn [bind] in H; [|discriminate]. rewrite (IH3 _ _ _ _ _ E). exact H.
  - intros lb l k k' p H. rewrite mpats_step in H |- *. destruct l as [|m l]; [exact H|]. destruct (mpat u look rules f lb m k) as [k1 [q|]] eqn:E; [|discriminate].
    rewrite (IH1 _ _ _ _ _ E). destruct (mpats u look rules f lb l k1) as [k2 [ps|]] eqn:E2; cbn [bind] in H; [|discriminate]. rewrite (IH2 _ _ _ _ _ E2). exact H.
  - intros lb r k k' p H. rewrite rpat_step in H |- *. destruct (dget key_eqb (r_id r, lb) k); [exact H|]. destruct (r_by_ref r) as [b|].
    + destruct (dget String.eqb b rules) as [r'|]; [|exact H]. apply IH3. exact H.
    + destruct (mpats u look rules f lb (r_children r) k) as [k1 [ps|]] eqn:E; [|discriminate]. rewrite (IH2 _ _ _ _ _ E). exact H.
Qed.

(** Later classes may stand in the table when a rule is read. *)
Definition room_for (db : option unidb) (look look' : table) : Prop :=
  (forall n, dget String.eqb n look <> None -> dget String.eqb n look' <> None) /\
  match db with Some _ => steady look look' | None => True end.
Section Move.
  Variable db : option unidb.
  Variables look look' : table.
  Variable rules : rtable.
  Variable fuel : nat.
  Hypothesis HR : room_for db look look'.
  Lemma precalculate_move : forall r s s1 t, precalculate db look rules fuel r s = Ok s1 -> alike s t ->
    exists t1, precalculate db look' rules fuel r t = Ok t1 /\ alike s1 t1.
  Proof.
    intros r s s1 t H [A1 A2]. unfold precalculate in *. destruct HR as [_ HS]. destruct db as [u|].
    - rewrite <- A2. destruct (rpat u look rules fuel true r (rd_cache s)) as [k1 [p|]] eqn:E; cbn [bind] in H; [|discriminate].
      rewrite (proj2 (proj2 (pattern_steady u _ _ rules HS fuel)) _ _ _ _ _ E). cbn [bind].
      destruct (rpat u look rules fuel false r k1) as [k2 [q|]] eqn:E2; cbn [bind] in H; [|discriminate].
      rewrite (proj2 (proj2 (pattern_steady u _ _ rules HS fuel)) _ _ _ _ _ E2). cbn [bind]. injection H as <-. eexists. split; [reflexivity|]. split; [exact A1|reflexivity].
    - injection H as <-. eexists. split; [reflexivity|]. split; assumption.
  Qed.
  Definition moves (e : xelem) : Prop := forall s s1 o t, parse_helper db look rules fuel e s = Ok (s1, o) -> alike s t ->
    exists t1, parse_helper db look' rules fuel e t = Ok (t1, o) /\ alike s1 t1.
  Lemma items_move : forall l, Forall moves l -> forall refuse s s1 ms t, parse_items db look rules fuel refuse l s = Ok (s1, ms) -> alike s t ->
    exists t1, parse_items db look' rules fuel refuse l t = Ok (t1, ms) /\ alike s1 t1.
  Proof.
    intros l H. induction H as [|e l He Hl IH]; intros refuse s s1 ms t K A; cbn [parse_items] in *.
    - injection K as <- <-. exists t. split; [reflexivity|exact A].
    - destruct (parse_helper db look rules fuel e s) as [[s2 o]|] eqn:E; cbn [bind fst snd] in K; [|discriminate].
      destruct (He _ _ _ _ E A) as [t2 [E2 A2]]. rewrite E2. cbn [bind fst snd]. destruct o as [m|].
      + destruct refuse; [discriminate|]. destruct (parse_items db look rules fuel false l s2) as [[s3 ms3]|] eqn:E3; cbn [bind fst snd] in K; [|discriminate].
        injection K as <- <-. destruct (IH _ _ _ _ _ E3 A2) as [t3 [E4 A3]]. rewrite E4. exists t3. split; [reflexivity|exact A3].
      + exact (IH _ _ _ _ _ K A2).
  Qed.
  Lemma helper_move : forall e, moves e.
  Proof.
    intro e. induction e as [sp n a tx ch IH] using xelem_induct. set (e := XElem sp n a tx ch). change ch with (x_children e) in IH. clearbody e.
    intros s s1 o t H A. rewrite parse_helper_eq in H |- *. cbv zeta in *.
    assert (HI : forall refuse s s1 ms t, parse_items db look rules fuel refuse (x_children e) s = Ok (s1, ms) -> alike s t ->
      exists t1, parse_items db look' rules fuel refuse (x_children e) t = Ok (t1, ms) /\ alike s1 t1) by (intros; eapply items_move; eassumption).
    destruct (has_tag "anchor" e); [injection H as <- <-; eexists; split; [reflexivity|exact A]|].
    destruct (has_tag "any" e); [injection H as <- <-; eexists; split; [reflexivity|exact A]|].
    destruct (has_tag "char" e). { destruct (elem_cps e) as [x|]; cbn [bind] in *; [|discriminate]. injection H as <- <-; eexists; split; [reflexivity|exact A]. }
    destruct (has_tag "choice" e).
    { destruct (parse_items _ _ _ _ false (x_children e) s) as [[s2 ms]|] eqn:E; cbn [bind fst snd] in H; [|discriminate]. injection H as <- <-.
      destruct (HI _ _ _ _ _ E A) as [t1 [E1 A1]]. rewrite E1. eexists. split; [reflexivity|exact A1]. }
    destruct (has_tag "end" e); [injection H as <- <-; eexists; split; [reflexivity|exact A]|].
    destruct (has_tag "look-ahead" e).
    { destruct (parse_items _ _ _ _ false (x_children e) s) as [[s2 ms]|] eqn:E; cbn [bind fst snd] in H; [|discriminate]. injection H as <- <-.
      destruct (HI _ _ _ _ _ E A) as [t1 [E1 A1]]. rewrite E1. eexists. split; [reflexivity|exact A1]. }
    destruct (has_tag "look-behind" e).
    { destruct (parse_items _ _ _ _ false (x_children e) s) as [[s2 ms]|] eqn:E; cbn [bind fst snd] in H; [|discriminate]. injection H as <- <-.
      destruct (HI _ _ _ _ _ E A) as [t1 [E1 A1]]. rewrite E1. eexists. split; [reflexivity|exact A1]. }
    destruct (has_tag "start" e); [injection H as <- <-; eexists; split; [reflexivity|exact A]|].
    destruct (has_tag "rule" e).
    { unfold parse_rule_body in *. destruct A as [A1 A2]. rewrite <- A1, <- A2. destruct (new_rule (rd_next s) _ _) as [r|]; cbn [bind] in *; [|discriminate].
      destruct (parse_items _ _ _ _ _ (x_children e) (mkRead (S (rd_next s)) (rd_cache s) (rd_results s))) as [[s2 ms]|] eqn:E; cbn [bind fst snd] in H; [|discriminate].
      destruct (HI _ _ _ _ (mkRead (S (rd_next s)) (rd_cache s) (rd_results t)) E) as [t2 [E2 A3]]; [split; reflexivity|]. rewrite E2. cbn [bind fst snd].
      match type of H with context[precalculate db look rules fuel ?R s2] => destruct (precalculate db look rules fuel R s2) as [s3|] eqn:E3 end; cbn [bind fst snd] in H; [|discriminate].
      destruct (precalculate_move _ _ _ _ E3 A3) as [t3 [E4 A4]]. rewrite E4. injection H as <- <-. eexists. split; [reflexivity|exact A4]. }
    destruct (class_tag e). { destruct (parse_class e) as [x|]; cbn [bind] in *; [|discriminate]. injection H as <- <-; eexists; split; [reflexivity|exact A]. }
    injection H as <- <-. eexists. split; [reflexivity|exact A].
  Qed.
  Lemma rule_move : forall e s s1 r t, parse_rule db look rules fuel e s = Ok (s1, r) -> alike s t ->
    exists t1, parse_rule db look' rules fuel e t = Ok (t1, r) /\ alike s1 t1.
  Proof.
    intros e s s1 r t H A. unfold parse_rule in *. destruct (parse_helper db look rules fuel e s) as [[s2 o]|] eqn:E; cbn [bind fst snd] in H; [|discriminate].
    destruct (helper_move _ _ _ _ _ E A) as [t2 [E2 A2]]. rewrite E2. cbn [bind fst snd]. destruct o as [[]|]; try discriminate. injection H as <- <-. eexists. split; [reflexivity|exact A2].
  Qed.
End Move.

(** ** The three parts *)
Lemma not_class_rule : forall e, has_tag "rule" e = true -> class_tag e = false.
Proof. intros e T. destruct (class_tag e) eqn:Q; [apply tags_apart in Q; destruct Q; congruence|reflexivity]. Qed.
Lemma not_class_action : forall e, has_tag "action" e = true -> class_tag e = false /\ has_tag "rule" e = false.
Proof.
  intros e T. split; [destruct (class_tag e) eqn:Q; [apply tags_apart in Q; destruct Q; congruence|reflexivity]|].
  destruct (has_tag "rule" e) eqn:Q; [apply rule_not_action in Q; congruence|reflexivity].
Qed.
Definition names_of (l : list xelem) : list (option string) := map (fun e => x_get e "name") l.
Ltac fields := cbn [ru_classes ru_class_names ru_rules ru_rule_names ru_actions ru_classes_xml ru_rules_xml ru_actions_xml] in *.
Lemma classes_again : forall db fuel force l g s g' s' h t, process_rules db fuel force l g s = Ok (g', s') -> ru_classes h = ru_classes g ->
  process_rules db fuel force (class_elems l) h t =
  Ok (mkRules (ru_classes g') (ru_class_names h ++ names_of (class_elems l)) (ru_rules h) (ru_rule_names h) (ru_actions h)
              (ru_classes_xml h ++ map drop_ns (class_elems l)) (ru_rules_xml h) (ru_actions_xml h), t).
Proof.
  intros db fuel force. unfold class_elems, names_of. induction l as [|e l IH]; intros g s g' s' h t H Eh.
  - injection H as <- <-. cbn [filter map process_rules]. rewrite !app_nil_r, <- Eh. destruct h; reflexivity.
  - apply process_cons in H. destruct H as [g1 [s1 [E H]]]. cbn [filter]. rewrite named_class. destruct E as [c T E V|r s1 T E V|a T E|U].
    + rewrite T. apply process_cons. eexists. exists t. split; [apply (el_class _ _ _ _ _ _ c T E); rewrite Eh; exact V|].
      erewrite IH; [|exact H|rewrite Eh; reflexivity]. fields. cbn [map]. rewrite <- !app_assoc. reflexivity.
    + rewrite (not_class_rule _ T). eapply IH; [exact H|exact Eh].
    + rewrite (proj1 (not_class_action _ T)). eapply IH; [exact H|exact Eh].
    + apply unknown_section in U. destruct U as [U _]. rewrite U. eapply IH; [exact H|exact Eh].
Qed.
Lemma rules_again : forall db fuel force l g s g' s' h t, process_rules db fuel force l g s = Ok (g', s') ->
  (forall pre post g1 s1, l = pre ++ post -> process_rules db fuel force pre g s = Ok (g1, s1) -> room_for db (ru_classes g1) (ru_classes h)) ->
  ru_rules h = ru_rules g -> alike s t -> exists t',
  process_rules db fuel force (rule_elems l) h t =
  Ok (mkRules (ru_classes h) (ru_class_names h) (ru_rules g') (ru_rule_names h ++ names_of (rule_elems l)) (ru_actions h)
              (ru_classes_xml h) (ru_rules_xml h ++ map drop_ns (rule_elems l)) (ru_actions_xml h), t') /\ alike s' t'.
Proof.
  intros db fuel force. unfold rule_elems, names_of. induction l as [|e l IH]; intros g s g' s' h t H HR Eh A.
  - injection H as <- <-. cbn [filter map process_rules]. rewrite !app_nil_r, <- Eh. exists t. split; [destruct h; reflexivity|exact A].
  - apply process_cons in H. destruct H as [g1 [s1 [E H]]]. cbn [filter]. rewrite named_one.
    assert (HR' : forall pre post g2 s2, l = pre ++ post -> process_rules db fuel force pre g1 s1 = Ok (g2, s2) -> room_for db (ru_classes g2) (ru_classes h)).
    { intros pre post g2 s2 -> Hp. apply (HR (e :: pre) post g2 s2); [reflexivity|]. apply process_cons. eauto. }
    pose proof (HR [] (e :: l) g s eq_refl eq_refl) as HR0. destruct E as [c T E V|r s1 T E V|a T E|U].
    + rewrite (proj1 (tags_apart _ T)). exact (IH _ _ _ _ h t H HR' Eh A).
    + rewrite T. destruct (rule_move _ _ _ (ru_rules g) fuel HR0 _ _ _ _ _ E A) as [t1 [E1 A1]].
      destruct (IH _ _ _ _ (mkRules (ru_classes h) (ru_class_names h) (match x_get e "name" with Some n => dset String.eqb n r (ru_rules h) | None => ru_rules h end)
               (ru_rule_names h ++ [x_get e "name"]) (ru_actions h) (ru_classes_xml h) (ru_rules_xml h ++ [drop_ns e]) (ru_actions_xml h)) t1 H HR') as [t' [K A']]; [fields; rewrite Eh; reflexivity|exact A1|].
      exists t'. split; [|exact A']. apply process_cons. eexists. exists t1. split; [apply el_rule; [exact T|rewrite Eh; exact E1|]|].
      * intro F. rewrite Eh. eapply valid_rule_more; [exact (proj1 HR0)| |exact (V F)]; auto.
      * rewrite K. fields. cbn [map]. rewrite <- !app_assoc. reflexivity.
    + rewrite (proj2 (not_class_action _ T)). exact (IH _ _ _ _ h t H HR' Eh A).
    + apply unknown_section in U. destruct U as [_ [U _]]. rewrite U. destruct A as [A1 A2]. apply (IH _ _ _ _ h t H HR' Eh). split; [exact A1|exact A2].
Qed.
Lemma actions_again : forall db fuel force l g s g' s' h t, process_rules db fuel force l g s = Ok (g', s') -> ru_actions h = ru_actions g ->
  process_rules db fuel force (action_elems l) h t =
  Ok (mkRules (ru_classes h) (ru_class_names h) (ru_rules h) (ru_rule_names h) (ru_actions g')
              (ru_classes_xml h) (ru_rules_xml h) (ru_actions_xml h ++ map drop_ns (action_elems l)), t).
Proof.
  intros db fuel force. unfold action_elems. induction l as [|e l IH]; intros g s g' s' h t H Eh.
  - injection H as <- <-. cbn [filter map process_rules]. rewrite !app_nil_r, <- Eh. destruct h; reflexivity.
  - apply process_cons in H. destruct H as [g1 [s1 [E H]]]. cbn [filter]. rewrite named_one. destruct E as [c T E V|r s1 T E V|a T E|U].
    + rewrite (proj2 (tags_apart _ T)). eapply IH; [exact H|exact Eh].
    + rewrite (rule_not_action _ T). eapply IH; [exact H|exact Eh].
    + rewrite T. apply process_cons. eexists. exists t. split; [apply (el_action _ _ _ _ _ _ a T E)|].
      erewrite IH; [|exact H|rewrite Eh; reflexivity]. fields. cbn [map]. rewrite <- !app_assoc. reflexivity.
    + apply unknown_section in U. destruct U as [_ [_ U]]. rewrite U. eapply IH; [exact H|exact Eh].
Qed.

Lemma reordered : forall db fuel force l g s g' s' t, process_rules db fuel force l g s = Ok (g', s') ->
  (forall pre post g1 s1, l = pre ++ post -> process_rules db fuel force pre g s = Ok (g1, s1) -> room_for db (ru_classes g1) (ru_classes g')) ->
  alike s t -> exists t', process_rules db fuel force (class_elems l ++ rule_elems l ++ action_elems l) g t = Ok (g', t') /\ alike s' t'.
Proof.
  intros db fuel force l g s g' s' t H HR A. rewrite !process_app. rewrite (classes_again _ _ _ _ _ _ _ _ g t H eq_refl). cbn [bind fst snd].
  match goal with |- context[process_rules db fuel force (rule_elems l ++ _) ?h t] => set (h1 := h) end.
  rewrite process_app. destruct (rules_again _ _ _ _ _ _ _ _ h1 t H HR eq_refl A) as [t' [K A']]. rewrite K. cbn [bind fst snd].
  exists t'. split; [|exact A']. erewrite actions_again; [|exact H|reflexivity]. subst h1. fields.
  destruct (section_read _ _ _ _ _ _ _ _ H) as [_ [H2 [_ [H4 [_ [H6 [H7 H8]]]]]]]. unfold names_of. rewrite <- H2, <- H4, <- H6, <- H7, <- H8. destruct g'; reflexivity.
Qed.

(** What is written of a section: its classes, rules and actions. *)
Lemma written : forall db fuel force l g s g' s', process_rules db fuel force l g s = Ok (g', s') -> Forall qualified l ->
  ru_classes_xml g = [] -> ru_rules_xml g = [] -> ru_actions_xml g = [] ->
  serialize_rules g' = class_elems l ++ rule_elems l ++ action_elems l.
Proof.
  intros db fuel force l g s g' s' H Q X1 X2 X3. destruct (section_read _ _ _ _ _ _ _ _ H) as [_ [_ [_ [_ [_ [H6 [H7 H8]]]]]]].
  unfold serialize_rules. rewrite H6, H7, H8, X1, X2, X3. cbn [app]. rewrite !map_app, !qualified_all by (apply qualified_filter; exact Q). reflexivity.
Qed.
Lemma classes_grow : forall db fuel force l g s g' s', process_rules db fuel force l g s = Ok (g', s') ->
  forall n, dget String.eqb n (ru_classes g) <> None -> dget String.eqb n (ru_classes g') <> None.
Proof.
  intros db fuel force l g s g' s' H n Hn. destruct (section_read _ _ _ _ _ _ _ _ H) as [D _]. destruct (D n) as [[e [c [_ [_ K]]]]|[_ K]]; congruence.
Qed.
Theorem roundtrip_plain : forall fuel force l g s g' s' t, process_rules None fuel force l g s = Ok (g', s') -> Forall qualified l ->
  ru_classes_xml g = [] -> ru_rules_xml g = [] -> ru_actions_xml g = [] -> alike s t ->
  exists t', process_rules None fuel force (serialize_rules g') g t = Ok (g', t') /\ alike s' t'.
Proof.
  intros fuel force l g s g' s' t H Q X1 X2 X3 A. rewrite (written _ _ _ _ _ _ _ _ H Q X1 X2 X3). eapply reordered; [exact H| |exact A].
  intros pre post g1 s1 El Hp. split; [|exact I]. subst l. rewrite process_app, Hp in H. cbn [bind fst snd] in H. intro n. eapply classes_grow. exact H.
Qed.
Lemma class_elems_app : forall l l', class_elems (l ++ l') = class_elems l ++ class_elems l'.
Proof. intros l l'. unfold class_elems. apply filter_app. Qed.
Theorem roundtrip_patterns : forall u fuel force l g s g' s' t, process_rules (Some u) fuel force l g s = Ok (g', s') -> Forall qualified l ->
  ru_classes_xml g = [] -> ru_rules_xml g = [] -> ru_actions_xml g = [] -> new_names (ru_classes g) l -> alike s t ->
  exists t', process_rules (Some u) fuel force (serialize_rules g') g t = Ok (g', t') /\ alike s' t'.
Proof.
  intros u fuel force l g s g' s' t H Q X1 X2 X3 HN A. rewrite (written _ _ _ _ _ _ _ _ H Q X1 X2 X3). eapply reordered; [exact H| |exact A].
  intros pre post g1 s1 El Hp. subst l. rewrite process_app, Hp in H. cbn [bind fst snd] in H. split; [intro n; eapply classes_grow; exact H|].
  destruct (section_read _ _ _ _ _ _ _ _ H) as [D _]. destruct (section_read _ _ _ _ _ _ _ _ Hp) as [D1 _]. split.
  - intros n c Hc. destruct (D n) as [[e [c' [[L1 [a [b [L2 _]]]] _]]]|[_ K]]; [|congruence]. exfalso.
    assert (El : class_elems (pre ++ post) = (class_elems pre ++ a) ++ e :: b) by (rewrite class_elems_app, L2, app_assoc; reflexivity).
    destruct (HN _ _ _ _ El L1) as [N1 [_ N3]]. destruct (D1 n) as [[e1 [c1 [[M1 [a1 [b1 [M2 _]]]] _]]]|[_ K]]; [|congruence].
    apply (N3 e1); [|exact M1]. apply in_or_app. left. rewrite M2. apply in_elt.
  - intro tg. destruct (D (tag_classname tg)) as [[e [c' [[L1 [a [b [L2 _]]]] _]]]|[_ K]]; [|congruence]. exfalso.
    assert (El : class_elems (pre ++ post) = (class_elems pre ++ a) ++ e :: b) by (rewrite class_elems_app, L2, app_assoc; reflexivity).
    destruct (HN _ _ _ _ El L1) as [_ [N2 _]]. apply N2. exists tg. reflexivity.
Qed.

(** ** A database adds patterns, and failures *)
Section Without.
  Variable db : option unidb.
  Variable look : table.
  Variable rules : rtable.
  Variable fuel : nat.
  Lemma precalculate_without : forall r s s1 t, precalculate db look rules fuel r s = Ok s1 -> level s t ->
    exists t1, precalculate None look rules fuel r t = Ok t1 /\ level s1 t1.
  Proof.
    intros r s s1 t H [A1 A2]. exists t. split; [reflexivity|]. unfold precalculate in H. destruct db as [u|]; [|injection H as <-; split; assumption].
    destruct (rpat u look rules fuel true r (rd_cache s)) as [k1 [p|]]; cbn [bind] in H; [|discriminate].
    destruct (rpat u look rules fuel false r k1) as [k2 [q|]]; cbn [bind] in H; [|discriminate]. injection H as <-. split; assumption.
  Qed.
  Definition goes_without (e : xelem) : Prop := forall s s1 o t, parse_helper db look rules fuel e s = Ok (s1, o) -> level s t ->
    exists t1, parse_helper None look rules fuel e t = Ok (t1, o) /\ level s1 t1.
  Lemma items_without : forall l, Forall goes_without l -> forall refuse s s1 ms t, parse_items db look rules fuel refuse l s = Ok (s1, ms) -> level s t ->
    exists t1, parse_items None look rules fuel refuse l t = Ok (t1, ms) /\ level s1 t1.
  Proof.
    intros l H. induction H as [|e l He Hl IH]; intros refuse s s1 ms t K A; cbn [parse_items] in *.
    - injection K as <- <-. exists t. split; [reflexivity|exact A].
    - destruct (parse_helper db look rules fuel e s) as [[s2 o]|] eqn:E; cbn [bind fst snd] in K; [|discriminate].
      destruct (He _ _ _ _ E A) as [t2 [E2 A2]]. rewrite E2. cbn [bind fst snd]. destruct o as [m|].
      + destruct refuse; [discriminate|]. destruct (parse_items db look rules fuel false l s2) as [[s3 ms3]|] eqn:E3; cbn [bind fst snd] in K; [|discriminate].
        injection K as <- <-. destruct (IH _ _ _ _ _ E3 A2) as [t3 [E4 A3]]. rewrite E4. exists t3. split; [reflexivity|exact A3].
      + exact (IH _ _ _ _ _ K A2).
  Qed.
  Lemma helper_without : forall e, goes_without e.
  Proof.
    intro e. induction e as [sp n a tx ch IH] using xelem_induct. set (e := XElem sp n a tx ch). change ch with (x_children e) in IH. clearbody e.
    intros s s1 o t H A. rewrite parse_helper_eq in H |- *. cbv zeta in *.
    assert (HI : forall refuse s s1 ms t, parse_items db look rules fuel refuse (x_children e) s = Ok (s1, ms) -> level s t ->
      exists t1, parse_items None look rules fuel refuse (x_children e) t = Ok (t1, ms) /\ level s1 t1) by (intros; eapply items_without; eassumption).
    destruct (has_tag "anchor" e); [injection H as <- <-; eexists; split; [reflexivity|exact A]|].
    destruct (has_tag "any" e); [injection H as <- <-; eexists; split; [reflexivity|exact A]|].
    destruct (has_tag "char" e). { destruct (elem_cps e) as [x|]; cbn [bind] in *; [|discriminate]. injection H as <- <-; eexists; split; [reflexivity|exact A]. }
    destruct (has_tag "choice" e).
    { destruct (parse_items _ _ _ _ false (x_children e) s) as [[s2 ms]|] eqn:E; cbn [bind fst snd] in H; [|discriminate]. injection H as <- <-.
      destruct (HI _ _ _ _ _ E A) as [t1 [E1 A1]]. rewrite E1. eexists. split; [reflexivity|exact A1]. }
    destruct (has_tag "end" e); [injection H as <- <-; eexists; split; [reflexivity|exact A]|].
    destruct (has_tag "look-ahead" e).
    { destruct (parse_items _ _ _ _ false (x_children e) s) as [[s2 ms]|] eqn:E; cbn [bind fst snd] in H; [|discriminate]. injection H as <- <-.
      destruct (HI _ _ _ _ _ E A) as [t1 [E1 A1]]. rewrite E1. eexists. split; [reflexivity|exact A1]. }
    destruct (has_tag "look-behind" e).
    { destruct (parse_items _ _ _ _ false (x_children e) s) as [[s2 ms]|] eqn:E; cbn [bind fst snd] in H; [|discriminate]. injection H as <- <-.
      destruct (HI _ _ _ _ _ E A) as [t1 [E1 A1]]. rewrite E1. eexists. split; [reflexivity|exact A1]. }
    destruct (has_tag "start" e); [injection H as <- <-; eexists; split; [reflexivity|exact A]|].
    destruct (has_tag "rule" e).
    { unfold parse_rule_body in *. destruct A as [A1 A2]. rewrite <- A1. destruct (new_rule (rd_next s) _ _) as [r|]; cbn [bind] in *; [|discriminate].
      destruct (parse_items _ _ _ _ _ (x_children e) (mkRead (S (rd_next s)) (rd_cache s) (rd_results s))) as [[s2 ms]|] eqn:E; cbn [bind fst snd] in H; [|discriminate].
      destruct (HI _ _ _ _ (mkRead (S (rd_next s)) (rd_cache t) (rd_results t)) E) as [t2 [E2 A3]]; [split; [reflexivity|exact A2]|]. rewrite E2. cbn [bind fst snd].
      match type of H with context[precalculate db look rules fuel ?R s2] => destruct (precalculate db look rules fuel R s2) as [s3|] eqn:E3 end; cbn [bind fst snd] in H; [|discriminate].
      destruct (precalculate_without _ _ _ _ E3 A3) as [t3 [E4 A4]]. rewrite E4. injection H as <- <-. eexists. split; [reflexivity|exact A4]. }
    destruct (class_tag e). { destruct (parse_class e) as [x|]; cbn [bind] in *; [|discriminate]. injection H as <- <-; eexists; split; [reflexivity|exact A]. }
    injection H as <- <-. eexists. split; [reflexivity|]. destruct A as [A1 A2]. split; [exact A1|]. unfold unhandled. cbn [rd_results]. rewrite A2. reflexivity.
  Qed.
  Lemma rule_without : forall e s s1 r t, parse_rule db look rules fuel e s = Ok (s1, r) -> level s t ->
    exists t1, parse_rule None look rules fuel e t = Ok (t1, r) /\ level s1 t1.
  Proof.
    intros e s s1 r t H A. unfold parse_rule in *. destruct (parse_helper db look rules fuel e s) as [[s2 o]|] eqn:E; cbn [bind fst snd] in H; [|discriminate].
    destruct (helper_without _ _ _ _ _ E A) as [t2 [E2 A2]]. rewrite E2. cbn [bind fst snd]. destruct o as [[]|]; try discriminate. injection H as <- <-. eexists. split; [reflexivity|exact A2].
  Qed.
End Without.

Theorem database_adds : forall db fuel force l g s g' s' t, process_rules db fuel force l g s = Ok (g', s') -> level s t ->
  exists t', process_rules None fuel force l g t = Ok (g', t') /\ level s' t'.
Proof.
  intros db fuel force. induction l as [|e l IH]; intros g s g' s' t H L; [injection H as <- <-; exists t; split; [reflexivity|exact L]|].
  apply process_cons in H. destruct H as [g1 [s1 [E H]]].
  assert (K : exists t1, element_read None fuel force e g t g1 t1 /\ level s1 t1).
  { destruct E as [c T E V|r s1 T E V|a T E|U].
    - exists t. split; [apply el_class; assumption|exact L].
    - destruct (rule_without _ _ _ _ _ _ _ _ _ E L) as [t1 [E1 L1]]. exists t1. split; [apply el_rule; assumption|exact L1].
    - exists t. split; [apply el_action; assumption|exact L].
    - exists (unhandled t). split; [apply el_none; exact U|]. destruct L as [L1 L2]. split; [exact L1|]. unfold unhandled. cbn [rd_results]. rewrite L2. reflexivity. }
  destruct K as [t1 [K1 L1]]. destruct (IH _ _ _ _ t1 H L1) as [t' [K2 L2]]. exists t'. split; [apply process_cons; eauto|exact L2].
Qed.
