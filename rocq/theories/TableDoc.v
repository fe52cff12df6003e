(** Whole RFC 3743 tables. *)
From Verif Require Import Base BaseFacts CharModel RepSpec RepProofs RefModel RefProofs LgrModel LgrSpec ValidateModel UtilsModel UtilsProofs
  AnnotateModel AnnotateSpec AnnotateRead TableModel TableSpec TableScan TableParts TableEvents Table3743 TableProofs.

Lemma take_space_app : forall w t, blank w -> (forall c u, t = c :: u -> is_space c = false) -> take_space (w ++ t) = (w, t).
Proof.
  induction w as [|c w IH]; intros t Hw Ht.
  - destruct t as [|c t]; [reflexivity|]. cbn. rewrite (Ht c t eq_refl). reflexivity.
  - inversion Hw as [|? ? Hc Hw']; subst. cbn. rewrite Hc, IH; auto.
Qed.
Lemma until_hash_app : forall v t, ~ In hash_mark v -> (t = [] \/ exists x, t = hash_mark :: x) -> until_hash (v ++ t) = (v, t).
Proof.
  induction v as [|c v IH]; intros t Hv Ht.
  - destruct Ht as [->|[x ->]]; reflexivity.
  - cbn [app until_hash]. destruct (N.eqb_spec c 35) as [->|E]; [exfalso; apply Hv; left; reflexivity|].
    rewrite IH; auto. intro K. apply Hv. right. exact K.
Qed.
Lemma strip_prefix_app : forall p s, TableModel.strip_prefix p (p ++ s) = Some s.
Proof. induction p as [|a p IH]; intro s; [reflexivity|]. cbn. rewrite N.eqb_refl. apply IH. Qed.
Lemma strip_prefix_sound : forall p s r, TableModel.strip_prefix p s = Some r -> s = p ++ r.
Proof.
  induction p as [|a p IH]; intros s r H; [injection H as <-; reflexivity|]. destruct s as [|b s]; [discriminate|]. cbn in H.
  destruct (N.eqb_spec a b) as [->|E]; [|discriminate]. cbn. f_equal. apply IH. exact H.
Qed.
Lemma digit_is : forall d, digit d <-> is_digit d = true.
Proof. intro d. unfold digit, is_digit. rewrite andb_true_iff, !N.leb_le. tauto. Qed.
Lemma digit_not_space : forall d, digit d -> is_space d = false.
Proof. intros d H. apply is_hex_space. apply is_hex_iff. exists (d - 48). unfold hex_digit, digit in *. lia. Qed.
Lemma match_numbered_ok : forall word w d t, blank w -> w <> [] -> digit d ->
  match_numbered word (word ++ w ++ d :: t) = Some (d, t).
Proof.
  intros word w d t Hw Hne Hd. unfold match_numbered. rewrite strip_prefix_app.
  rewrite take_space_app; auto. 2:{ intros c u E. injection E as <- _. apply digit_not_space. exact Hd. }
  destruct w; [contradiction|]. apply digit_is in Hd. rewrite Hd. reflexivity.
Qed.
Definition remark (tail : cps) (comment : option cps) : Prop :=
  match comment with
  | None => tail = []
  | Some cm => exists w, tail = hash_mark :: w ++ cm /\ blank w /\ (forall c v, cm = c :: v -> is_space c = false)
  end.
Lemma match_comment_ok : forall tail cm, remark tail cm -> match_comment tail = cm.
Proof.
  intros tail [cm|] H; [|cbn in H; subst; reflexivity]. destruct H as [w [-> [H1 H2]]]. unfold match_comment.
  change (N.eqb hash_mark 35) with true. cbv iota. rewrite take_space_app; auto.
Qed.
Lemma remark_head : forall tail cm, remark tail cm -> tail = [] \/ exists x, tail = hash_mark :: x.
Proof. intros tail [cm|] H; [|left; exact H]. destruct H as [w [-> _]]. right. eexists. reflexivity. Qed.

Lemma match_reference_ok : forall t d value cm, reference_line t d value cm -> match_reference t = Some (d, value, cm).
Proof.
  intros t d value cm [w1 [w2 [tail [-> [Hd [H1 [H2 [H3 [H4 [H5 [H6 [H7 H8]]]]]]]]]]]].
  unfold match_reference. rewrite match_numbered_ok by auto.
  rewrite take_space_app; [|exact H3|]. 2:{ intros c u E. destruct value as [|b value]; [contradiction|]. cbn in E. injection E as <- _. eapply H7. reflexivity. }
  destruct w2 as [|b w2]; [contradiction|]. pose proof (remark_head tail cm H8) as Ht. rewrite (until_hash_app value tail H6 Ht).
  destruct value as [|v value]; [contradiction|]. rewrite (match_comment_ok tail cm H8). reflexivity.
Qed.
Lemma take_digits_ok : forall l t, Forall digit l -> take_digits (length l) (l ++ t) = Some (l, t).
Proof.
  induction l as [|c l IH]; intros t H; [reflexivity|]. inversion H as [|? ? Hc Hl]; subst. cbn [length app take_digits].
  apply digit_is in Hc. rewrite Hc, IH by exact Hl. reflexivity.
Qed.
Lemma not_reference : forall s, match_reference (txt "Version" ++ s) = None.
Proof. intro s. reflexivity. Qed.
Lemma match_version_ok : forall t d date cm, version_line t d date cm ->
  match_reference t = None /\ match_version t = Some (d, date, cm).
Proof.
  intros t d date cm [w1 [w2 [w3 [tail [-> [Hd [H1 [H2 [H3 [H4 [H5 [H6 [H7 H8]]]]]]]]]]]]].
  split; [apply not_reference|]. unfold match_version. rewrite match_numbered_ok by auto.
  rewrite take_space_app; [|exact H3|].
  2:{ intros c u E. destruct date as [|b date]; [discriminate|]. cbn in E. injection E as <- _. inversion H6; subst. apply digit_not_space. auto. }
  destruct w2 as [|b w2]; [contradiction|]. rewrite <- H5. rewrite take_digits_ok by exact H6.
  rewrite take_space_app; [|exact H7|].
  2:{ intros c u E. destruct (remark_head tail cm H8) as [->|[x ->]]; [discriminate|]. injection E as <- _. reflexivity. }
  cbn [snd]. rewrite (match_comment_ok tail cm H8). reflexivity.
Qed.
Lemma match_3743_none : forall t, (forall p rest n, t = p ++ rest -> ~ unit_of p n) -> match_3743 t = None.
Proof.
  intros t H1.
  unfold match_3743. assert (Hn : match_unit t = None).
    { destruct (match_unit t) as [[u r]|] eqn:E; auto. exfalso. unfold match_unit in E.
      assert (G : forall p s, (p = [] \/ p = [85; 43]) -> t = p ++ s -> forall d r2, match_hex s = Some (d, r2) -> False).
      { intros p s Hp Ht d r2 Hm. destruct (match_hex_total _ _ _ Hm) as [n Hn].
        assert (Hnum : number s n r2) by (apply number_match; eauto). destruct Hnum as [d' [K1 [K2 [K3 K4]]]].
        apply (H1 (p ++ d') r2 n); [rewrite Ht, K1, app_assoc; reflexivity|]. exists d'.
        split; [destruct Hp as [->| ->]; auto|auto]. }
      destruct t as [|a [|b r']].
      - destruct (match_hex []) as [[d t2]|] eqn:Em; [|discriminate]. eapply (G [] []); eauto.
      - destruct (match_hex [a]) as [[d t2]|] eqn:Em; [|discriminate]. eapply (G [] [a]); eauto.
      - destruct (N.eqb a 85 && N.eqb b 43)%bool eqn:Eu.
        + apply andb_true_iff in Eu. destruct Eu as [E1 E2]. apply N.eqb_eq in E1, E2. subst a b.
          destruct (match_hex r') as [[d t2]|] eqn:Em; [|discriminate]. eapply (G [85; 43] r'); eauto.
        + destruct (match_hex (a :: b :: r')) as [[d t2]|] eqn:Em; [|discriminate]. eapply (G [] (a :: b :: r')); eauto. }
    destruct t as [|a t]; [reflexivity|]. cbn [length match_units]. rewrite Hn. reflexivity.
Qed.
Lemma other_ignored : forall t, other_line t -> match_reference t = None /\ match_version t = None /\ match_3743 t = None.
Proof.
  intros t [H1 [H2 H3]]. split; [|split].
  - unfold match_reference, match_numbered. destruct (TableModel.strip_prefix _ t) as [r|] eqn:E; auto.
    apply strip_prefix_sound in E. exfalso. eapply H2. exact E.
  - unfold match_version, match_numbered. destruct (TableModel.strip_prefix _ t) as [r|] eqn:E; auto.
    apply strip_prefix_sound in E. exfalso. eapply H3. exact E.
  - apply match_3743_none. exact H1.
Qed.
Lemma named_ok : forall d, digit d -> ref_id_ok (named d) = true.
Proof.
  intros d H. unfold digit in H. assert (E : d = 48 \/ d = 49 \/ d = 50 \/ d = 51 \/ d = 52 \/ d = 53 \/ d = 54 \/ d = 55 \/ d = 56 \/ d = 57) by lia.
  repeat (destruct E as [->|E]; [vm_compute; reflexivity|]). subst d. vm_compute. reflexivity.
Qed.

Definition versioned (m : table_meta) (v : option (N * cps * option cps)) : table_meta :=
  match v with Some (d, date, cm) => mkTm (Some (d, cm)) (Some date) | None => m end.

Section Doc.
  Variable enc : cps -> string.
  Lemma one_3743_spec : forall force line evs' ver last g meta evs, good evs g -> line_3743 enc line evs' ver ->
    exists last' l g', one_3743 enc force (mkSt last g meta) line = (mkSt last' g' (versioned meta ver), Done) /\
      turns force evs evs' l /\ good l g'.
  Proof.
    intros force line evs' ver last g meta evs H Hl. unfold one_3743. destruct Hl as [Hn|t Hs Ho|t d value cm Hs Hr|t d date cm Hs Hv|t c ds pref others Hs Hr].
    - destruct (data_line line) as [t|] eqn:E; [apply data_line_states in E; exfalso; eapply Hn; eauto|].
      exists last, evs, g. split; [reflexivity|]. split; [constructor|exact H].
    - apply data_line_states in Hs. rewrite Hs. destruct (other_ignored _ Ho) as [-> [-> ->]].
      exists last, evs, g. split; [reflexivity|]. split; [constructor|exact H].
    - apply data_line_states in Hs. rewrite Hs, (match_reference_ok _ _ _ _ Hr). cbn [st_last st_lgr st_meta versioned].
      eexists _, _, _. split; [reflexivity|].
      assert (Hid : ref_id_ok (named d) = true) by (apply named_ok; destruct Hr as [? [? [? [_ [Hd _]]]]]; exact Hd).
      split; [|exact (add_ref_event force evs g (named d) (enc value) (option_map enc cm) H Hid)].
      apply turns_one. left. split; [reflexivity|exact I].
    - apply data_line_states in Hs. rewrite Hs. destruct (match_version_ok _ _ _ _ Hv) as [-> ->].
      exists last, evs, g. split; [reflexivity|]. split; [constructor|exact H].
    - apply data_line_states in Hs. rewrite Hs. destruct (row_not_header _ _ _ _ _ Hr) as [-> [-> Hm]].
      destruct (match_3743 t) as [x|]; [|contradiction]. destruct (row_spec force t c ds pref others last g meta evs H Hr) as [l [g' [K1 K2]]].
      exists (Some c), l, g'. auto.
  Qed.
  Lemma doc_3743_spec : forall force lines evs' vers, file_3743 enc lines evs' vers -> forall last g meta evs, good evs g ->
    exists last' l g', doc_3743 enc force (mkSt last g meta) lines =
      (mkSt last' g' (fold_left (fun m v => versioned m (Some v)) vers meta), Done) /\ turns force evs evs' l /\ good l g'.
  Proof.
    intros force lines evs' vers H. induction H as [|line lines evs1 ver evs2 vers H1 H2 IH]; intros last g meta evs H.
    - exists last, evs, g. split; [reflexivity|]. split; [constructor|exact H].
    - destruct (one_3743_spec force _ _ _ last g meta evs H H1) as [last1 [l1 [g1 [K1 [K0 K2]]]]]. cbn [doc_3743]. rewrite K1.
      destruct (IH last1 g1 (versioned meta ver) _ K2) as [last2 [l2 [g2 [K3 [K4 K5]]]]]. exists last2, l2, g2.
      split; [|split; [eapply turns_app; eauto|exact K5]]. rewrite K3. destruct ver as [v|]; reflexivity.
  Qed.

  Theorem table_3743 : forall force allow lines evs vers, file_3743 enc lines evs vers ->
    exists st l, parse_3743 enc force allow lines = (st, Done) /\ lgr_reachable (st_lgr st) /\
      heeded force evs l /\ holds l (st_lgr st) /\
      st_meta st = match rev vers with [] => mkTm None None | (d, date, cm) :: _ => mkTm (Some (d, cm)) (Some date) end.
  Proof.
    intros force allow lines evs vers H.
    destruct (doc_3743_spec force _ _ _ H None _ (mkTm None None) [] (good_start allow)) as [last [l [g [K1 [K0 [K2 [_ [K3 _]]]]]]]].
    exists (mkSt last g (fold_left (fun m v => versioned m (Some v)) vers (mkTm None None))), l.
    split; [exact K1|]. split; [exact K2|]. split; [|split; [exact K3|]].
    - exact (turns_heeded _ _ _ _ K0 [] (he_none force)).
    - cbn [st_meta]. clear. destruct vers as [|[[d date] cm] vers _] using rev_ind; [reflexivity|]. rewrite fold_left_app, rev_app_distr. reflexivity.
  Qed.

  (** With force, what a file asks for is never refused: the variants of a row
      follow its character. *)
  Lemma follows : forall lines evs vers, file_3743 enc lines evs vers ->
    forall pre c v ty refs post, evs = pre ++ EVar c v ty refs :: post -> exists x, In x pre /\ about_cp c x.
  Proof.
    intros lines evs vers H. induction H as [|line lines evs1 ver evs2 vers H1 H2 IH]; intros pre c v ty refs post E.
    - destruct pre; discriminate.
    - assert (Hs : forall a b : list event, a ++ b = pre ++ EVar c v ty refs :: post ->
         (exists q, a = pre ++ EVar c v ty refs :: q) \/ (exists q, pre = a ++ q /\ b = q ++ EVar c v ty refs :: post)).
      { clear. induction pre as [|p pre IHp]; intros a b E; destruct a as [|x a]; cbn [app] in E.
        - right. exists []. auto.
        - left. injection E as -> _. eexists. reflexivity.
        - right. exists (p :: pre). auto.
        - injection E as -> E. destruct (IHp _ _ E) as [[q ->]|[q [-> ->]]]; [left; exists q; auto|right; exists q; auto]. }
      destruct (Hs _ _ E) as [[q Hq]|[q [-> Hq]]].
      + destruct H1 as [| | | |t d ds pref others Hst Hr]; try (destruct pre as [|? [|? ?]]; discriminate).
        destruct pre as [|p pre]; [discriminate|]. cbn [app] in Hq. injection Hq as <- Hq. exists (ECp d (map named ds)).
        split; [left; reflexivity|]. exists (map named ds). f_equal.
        assert (Hi : In (EVar c v ty refs) (asked_variants d (Some "activated"%string) pref ++ asked_variants d None others)).
        { rewrite Hq. apply in_or_app. right. left. reflexivity. }
        unfold asked_variants in Hi. apply in_app_or in Hi.
        destruct Hi as [Hi|Hi]; apply in_map_iff in Hi; destruct Hi as [? [Hi _]]; congruence.
      + destruct (IH _ _ _ _ _ _ Hq) as [x [K1 K2]]. exists x. split; [apply in_or_app; auto|exact K2].
  Qed.
  Lemma heeded_force : forall evs l, heeded true evs l ->
    (forall pre c v ty refs post, evs = pre ++ EVar c v ty refs :: post -> exists x, In x pre /\ about_cp c x) -> l = evs.
  Proof.
    intros evs l H. induction H as [|evs l e H IH He|evs l e H IH He]; intro Hf; [reflexivity| |].
    - rewrite IH; auto. intros pre c v ty refs post E. apply (Hf pre c v ty refs (post ++ [e])). rewrite E, <- app_assoc. reflexivity.
    - assert (El : l = evs).
      { apply IH. intros pre c v ty refs post E. apply (Hf pre c v ty refs (post ++ [e])). rewrite E, <- app_assoc. reflexivity. }
      exfalso. apply He. destruct e as [c refs|c v ty refs|id v cm]; cbn [heeds]; [auto| |exact I].
      split; [auto|]. rewrite El. apply (Hf evs c v ty refs []). reflexivity.
  Qed.
  Theorem table_3743_force : forall allow lines evs vers, file_3743 enc lines evs vers ->
    exists st, parse_3743 enc true allow lines = (st, Done) /\ lgr_reachable (st_lgr st) /\ holds evs (st_lgr st) /\
      st_meta st = match rev vers with [] => mkTm None None | (d, date, cm) :: _ => mkTm (Some (d, cm)) (Some date) end.
  Proof.
    intros allow lines evs vers H. destruct (table_3743 true allow lines evs vers H) as [st [l [K1 [K2 [K3 [K4 K5]]]]]].
    exists st. rewrite (heeded_force _ _ K3 (follows _ _ _ H)) in K4. auto.
  Qed.
End Doc.
