(** Splitting lines into their parts, and reading the characters of RFC 4290. *)
From Verif Require Import Base BaseFacts CharModel LgrModel UtilsModel UtilsProofs AnnotateModel AnnotateSpec AnnotateRead
  TableModel TableSpec TableScan.

Lemma split_on_aux_parts : forall sep s cur, ~ In sep cur ->
  exists l, split_on_aux sep cur s = l /\ parts sep (rev cur ++ s) l.
Proof.
  intros sep. induction s as [|c s IH]; intros cur Hc; cbn [split_on_aux].
  - eexists. split; [reflexivity|]. rewrite app_nil_r. split; [discriminate|]. split; [reflexivity|].
    constructor; [|constructor]. rewrite <- in_rev. exact Hc.
  - destruct (N.eqb_spec c sep) as [->|E].
    + destruct (IH [] (fun H => H)) as [l [H1 [H2 [H3 H4]]]]. rewrite H1. eexists. split; [reflexivity|].
      split; [discriminate|]. split.
      * destruct l as [|p l]; [contradiction|]. cbn [join]. f_equal. cbn [rev app] in H3. cbn [app]. f_equal. exact H3.
      * constructor; auto. rewrite <- in_rev. exact Hc.
    + destruct (IH (c :: cur)) as [l [H1 H2]]; [intros [H|H]; auto|]. exists l. split; auto.
      cbn [rev] in H2. rewrite <- app_assoc in H2. exact H2.
Qed.
Lemma split_on_is : forall sep s l, parts sep s l <-> split_on sep s = l.
Proof.
  intros sep s l. unfold split_on. split.
  - intros [H1 [H2 H3]]. subst s.
    assert (G : forall l cur, l <> [] -> Forall (fun p => ~ In sep p) l ->
              split_on_aux sep cur (join [sep] l) = match l with [] => [] | p :: r => (rev cur ++ p) :: r end).
    { clear. induction l as [|p l IH]; intros cur Hne H; [contradiction|]. inversion H as [|? ? Hp Hl]; subst.
      destruct l as [|q l].
      - cbn [join]. rewrite <- (app_nil_r p) at 1. rewrite split_on_word by exact Hp. cbn [split_on_aux].
        rewrite rev_app_distr, rev_involutive. reflexivity.
      - change (join [sep] (p :: q :: l)) with (p ++ [sep] ++ join [sep] (q :: l)). rewrite split_on_word by exact Hp.
        cbn [app split_on_aux]. rewrite N.eqb_refl. rewrite IH; [|discriminate|exact Hl].
        rewrite rev_app_distr, rev_involutive. reflexivity. }
    rewrite G; auto. destruct l; [contradiction|reflexivity].
  - intro H. destruct (split_on_aux_parts sep s [] (fun K => K)) as [l' [H1 H2]]. rewrite H in H1. subst l'. exact H2.
Qed.
Lemma parts_fun : forall sep s l l', parts sep s l -> parts sep s l' -> l = l'.
Proof. intros sep s l l' H1 H2. apply split_on_is in H1, H2. congruence. Qed.
Lemma parts_exists : forall sep s, exists p l, parts sep s (p :: l).
Proof.
  intros sep s. destruct (split_on sep s) as [|p l] eqn:E.
  - apply split_on_is in E. destruct E as [E _]. contradiction.
  - exists p, l. apply split_on_is. exact E.
Qed.

Lemma uncommented_hd : forall t u, uncommented t u <-> hd [] (split_on 35 t) = u.
Proof.
  intros t u. destruct (parts_exists 35 t) as [p [l H]]. pose proof H as H'. apply split_on_is in H'. rewrite H'. cbn [hd].
  assert (Hp : uncommented t p).
  { destruct H as [_ [-> H]]. inversion H as [|? ? Hp Hl]; subst. split; [exact Hp|]. destruct l as [|q l].
    - exists []. cbn [join]. rewrite app_nil_r. auto.
    - exists (35 :: join [35] (q :: l)). split; [reflexivity|right; eexists; reflexivity]. }
  split; [|intro E; subst; exact Hp]. intro Hu. clear H H' l.
  destruct Hp as [H1 [x [E1 H2]]], Hu as [H3 [y [E2 H4]]]. subst t. revert u H3 y E2 H4.
  induction p as [|a p IH]; intros u H3 y E2 H4.
  - destruct u as [|b u]; auto. exfalso. cbn in E2. destruct H2 as [->|[z ->]]; [discriminate|].
    injection E2 as <- _. apply H3. left. reflexivity.
  - destruct u as [|b u].
    + exfalso. cbn in E2. destruct H4 as [->|[z ->]]; [discriminate|]. injection E2 as -> _. apply H1. left. reflexivity.
    + cbn in E2. injection E2 as -> E2. f_equal. eapply IH; eauto.
      * intro K. apply H1. right. exact K.
      * intro K. apply H3. right. exact K.
Qed.
Lemma uncommented_exists : forall t, exists u, uncommented t u.
Proof. intro t. exists (hd [] (split_on 35 t)). apply uncommented_hd. reflexivity. Qed.
Lemma uncommented_fun : forall t u v, uncommented t u -> uncommented t v -> u = v.
Proof. intros t u v H1 H2. apply uncommented_hd in H1, H2. congruence. Qed.

Lemma parse_char_4290_dashed : forall s c, parse_char_4290 s = Ok c <-> dashed s c.
Proof.
  intros s c. unfold parse_char_4290, dashed.
  assert (G : forall l c, mapM_res (fun c => match match_u c with Some (d, _) => int16 d | None => Raise ValueError end) l = Ok c <->
                          Forall2 (fun p n => exists rest, token p n rest) l c).
  { clear. induction l as [|p l IH]; intro c; cbn [mapM_res].
    - split; [intro H; injection H as <-; constructor|intro H; inversion H; reflexivity].
    - split.
      + destruct (match_u p) as [[d t]|] eqn:E; [|discriminate]. destruct (match_u_token _ _ _ E) as [n [Hn Ht]]. rewrite Hn.
        cbn [bind]. destruct (mapM_res _ l) as [c'|e]; [|discriminate]. cbn [bind]. intro H. injection H as <-.
        constructor; [eauto|]. apply IH. reflexivity.
      + intro H. inversion H as [|? n ? c' [rest Ht] H']; subst. apply token_match in Ht. destruct Ht as [d [H1 H2]].
        rewrite H1, H2. cbn [bind]. apply IH in H'. rewrite H'. reflexivity. }
  split.
  - intro H. exists (split_on 45 s). split; [apply split_on_is; reflexivity|]. apply G. exact H.
  - intros [l [H1 H2]]. apply split_on_is in H1. rewrite H1. apply G. exact H2.
Qed.
Lemma parse_char_4290_none : forall s e, parse_char_4290 s = Raise e -> forall c, ~ dashed s c.
Proof. intros s e H c Hc. apply parse_char_4290_dashed in Hc. congruence. Qed.
Lemma dashed_nonempty : forall s c, dashed s c -> c <> [].
Proof. intros s c [l [[Hl _] H]] ->. inversion H; subst. contradiction. Qed.
