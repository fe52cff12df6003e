(** How reading any table ends, and what is kept then. *)
From Verif Require Import Base BaseFacts CharModel RepSpec RepProofs RefModel RefProofs LgrModel LgrSpec ValidateModel UtilsModel
  AnnotateModel AnnotateSpec AnnotateRead TableModel TableSpec TableScan TableParts TableEvents TableProofs Table3743 TableDoc.

(** ** RFC 4290 *)
Lemma asks_vars_total : forall last vars, exists evs done, asks_vars last vars evs done.
Proof.
  intros last vars. induction vars as [|var vars [evs [done IH]]]; [exists [], true; constructor|].
  destruct (parse_char_4290 var) as [v|e] eqn:Ev.
  - apply parse_char_4290_dashed in Ev. destruct last as [c|].
    + exists (EVar c v None [] :: evs), done. eapply av_variant; eauto.
    + exists [], false. eapply av_nobody; eauto.
  - exists evs, done. apply av_unreadable; [|exact IH]. intro v. eapply parse_char_4290_none; eauto.
Qed.
Lemma asks_vars_some : forall last vars evs done, asks_vars last vars evs done -> forall c, last = Some c -> done = true.
Proof. intros last vars evs done H. induction H; intros d E; eauto; congruence. Qed.
Lemma row_of : forall line, (forall t char vars, states line t -> ~ row_4290 t char vars) \/
  exists t char vars, states line t /\ row_4290 t char vars.
Proof.
  intro line. destruct (data_line line) as [t|] eqn:Et.
  2:{ left. intros t ch vs Hs. apply data_line_states in Hs. congruence. }
  pose proof Et as Hst. apply data_line_states in Hst.
  destruct (match_u t) as [[d r]|] eqn:Eu.
  2:{ left. intros t' ch vs Hs Hr. apply data_line_states in Hs. rewrite Et in Hs. injection Hs as <-.
      apply row_4290_is in Hr. destruct Hr as [Hr _]. contradiction. }
  right. destruct (split_on 124 (hd [] (split_on 35 t))) as [|char more] eqn:Es.
  { exfalso. apply split_on_is in Es. destruct Es as [Es _]. contradiction. }
  exists t, char, (match more with [] => [] | v :: _ => split_on 58 v end). split; [exact Hst|].
  apply row_4290_is. split; [congruence|]. exists more. split; [exact Es|]. destruct more; reflexivity.
Qed.
Lemma asks_4290_total : forall lines last, exists evs done, asks_4290 last lines evs done.
Proof.
  induction lines as [|line lines IH]; intro last; [exists [], true; constructor|].
  destruct (row_of line) as [Hn|[t [char [vars [Hs Hr]]]]].
  - destruct (IH last) as [evs [done K]]. exists evs, done. apply as_no_row; auto.
  - destruct (parse_char_4290 char) as [c|e] eqn:Ec.
    + apply parse_char_4290_dashed in Ec. destruct (asks_vars_total (Some c) vars) as [evs [done K]].
      pose proof (asks_vars_some _ _ _ _ K c eq_refl) as ->.
      destruct (IH (Some c)) as [evs' [done' K']]. eexists _, _. eapply as_row; eauto.
    + assert (Hno : forall c, ~ dashed char c) by (intro c; eapply parse_char_4290_none; eauto).
      destruct (asks_vars_total last vars) as [evs [[|] K]].
      * destruct (IH last) as [evs' [done' K']]. eexists _, _. eapply as_nameless; eauto.
      * exists evs, false. eapply as_stop; eauto.
Qed.

Lemma asks_vars_run : forall force last vars evs done, asks_vars last vars evs done -> forall pre g, good pre g ->
  (forall c, last = Some c -> exists e, In e pre /\ about_cp c e) ->
  exists g', vars_4290 force last g vars = (g', if done then Done else Unbound) /\ good (pre ++ evs) g'.
Proof.
  intros force last vars evs done H. induction H as [|var vars evs done Hn H IH|c v var vars evs done Hc Hv H IH|v var vars Hl Hv]; intros pre g Hg Hp.
  - exists g. rewrite app_nil_r. auto.
  - cbn [vars_4290]. destruct (parse_char_4290 var) as [v|e] eqn:Ev; [apply parse_char_4290_dashed in Ev; exfalso; eapply Hn; eauto|].
    auto.
  - cbn [vars_4290]. pose proof Hv as Hv'. apply parse_char_4290_dashed in Hv'. rewrite Hv'. subst last.
    assert (Hf : fine force pre (EVar c v None [])).
    { split; [eapply dashed_nonempty; eauto|]. split; [left; apply sound_nil|auto]. }
    destruct (add_var_event force pre g c v None [] Hg Hf) as [K1 [K2 _]]. rewrite K2.
    destruct (IH _ _ K1) as [g' [K3 K4]].
    { intros d E. destruct (Hp d E) as [e [E1 E2]]. exists e. split; [apply In_snoc; auto|exact E2]. }
    exists g'. split; [exact K3|]. rewrite <- app_assoc in K4. exact K4.
  - cbn [vars_4290]. apply parse_char_4290_dashed in Hv. rewrite Hv. subst last. exists g. rewrite app_nil_r. auto.
Qed.
Lemma row_run : forall line t char vars, states line t -> row_4290 t char vars -> forall force last g,
  one_4290 force last g line =
    let '(last', (g', o)) :=
      match parse_char_4290 char with
      | Raise _ => (last, (g, Done))
      | Ok c => (Some c, tolerated_value (lgr_add_cp g c None [] [] None None None false force))
      end in
    match o with Done => (last', vars_4290 force last' g' vars) | _ => (last', (g', o)) end.
Proof.
  intros line t char vars Hs Hr force last g. unfold one_4290. apply data_line_states in Hs. rewrite Hs.
  apply row_4290_is in Hr. destruct Hr as [Hm [more [H1 H2]]]. destruct (match_u t) as [p|]; [|contradiction].
  rewrite H1. destruct more as [|v more]; subst vars; [|reflexivity].
  destruct (parse_char_4290 char) as [c|e]; [|reflexivity].
  destruct (tolerated_value (lgr_add_cp g c None [] [] None None None false force)) as [g' [| |]]; reflexivity.
Qed.
Lemma asks_4290_run : forall force last lines evs done, asks_4290 last lines evs done -> forall pre g, good pre g ->
  (forall c, last = Some c -> exists e, In e pre /\ about_cp c e) ->
  exists g', doc_4290 force last g lines = (g', if done then Done else Unbound) /\ good (pre ++ evs) g'.
Proof.
  intros force last lines evs done H.
  induction H as [last|last line lines evs done Hn H IH|last line lines t char vars c evs evs' done Hs Hr Hc Hv H IH
                 |last line lines t char vars evs evs' done Hs Hr Hc Hv H IH|last line lines t char vars evs Hs Hr Hc Hv]; intros pre g Hg Hp.
  - exists g. rewrite app_nil_r. auto.
  - cbn [doc_4290]. assert (E : one_4290 force last g line = (last, (g, Done))); [|rewrite E; auto].
    unfold one_4290. destruct (data_line line) as [t|] eqn:Et; [|reflexivity]. destruct (match_u t) as [p|] eqn:Eu; [|reflexivity].
    destruct (split_on 124 (hd [] (split_on 35 t))) as [|char more] eqn:Es; [reflexivity|]. exfalso.
    apply data_line_states in Et. apply (Hn t char (match more with [] => [] | v :: _ => split_on 58 v end) Et).
    apply row_4290_is. split; [congruence|]. exists more. split; [exact Es|]. destruct more; reflexivity.
  - cbn [doc_4290]. rewrite (row_run _ _ _ _ Hs Hr). pose proof Hc as Hc'. apply parse_char_4290_dashed in Hc'. rewrite Hc'.
    assert (Hf : fine force pre (ECp c [])) by (split; [eapply dashed_nonempty; eauto|left; apply sound_nil]).
    destruct (add_cp_event force pre g c [] Hg Hf) as [K1 [K2 _]]. rewrite K2.
    assert (Hin : In (ECp c []) (pre ++ [ECp c []])) by (apply In_snoc; auto).
    destruct (asks_vars_run force _ _ _ _ Hv _ _ K1) as [g1 [K3 K4]].
    { intros d E. injection E as <-. exists (ECp c []). split; [exact Hin|exists []; reflexivity]. }
    rewrite K3. destruct (IH _ _ K4) as [g2 [K5 K6]].
    { intros d E. injection E as <-. exists (ECp c []). split; [apply in_or_app; auto|exists []; reflexivity]. }
    exists g2. split; [exact K5|]. rewrite <- !app_assoc in K6. exact K6.
  - cbn [doc_4290]. rewrite (row_run _ _ _ _ Hs Hr).
    destruct (parse_char_4290 char) as [c|e] eqn:Ec; [apply parse_char_4290_dashed in Ec; exfalso; eapply Hc; eauto|].
    destruct (asks_vars_run force _ _ _ _ Hv _ _ Hg Hp) as [g1 [K3 K4]]. rewrite K3. destruct (IH _ _ K4) as [g2 [K5 K6]].
    { intros d E. destruct (Hp d E) as [x [E1 E2]]. exists x. split; [apply in_or_app; auto|exact E2]. }
    exists g2. split; [exact K5|]. rewrite app_assoc. exact K6.
  - cbn [doc_4290]. rewrite (row_run _ _ _ _ Hs Hr).
    destruct (parse_char_4290 char) as [c|e] eqn:Ec; [apply parse_char_4290_dashed in Ec; exfalso; eapply Hc; eauto|].
    destruct (asks_vars_run force _ _ _ _ Hv _ _ Hg Hp) as [g1 [K3 K4]]. rewrite K3. exists g1. auto.
Qed.
Theorem any_4290 : forall lines, (exists evs done, asks_4290 None lines evs done) /\
  forall force allow evs done, asks_4290 None lines evs done ->
  exists g, parse_4290 force allow lines = (g, if done then Done else Unbound) /\ lgr_reachable g /\ holds evs g.
Proof.
  intro lines. split; [apply asks_4290_total|]. intros force allow evs done H.
  destruct (asks_4290_run force _ _ _ _ H [] _ (good_start allow)) as [g [K1 [K2 [_ [K3 _]]]]]; [discriminate|].
  exists g. auto.
Qed.
(** When it stops, there is nothing yet. *)
Lemma stops_vars : forall last vars evs done, asks_vars last vars evs done -> last = None -> evs = [].
Proof. intros last vars evs done H. induction H; intro E; auto; congruence. Qed.
Lemma stops_early : forall last lines evs done, asks_4290 last lines evs done -> done = false -> last = None /\ evs = [].
Proof.
  intros last lines evs done H.
  induction H as [last|last line lines evs done Hn H IH|last line lines t char vars c evs evs' done Hs Hr Hc Hv H IH
                 |last line lines t char vars evs evs' done Hs Hr Hc Hv H IH|last line lines t char vars evs Hs Hr Hc Hv]; intro E; auto.
  - discriminate.
  - destruct (IH E); discriminate.
  - destruct (IH E) as [-> ->]. rewrite (stops_vars _ _ _ _ Hv eq_refl). auto.
  - destruct last as [c|]; [pose proof (asks_vars_some _ _ _ _ Hv c eq_refl); discriminate|].
    split; [reflexivity|]. exact (stops_vars _ _ _ _ Hv eq_refl).
Qed.

(** ** RFC 3743, any file *)
Lemma mapM_nonempty : forall A B (f : A -> res B) l r, mapM_res f l = Ok r -> l <> [] -> r <> [].
Proof.
  intros A B f [|a l] r H Hl; [contradiction|]. cbn in H. destruct (f a); [|discriminate]. cbn in H.
  destruct (mapM_res f l); [|discriminate]. injection H as <-. discriminate.
Qed.
Lemma parse_from_nonempty : forall fuel s l, parse_char_3743_from fuel s = Ok l -> Forall (fun x => fst x <> []) l.
Proof.
  induction fuel as [|f IH]; intros s l H; [injection H as <-; constructor|]. cbn [parse_char_3743_from] in H.
  destruct s as [|a r]; [injection H as <-; constructor|].
  destruct (match_3743 (a :: r)) as [[[us ds] t]|]; [|eauto].
  destruct (sequence_values us) as [c|e] eqn:Ec; cbn [bind] in H; [|discriminate].
  destruct (parse_char_3743_from f t) as [l'|e] eqn:El; cbn [bind] in H; [|discriminate]. injection H as <-.
  constructor; [|eapply IH; eauto]. cbn [fst]. eapply mapM_nonempty; [exact Ec|].
  intro K. destruct (proj2 (split_on_is 32 us []) K) as [K' _]. contradiction.
Qed.
Definition shaped (e : event) : Prop :=
  match e with
  | ECp _ _ => True
  | EVar _ _ ty _ => ty = None \/ ty = Some "activated"%string
  | ERef _ _ _ => True
  end.
Lemma turns_heed : forall force evs es l, turns force evs es l -> Forall shaped es -> Forall shaped evs -> Forall shaped l.
Proof.
  intros force evs es l H. induction H as [evs|evs e l es l' Ht _ IH]; intros H1 H2; [exact H2|].
  inversion H1; subst. apply IH; [assumption|]. destruct Ht as [[-> _]|[-> _]]; [|exact H2]. apply Forall_app. auto.
Qed.

(** What is known between two rows. *)
Definition held (last : option cps) (evs : list event) (g : lgr) : Prop :=
  good evs g /\ Forall shaped evs /\
  (last = None -> forall c e, In e evs -> ~ about_cp c e) /\ (forall c, last = Some c -> c <> []).

Section Any.
  Variable enc : cps -> string.
  Variable force : bool.

  Lemma any_vars : forall c ty l evs g, held (Some c) evs g -> shaped (EVar c c ty []) ->
    Forall (fun x : cps * list string => fst x <> []) l ->
    exists evs' g', add_vars_3743 force c ty g l = (g', Done) /\ held (Some c) (evs ++ evs') g'.
  Proof.
    intros c ty. induction l as [|[v refs] l IH]; intros evs g H Hty Hn.
    - exists [], g. rewrite app_nil_r. split; [reflexivity|exact H].
    - inversion Hn as [|? ? Hv Hn']; subst. cbn [add_vars_3743]. destruct H as [H1 [H2 [H3 H4]]].
      destruct (var_turn force evs g c v ty refs H1 (H4 c eq_refl) Hv) as [l1 [g1 [K1 [K2 [_ K3]]]]]. rewrite K3.
      assert (Hx : exists e1, l1 = evs ++ e1 /\ Forall shaped e1).
      { destruct K1 as [[-> _]|[-> _]]; [exists [EVar c v ty refs]; split; [reflexivity|constructor; auto]|].
        exists []. rewrite app_nil_r. auto. }
      destruct Hx as [e1 [-> He]].
      assert (Hh : held (Some c) (evs ++ e1) g1).
      { split; [exact K2|]. split; [apply Forall_app; auto|]. split; [discriminate|exact H4]. }
      destruct (IH _ _ Hh Hty Hn') as [e2 [g2 [K4 K5]]].
      exists (e1 ++ e2), g2. rewrite app_assoc. auto.
  Qed.
  Lemma any_column : forall last ty col evs g, held last evs g -> ty = None \/ ty = Some "activated"%string ->
    exists evs' g' o, column_3743 force last ty g col = (g', o) /\ held last (evs ++ evs') g' /\
      (o = Done \/ (o = Unbound /\ last = None)).
  Proof.
    intros last ty col evs g H Hty.
    assert (Hsame : exists evs' g' o, (g, Done) = (g', o) /\ held last (evs ++ evs') g' /\ (o = Done \/ (o = Unbound /\ last = None))).
    { exists [], g, Done. rewrite app_nil_r. auto. }
    unfold column_3743. destruct col as [t|]; [|exact Hsame]. destruct (strip t) as [|c r]; [exact Hsame|].
    destruct (N.eqb c 35); [exact Hsame|]. unfold insert_3743. destruct last as [d|].
    - destruct (parse_char_3743 (c :: r)) as [l|e] eqn:El; [|exact Hsame].
      destruct (any_vars d ty l evs g H Hty (parse_from_nonempty _ _ _ El)) as [evs' [g' [K1 K2]]].
      exists evs', g', Done. auto.
    - exists [], g, Unbound. rewrite app_nil_r. auto.
  Qed.
  Lemma any_row : forall last g meta t evs, held last evs g ->
    exists evs' last' g' o, TableModel.row_3743 force (mkSt last g meta) t = (mkSt last' g' meta, o) /\ held last' (evs ++ evs') g' /\
      (o = Done \/ (o = Unbound /\ last' = None)).
  Proof.
    intros last g meta t evs H. unfold TableModel.row_3743. cbn [st_last st_lgr st_meta].
    set (cols := split_on 59 (strip (hd [] (split_on 35 t)))).
    assert (Hfirst : exists ev1 last1 g1, match parse_char_3743 (hd [] cols) with
        | Ok [(c, refs)] => (Some c, tolerated_value (lgr_add_cp g c None refs [] None None None false force))
        | _ => (last, (g, Done))
        end = (last1, (g1, Done)) /\ held last1 (evs ++ ev1) g1).
    { assert (Hkeep : exists ev1 last1 g1, (last, (g, Done)) = (last1, (g1, Done)) /\ held last1 (evs ++ ev1) g1).
      { exists [], last, g. rewrite app_nil_r. auto. }
      destruct (parse_char_3743 (hd [] cols)) as [[|[c refs] [|x l]]|e] eqn:El; try exact Hkeep.
      apply parse_from_nonempty in El. inversion El as [|? ? Hc _]; subst. cbn [fst] in Hc.
      destruct H as [H1 [H2 [H3 H4]]]. destruct (cp_turn force evs g c refs H1 Hc) as [l1 [g1 [K1 [K2 [K3 _]]]]]. rewrite K3.
      assert (Hx : exists e1, l1 = evs ++ e1 /\ Forall shaped e1).
      { destruct K1 as [[-> _]|[-> _]]; [exists [ECp c refs]; split; [reflexivity|repeat constructor]|].
        exists []. rewrite app_nil_r. auto. }
      destruct Hx as [e1 [-> He]]. exists e1, (Some c), g1. split; [reflexivity|]. split; [exact K2|].
      split; [apply Forall_app; auto|]. split; [discriminate|]. intros d E. injection E as <-. exact Hc. }
    destruct Hfirst as [ev1 [last1 [g1 [K1 K2]]]]. rewrite K1.
    destruct (any_column last1 (Some "activated"%string) (nth_error cols 1) _ _ K2) as [ev2 [g2 [o2 [K3 [K4 K5]]]]]; [auto|]. rewrite K3.
    destruct K5 as [->|[-> ->]].
    - destruct (any_column last1 None (nth_error cols 2) _ _ K4) as [ev3 [g3 [o3 [K6 [K7 K8]]]]]; [auto|]. rewrite K6.
      exists (ev1 ++ ev2 ++ ev3), last1, g3, o3. rewrite !app_assoc. auto.
    - exists (ev1 ++ ev2), None, g2, Unbound. rewrite app_assoc. auto.
  Qed.
  Lemma numbered_digit : forall w s d t, match_numbered w s = Some (d, t) -> is_digit d = true.
  Proof.
    intros w s d t H. unfold match_numbered in H. destruct (TableModel.strip_prefix w s) as [r|]; [|discriminate].
    destruct (take_space r) as [[|x w'] [|y r']]; try discriminate. destruct (is_digit y) eqn:E; [|discriminate].
    injection H as <- _. exact E.
  Qed.
  Lemma any_line : forall last g meta line evs, held last evs g ->
    exists evs' last' g' meta' o, one_3743 enc force (mkSt last g meta) line = (mkSt last' g' meta', o) /\
      held last' (evs ++ evs') g' /\ (o = Done \/ (o = Unbound /\ last' = None)).
  Proof.
    intros last g meta line evs H.
    assert (Hsame : forall m, exists evs' last' g' meta' o, (mkSt last g m, Done) = (mkSt last' g' meta', o) /\
      held last' (evs ++ evs') g' /\ (o = Done \/ (o = Unbound /\ last' = None))).
    { intro m. exists [], last, g, m, Done. rewrite app_nil_r. auto. }
    unfold one_3743. cbn [st_last st_lgr st_meta]. destruct (data_line line) as [t|]; [|apply Hsame].
    destruct (match_reference t) as [[[d v] cm]|] eqn:Er.
    - assert (Hd : digit d).
      { unfold match_reference in Er. destruct (match_numbered (txt "Reference") t) as [[d' r]|] eqn:En; [|discriminate].
        apply numbered_digit in En. assert (d' = d) as ->.
        { destruct (take_space r) as [[|x w] r']; [discriminate|]. destruct (until_hash r') as [[|y v'] r''].
          - destruct w; [discriminate|]. injection Er as <- _ _. reflexivity.
          - injection Er as <- _ _. reflexivity. }
        unfold is_digit in En. unfold digit. apply andb_true_iff in En. rewrite !N.leb_le in En. exact En. }
      destruct H as [H1 [H2 [H3 H4]]].
      exists [ERef (named d) (enc v) (option_map enc cm)], last. eexists _, meta, Done. split; [reflexivity|]. split; [|auto].
      split; [exact (add_ref_event force evs g (named d) (enc v) (option_map enc cm) H1 (named_ok d Hd))|].
      split; [apply Forall_app; split; [exact H2|repeat constructor]|]. split; [|exact H4].
      intros E c e He [x Hx]. apply In_snoc in He. destruct He as [He| ->]; [|discriminate]. apply (H3 E c e He). exists x. exact Hx.
    - destruct (match_version t) as [[[d date] cm]|]; [apply Hsame|]. destruct (match_3743 t); [|apply Hsame].
      destruct (any_row last g meta t evs H) as [evs' [last' [g' [o K]]]]. exists evs', last', g', meta, o. exact K.
  Qed.
  Lemma any_doc : forall lines last g meta evs, held last evs g ->
    exists evs' last' g' meta' o, doc_3743 enc force (mkSt last g meta) lines = (mkSt last' g' meta', o) /\
      held last' (evs ++ evs') g' /\ (o = Done \/ (o = Unbound /\ last' = None)).
  Proof.
    induction lines as [|line lines IH]; intros last g meta evs H.
    - exists [], last, g, meta, Done. rewrite app_nil_r. auto.
    - destruct (any_line last g meta line evs H) as [ev1 [last1 [g1 [m1 [o [K1 [K2 K3]]]]]]]. cbn [doc_3743]. rewrite K1.
      destruct K3 as [->|[-> ->]].
      + destruct (IH last1 g1 m1 _ K2) as [ev2 [last2 [g2 [m2 [o2 [J1 [J2 J3]]]]]]].
        exists (ev1 ++ ev2), last2, g2, m2, o2. rewrite app_assoc. auto.
      + exists ev1, None, g1, m1, Unbound. auto.
  Qed.

  Lemma held_start : forall allow, held None [] (new_lgr None allow).
  Proof. intro allow. split; [apply good_start|]. split; [constructor|]. split; [intros _ c e []|discriminate]. Qed.

  Theorem any_3743 : forall allow lines, exists st o, parse_3743 enc force allow lines = (st, o) /\
    lgr_reachable (st_lgr st) /\
    (o = Done \/ (o = Unbound /\ forall c, lookup (lg_rep (st_lgr st)) c = None)) /\
    (forall c ch, lookup (lg_rep (st_lgr st)) c = Some ch ->
       is_range ch = false /\ ch_comment ch = None /\ ch_tags ch = [] /\ ch_when ch = None /\ ch_not_when ch = None /\
       (forall r, In r (ch_refs ch) -> dget String.eqb r (rm_refs (lg_refs (st_lgr st))) <> None) /\
       forall u, In u (get_variants ch) -> v_comment u = None /\ v_when u = None /\ v_not_when u = None /\
         (v_type u = None \/ v_type u = Some "activated"%string) /\
         (forall r, In r (v_refs u) -> dget String.eqb r (rm_refs (lg_refs (st_lgr st))) <> None)).
  Proof.
    intros allow lines. destruct (any_doc lines None _ (mkTm None None) [] (held_start allow)) as [evs [last [g [meta [o [K1 [K2 K3]]]]]]].
    cbn [app] in K2. destruct K2 as [[Hre [Hdb [Hh Hw]]] [Hsh [Hno _]]].
    exists (mkSt last g meta), o. cbn [st_lgr]. split; [exact K1|]. split; [exact Hre|]. split.
    - destruct K3 as [->|[-> ->]]; [auto|]. right. split; [reflexivity|]. intro c.
      destruct (lookup (lg_rep g) c) as [ch|] eqn:El; [|reflexivity]. exfalso.
      destruct (proj1 (h_cp _ _ Hh c)) as [e [E1 E2]]; [congruence|]. exact (Hno eq_refl c e E1 E2).
    - assert (Hdef : forall pre post refs r, evs = pre ++ post -> In r (kept pre refs) -> dget String.eqb r (rm_refs (lg_refs g)) <> None).
      { intros pre post refs r E Hr. unfold kept in Hr. apply filter_In in Hr. destruct Hr as [_ Hr].
        apply (memb_In _ _ string_eqb_iff) in Hr.
        assert (Hr' : In r (declared evs)).
        { rewrite E. unfold declared in *. rewrite flat_map_app. apply in_or_app. auto. }
        apply (declared_dmem _ _ _ Hh) in Hr'. unfold dmem in Hr'. destruct (dget String.eqb r (rm_refs (lg_refs g))); discriminate. }
      intros c ch Hl. destruct (h_entry _ _ Hh c ch Hl) as [pre [refs [[post [E [E0 _]]] [E1 [E2 [E3 [E4 [E5 E6]]]]]]]].
      split; [exact E2|]. split; [exact E3|]. split; [exact E4|]. split; [exact E5|]. split; [exact E6|]. split.
      + intros r Hr. rewrite E1 in Hr. eapply Hdef; eauto.
      + intros u Hu. apply (h_var _ _ Hh c ch u Hl) in Hu. destruct Hu as [pre' [ty [refs' [[post' [F [F0 _]]] F1]]]].
        rewrite F1. cbn [v_comment v_when v_not_when v_type v_refs]. split; [auto|]. split; [auto|]. split; [auto|]. split.
        * rewrite Forall_forall in Hsh. assert (Hi : In (EVar c (v_cp u) ty refs') evs) by (rewrite F; apply in_or_app; right; left; auto).
          exact (Hsh _ Hi).
        * intros r Hr. eapply Hdef; eauto.
  Qed.

  (** More lines only add. *)
  Lemma holds_more : forall evs evs' g g', holds evs g -> holds (evs ++ evs') g' -> extends g g'.
  Proof.
    intros evs evs' g g' H H'.
    assert (Hmore : forall P pre x, first_with P evs pre x -> first_with P (evs ++ evs') pre x).
    { intros P pre x [post [E K]]. exists (post ++ evs'). split; [rewrite E, <- app_assoc; reflexivity|exact K]. }
    constructor.
    - intros c ch Hl. assert (Hin : lookup (lg_rep g') c <> None).
      { apply (h_cp _ _ H'). destruct (proj1 (h_cp _ _ H c)) as [e [E1 E2]]; [congruence|]. exists e. split; [apply in_or_app; auto|exact E2]. }
      destruct (lookup (lg_rep g') c) as [ch'|] eqn:El; [|contradiction]. exists ch'. split; [reflexivity|]. split.
      + destruct (h_entry _ _ H c ch Hl) as [pre [refs [E1 [E2 _]]]]. destruct (h_entry _ _ H' c ch' El) as [pre' [refs' [F1 [F2 _]]]].
        apply Hmore in E1. destruct (first_with_fun _ _ _ _ _ _ _ E1 F1) as [-> E]. injection E as ->. congruence.
      + intros u Hu. apply (h_var _ _ H c ch u Hl) in Hu. destruct Hu as [pre [ty [refs [E1 E2]]]].
        apply (h_var _ _ H' c ch' u El). exists pre, ty, refs. split; [apply Hmore; exact E1|exact E2].
    - intros id r Hr. apply (h_ref _ _ H) in Hr. destruct Hr as [pre Hr]. apply (h_ref _ _ H'). exists pre. apply Hmore. exact Hr.
  Qed.
  Lemma doc_app : forall lines more st st', doc_3743 enc force st lines = (st', Done) ->
    doc_3743 enc force st (lines ++ more) = doc_3743 enc force st' more.
  Proof.
    induction lines as [|l lines IH]; intros more st st' H; [injection H as ->; reflexivity|]. cbn [app doc_3743] in *.
    destruct (one_3743 enc force st l) as [st1 [| |]]; try discriminate. auto.
  Qed.
  Lemma doc_stop : forall lines more st st' o, doc_3743 enc force st lines = (st', o) -> o <> Done ->
    doc_3743 enc force st (lines ++ more) = (st', o).
  Proof.
    induction lines as [|l lines IH]; intros more st st' o H Ho; cbn [app doc_3743] in *; [congruence|].
    destruct (one_3743 enc force st l) as [st1 [| |]]; auto.
  Qed.
  Theorem prefix_3743 : forall allow lines more,
    extends (st_lgr (fst (parse_3743 enc force allow lines))) (st_lgr (fst (parse_3743 enc force allow (lines ++ more)))).
  Proof.
    intros allow lines more. unfold parse_3743.
    destruct (any_doc lines None _ (mkTm None None) [] (held_start allow)) as [evs [last [g [meta [o [K1 [K2 K3]]]]]]].
    rewrite K1. destruct K3 as [->|[-> _]].
    - rewrite (doc_app _ more _ _ K1). destruct (any_doc more last g meta _ K2) as [evs2 [last2 [g2 [m2 [o2 [J1 [J2 _]]]]]]]. rewrite J1.
      cbn [fst st_lgr]. eapply holds_more; [apply K2|]. apply J2.
    - rewrite (doc_stop _ more _ _ _ K1) by discriminate. cbn [fst st_lgr]. constructor; eauto.
  Qed.
End Any.

Lemma asks_app : forall last lines evs done, asks_4290 last lines evs done -> forall more,
  if done then exists last', forall evs' done', asks_4290 last' more evs' done' -> asks_4290 last (lines ++ more) (evs ++ evs') done'
  else asks_4290 last (lines ++ more) evs false.
Proof.
  intros last lines evs done H more.
  induction H as [last|last line lines evs done Hn H IH|last line lines t char vars c evs evs' done Hs Hr Hc Hv H IH
                 |last line lines t char vars evs evs' done Hs Hr Hc Hv H IH|last line lines t char vars evs Hs Hr Hc Hv]; cbn [app].
  - exists last. intros evs' done' K. exact K.
  - destruct done; [destruct IH as [last' IH]; exists last'; intros e d K|]; apply as_no_row; auto.
  - destruct done; [destruct IH as [last' IH]; exists last'; intros e d K|].
    + cbn [app]. rewrite <- app_assoc. eapply as_row; eauto.
    + eapply as_row; eauto.
  - destruct done; [destruct IH as [last' IH]; exists last'; intros e d K|].
    + rewrite <- app_assoc. eapply as_nameless; eauto.
    + eapply as_nameless; eauto.
  - eapply as_stop; eauto.
Qed.
Theorem prefix_4290 : forall force allow lines more,
  extends (fst (parse_4290 force allow lines)) (fst (parse_4290 force allow (lines ++ more))).
Proof.
  intros force allow lines more. destruct (any_4290 lines) as [[evs [done H]] Hr].
  destruct (Hr force allow evs done H) as [g [K1 [_ K2]]]. rewrite K1. pose proof (asks_app _ _ _ _ H more) as Ha. destruct done.
  - destruct Ha as [last' Ha]. destruct (asks_4290_total more last') as [evs' [done' H']].
    destruct (any_4290 (lines ++ more)) as [_ Hr']. destruct (Hr' force allow _ _ (Ha _ _ H')) as [g' [J1 [_ J2]]]. rewrite J1.
    eapply holds_more; eauto.
  - destruct (any_4290 (lines ++ more)) as [_ Hr']. destruct (Hr' force allow _ _ Ha) as [g' [J1 [_ J2]]]. rewrite J1.
    eapply (holds_more evs []); [exact K2|]. rewrite app_nil_r. exact J2.
Qed.
(** ... and what is kept when reading stops is nothing. *)
Theorem unbound_4290 : forall force allow lines, snd (parse_4290 force allow lines) = Done \/
  (snd (parse_4290 force allow lines) = Unbound /\ forall c, lookup (lg_rep (fst (parse_4290 force allow lines))) c = None).
Proof.
  intros force allow lines. destruct (any_4290 lines) as [[evs [done H]] Hr].
  destruct (Hr force allow evs done H) as [g [K1 [_ K2]]]. rewrite K1. cbn [fst snd]. destruct done; [auto|]. right. split; [reflexivity|].
  destruct (stops_early _ _ _ _ H eq_refl) as [_ ->]. intro c. destruct (lookup (lg_rep g) c) as [ch|] eqn:El; [|reflexivity]. exfalso.
  destruct (proj1 (h_cp _ _ K2 c)) as [e [[] _]]. congruence.
Qed.
