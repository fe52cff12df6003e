(** The one-per-line and RFC 4290 parsers. *)
From Verif Require Import Base BaseFacts CharModel RepSpec RepProofs RefModel LgrModel LgrSpec ValidateModel UtilsModel
  AnnotateModel AnnotateSpec AnnotateRead TableModel TableSpec TableScan TableParts TableEvents.

(** ** One sequence per line *)
Lemma line_doc_spec : forall lines evs g, good evs g ->
  exists evs' g', line_doc g lines = (g', Done) /\ good (evs ++ evs') g' /\
  forall e, In e evs' <-> exists line t c, In line lines /\ states line t /\ mentions t c /\ c <> [] /\ e = ECp c [].
Proof.
  induction lines as [|line lines IH]; intros evs g H.
  - exists [], g. rewrite app_nil_r. split; [reflexivity|]. split; [exact H|]. intro e. split; [contradiction|].
    intros [line [t [c [[] _]]]].
  - assert (Hone : exists ev1 g1, line_one g line = (g1, Done) /\ good (evs ++ ev1) g1 /\
      forall e, In e ev1 <-> exists t c, states line t /\ mentions t c /\ c <> [] /\ e = ECp c []).
    { unfold line_one. destruct (data_line line) as [t|] eqn:Et.
      - apply data_line_states in Et. set (c := ok_values (map int16 (find_u (length t) t))).
        assert (Hm : mentions t c) by (apply find_u_mentions; auto).
        assert (Hall : forall t' c', states line t' -> mentions t' c' -> t' = t /\ c' = c).
        { intros t' c' H1 H2. apply data_line_states in H1, Et. rewrite Et in H1. injection H1 as <-. split; auto.
          eapply mentions_fun; eauto. }
        destruct (cps_eq_dec c []) as [Hc|Hc].
        + exists [], g. rewrite Hc, app_nil_r. split; [|split; [exact H|]].
          * unfold lgr_add_cp, check_convert, check_convert_with. reflexivity.
          * intro e. split; [contradiction|]. intros [t' [c' [H1 [H2 [H3 _]]]]]. destruct (Hall t' c' H1 H2) as [_ ->]. contradiction.
        + destruct (add_cp_event false evs g c [] H (conj Hc (or_introl (sound_nil _)))) as [K1 [_ K2]].
          exists [ECp c []], (do_event false g (ECp c [])). split; [exact K2|]. split; [exact K1|].
          intro e. split.
          * intros [<-|[]]. exists t, c. auto.
          * intros [t' [c' [H1 [H2 [H3 ->]]]]]. destruct (Hall t' c' H1 H2) as [_ ->]. left. reflexivity.
      - exists [], g. rewrite app_nil_r. split; [reflexivity|]. split; [exact H|]. intro e. split; [contradiction|].
        intros [t [c [H1 _]]]. apply data_line_states in H1. congruence. }
    destruct Hone as [ev1 [g1 [H1 [H2 H3]]]]. destruct (IH _ _ H2) as [ev2 [g2 [H4 [H5 H6]]]].
    exists (ev1 ++ ev2), g2. cbn [line_doc]. rewrite H1, H4. split; [reflexivity|]. rewrite app_assoc. split; [exact H5|].
    intro e. rewrite in_app_iff, H3, H6. split.
    + intros [[t [c K2]]|[l [t [c [K1 K2]]]]]; [exists line, t, c|exists l, t, c]; (split; [|exact K2]); [left|right]; auto.
    + intros [l [t [c [[<-|K1] K2]]]]; [left|right]; eauto 6.
Qed.

Lemma holds_plain : forall evs g, holds evs g -> (forall e, In e evs -> forall c v, ~ about_var c v e) ->
  forall c ch, lookup (lg_rep g) c = Some ch -> get_variants ch = [].
Proof.
  intros evs g H Hn c ch Hl. destruct (get_variants ch) as [|u l] eqn:E; auto. exfalso.
  assert (Hu : In u (get_variants ch)) by (rewrite E; left; auto).
  apply (h_var _ _ H c ch u Hl) in Hu. destruct Hu as [pre [ty [refs [K _]]]]. apply first_with_In in K. destruct K as [K1 K2].
  eapply Hn; eauto.
Qed.
Lemma kept_nil : forall pre, kept pre [] = [].
Proof. reflexivity. Qed.

Theorem line_list : forall allow lines, exists g,
  parse_line_doc allow lines = (g, Done) /\ lgr_reachable g /\
  (forall c, lookup (lg_rep g) c <> None <->
             c <> [] /\ exists line t, In line lines /\ states line t /\ mentions t c) /\
  (forall c ch, lookup (lg_rep g) c = Some ch ->
     ch_comment ch = None /\ ch_refs ch = [] /\ ch_tags ch = [] /\ ch_when ch = None /\ ch_not_when ch = None /\
     is_range ch = false /\ get_variants ch = []) /\
  rm_refs (lg_refs g) = [].
Proof.
  intros allow lines. destruct (line_doc_spec lines [] _ (good_start allow)) as [evs [g [H1 [[Hre [_ [H _]]] H3]]]].
  cbn [app] in H. exists g. split; [exact H1|]. split; [exact Hre|]. split; [|split].
  - intro c. rewrite (h_cp _ _ H c). split.
    + intros [e [K1 [l K2]]]. apply H3 in K1. destruct K1 as [line [t [c' [K3 [K4 [K5 [K6 K7]]]]]]]. rewrite K2 in K7.
      injection K7 as -> _. split; [exact K6|]. eauto.
    + intros [Hc [line [t [K1 [K2 K3]]]]]. exists (ECp c []). split; [|exists []; reflexivity]. apply H3. exists line, t, c. auto.
  - intros c ch Hl. destruct (h_entry _ _ H c ch Hl) as [pre [refs [K1 [K2 [K3 [K4 [K5 [K6 K7]]]]]]]].
    apply first_with_In in K1. destruct K1 as [K1 _]. apply H3 in K1. destruct K1 as [_ [_ [c' [_ [_ [_ [_ E]]]]]]].
    injection E as _ ->. split; [exact K4|]. split; [exact K2|]. split; [exact K5|]. split; [exact K6|]. split; [exact K7|].
    split; [exact K3|]. eapply holds_plain; [exact H| |exact Hl].
    intros e He d v [ty [rf Hv]]. apply H3 in He. destruct He as [_ [_ [x [_ [_ [_ [_ E]]]]]]]. congruence.
  - destruct (rm_refs (lg_refs g)) as [|[id r] l] eqn:E; auto. exfalso.
    assert (Hg : dget String.eqb id (rm_refs (lg_refs g)) = Some r).
    { rewrite E. cbn [dget]. rewrite (proj2 (string_eqb_iff id id) eq_refl). reflexivity. }
    apply (h_ref _ _ H) in Hg. destruct Hg as [pre K]. apply first_with_In in K. destruct K as [K _]. apply H3 in K.
    destruct K as [_ [_ [x [_ [_ [_ [_ E']]]]]]]. discriminate.
Qed.

(** ** RFC 4290 *)
Lemma vars_4290_spec : forall force c vars evs g, good evs g -> (exists e, In e evs /\ about_cp c e) ->
  exists vs g', vars_4290 force (Some c) g vars = (g', Done) /\
    good (evs ++ map (fun v => EVar c v None []) vs) g' /\
    forall v, In v vs <-> exists var, In var vars /\ dashed var v.
Proof.
  intros force c. induction vars as [|var vars IH]; intros evs g H Hc.
  - exists [], g. cbn [map]. rewrite app_nil_r. split; [reflexivity|]. split; [exact H|]. intro v. split; [contradiction|].
    intros [var [[] _]].
  - cbn [vars_4290]. destruct (parse_char_4290 var) as [v|e] eqn:Ev.
    + pose proof Ev as Ed. apply parse_char_4290_dashed in Ed.
      assert (Hf : fine force evs (EVar c v None [])).
      { split; [eapply dashed_nonempty; eauto|]. split; [left; apply sound_nil|exact Hc]. }
      destruct (add_var_event force evs g c v None [] H Hf) as [K1 [K2 _]]. rewrite K2.
      destruct (IH _ _ K1) as [vs [g' [K3 [K4 K5]]]].
      { destruct Hc as [e [E1 E2]]. exists e. split; [apply In_snoc; auto|exact E2]. }
      exists (v :: vs), g'. split; [exact K3|]. split; [cbn [map]; rewrite <- app_assoc in K4; exact K4|].
      intro w. split.
      * intros [<-|Hw]; [exists var; split; [left; auto|auto]|]. apply K5 in Hw. destruct Hw as [x [E1 E2]].
        exists x. split; [right; auto|auto].
      * intros [x [[<-|E1] E2]].
        -- left. apply parse_char_4290_dashed in E2. congruence.
        -- right. apply K5. eauto.
    + destruct (IH _ _ H Hc) as [vs [g' [K3 [K4 K5]]]]. exists vs, g'. split; [exact K3|]. split; [exact K4|].
      intro w. rewrite K5. split.
      * intros [x [E1 E2]]. exists x. split; [right; auto|auto].
      * intros [x [[<-|E1] E2]]; [exfalso; eapply parse_char_4290_none; eauto|eauto].
Qed.
Lemma vars_4290_none : forall force last vars g, (forall var v, In var vars -> ~ dashed var v) ->
  vars_4290 force last g vars = (g, Done).
Proof.
  intros force last vars g. induction vars as [|var vars IH]; intro H; [reflexivity|]. cbn [vars_4290].
  destruct (parse_char_4290 var) as [v|e] eqn:Ev.
  - apply parse_char_4290_dashed in Ev. exfalso. eapply H; [left; reflexivity|exact Ev].
  - apply IH. intros x v Hx. apply H. right. exact Hx.
Qed.

(** The rows of a line, computed. *)
Lemma row_4290_is : forall t char vars, row_4290 t char vars <->
  match_u t <> None /\ exists more, split_on 124 (hd [] (split_on 35 t)) = char :: more /\
    match more with [] => vars = [] | v :: _ => split_on 58 v = vars end.
Proof.
  intros t char vars. unfold row_4290. split.
  - intros [[n [rest Ht]] [u [more [H1 [H2 H3]]]]]. split.
    + apply token_match in Ht. destruct Ht as [d [Ht _]]. congruence.
    + exists more. apply uncommented_hd in H1. rewrite H1. apply split_on_is in H2. split; [exact H2|].
      destruct more; auto. apply split_on_is; auto.
  - intros [Ht [more [H1 H2]]]. split.
    + destruct (match_u t) as [[d r]|] eqn:E; [|contradiction]. destruct (match_u_token _ _ _ E) as [n [_ Hn]]. eauto.
    + exists (hd [] (split_on 35 t)), more. split; [apply uncommented_hd; reflexivity|]. split; [apply split_on_is; exact H1|].
      destruct more; auto. apply split_on_is; auto.
Qed.


Lemma one_4290_spec : forall force last line evs g, good evs g ->
  (forall t char vars, states line t -> row_4290 t char vars -> readable_row char vars) ->
  exists last' evs' g', one_4290 force last g line = (last', (g', Done)) /\ good (evs ++ evs') g' /\
  (forall c, (exists e, In e evs' /\ about_cp c e) <->
      exists t char vars, states line t /\ row_4290 t char vars /\ dashed char c) /\
  (forall c v, (exists e, In e evs' /\ about_var c v e) <->
      exists t char vars var, states line t /\ row_4290 t char vars /\ dashed char c /\ In var vars /\ dashed var v) /\
  (forall e, In e evs' -> exists c, e = ECp c [] \/ exists v, e = EVar c v None []).
Proof.
  intros force last line evs g H Hrow. unfold one_4290.
  assert (Hnone : (forall t char vars, states line t -> ~ row_4290 t char vars) ->
    exists last' evs' g', (last, (g, Done)) = (last', (g', Done)) /\ good (evs ++ evs') g' /\
    (forall c, (exists e, In e evs' /\ about_cp c e) <->
      exists t char vars, states line t /\ row_4290 t char vars /\ dashed char c) /\
    (forall c v, (exists e, In e evs' /\ about_var c v e) <->
      exists t char vars var, states line t /\ row_4290 t char vars /\ dashed char c /\ In var vars /\ dashed var v) /\
    (forall e, In e evs' -> exists c, e = ECp c [] \/ exists v, e = EVar c v None [])).
  { intro Hn. exists last, [], g. rewrite app_nil_r. split; [reflexivity|]. split; [exact H|]. split; [|split; [|intros e []]].
    - intro c. split; [intros [e [[] _]]|]. intros [t [ch [vs [K1 [K2 _]]]]]. exfalso. eapply Hn; eauto.
    - intros c v. split; [intros [e [[] _]]|]. intros [t [ch [vs [w [K1 [K2 _]]]]]]. exfalso. eapply Hn; eauto. }
  destruct (data_line line) as [t|] eqn:Et.
  2:{ apply Hnone. intros t ch vs Hs. apply data_line_states in Hs. congruence. }
  pose proof Et as Hst. apply data_line_states in Hst.
  assert (Honly : forall t', states line t' -> t' = t).
  { intros t' Ht'. apply data_line_states in Ht'. congruence. }
  destruct (match_u t) as [[d r]|] eqn:Eu.
  2:{ apply Hnone. intros t' ch vs Hs Hr. rewrite (Honly _ Hs) in Hr. apply row_4290_is in Hr. destruct Hr as [Hr _]. contradiction. }
  destruct (split_on 124 (hd [] (split_on 35 t))) as [|char more] eqn:Es.
  { exfalso. apply split_on_is in Es. destruct Es as [Es _]. contradiction. }
  set (vars := match more with [] => [] | v :: _ => split_on 58 v end).
  assert (Hr : row_4290 t char vars).
  { apply row_4290_is. split; [congruence|]. exists more. split; [exact Es|]. subst vars. destruct more; reflexivity. }
  assert (Huniq : forall t' ch vs, states line t' -> row_4290 t' ch vs -> t' = t /\ ch = char /\ vs = vars).
  { intros t' ch vs Hs Hx. rewrite (Honly _ Hs) in *. split; [reflexivity|]. apply row_4290_is in Hx. destruct Hx as [_ [m [E1 E2]]].
    rewrite Es in E1. injection E1 as -> ->. split; [reflexivity|]. subst vars. destruct m; auto. }
  assert (Hvars : forall l g1, (match more with [] => (l, (g1, Done)) | v :: _ => (l, vars_4290 force l g1 (split_on 58 v)) end)
                  = (l, vars_4290 force l g1 vars)).
  { intros l g1. subst vars. destruct more; reflexivity. }
  destruct (parse_char_4290 char) as [c|e] eqn:Ec.
  - pose proof Ec as Hd. apply parse_char_4290_dashed in Hd.
    assert (Hf : fine force evs (ECp c [])) by (split; [eapply dashed_nonempty; eauto|left; apply sound_nil]).
    destruct (add_cp_event force evs g c [] H Hf) as [K1 [K2 _]]. rewrite K2, Hvars.
    destruct (vars_4290_spec force c vars _ _ K1) as [vs [g' [K3 [K4 K5]]]].
    { exists (ECp c []). split; [apply In_snoc; auto|exists []; reflexivity]. }
    exists (Some c), ([ECp c []] ++ map (fun v => EVar c v None []) vs), g'. rewrite K3. split; [reflexivity|].
    rewrite app_assoc. split; [exact K4|].
    assert (Hc : forall ch' x, ch' = char -> dashed ch' x -> x = c).
    { intros ch' x -> Hx. apply parse_char_4290_dashed in Hx. congruence. }
    split; [|split].
    + intro x. split.
      * intros [e [Hi [l He]]]. apply in_app_or in Hi. destruct Hi as [[<-|[]]|Hi].
        -- injection He as <- _. exists t, char, vars. auto.
        -- apply in_map_iff in Hi. destruct Hi as [v [Hi _]]. congruence.
      * intros [t' [ch' [vs' [E1 [E2 E3]]]]]. destruct (Huniq _ _ _ E1 E2) as [_ [E4 _]]. rewrite (Hc _ _ E4 E3).
        exists (ECp c []). split; [left; auto|exists []; auto].
    + intros x v. split.
      * intros [e [Hi [ty [l He]]]]. apply in_app_or in Hi. destruct Hi as [[<-|[]]|Hi]; [discriminate|].
        apply in_map_iff in Hi. destruct Hi as [w [E1 E2]]. rewrite He in E1. injection E1 as <- <- _ _.
        apply K5 in E2. destruct E2 as [var [E2 E3]]. exists t, char, vars, var. auto.
      * intros [t' [ch' [vs' [var [E1 [E2 [E3 [E4 E5]]]]]]]]. destruct (Huniq _ _ _ E1 E2) as [_ [E6 E7]]. rewrite (Hc _ _ E6 E3).
        subst vs'. exists (EVar c v None []). split; [|exists None, []; reflexivity]. apply in_or_app. right.
        apply in_map_iff. exists v. split; auto. apply K5. eauto.
    + intros e Hi. exists c. apply in_app_or in Hi. destruct Hi as [[<-|[]]|Hi]; [left; reflexivity|].
      apply in_map_iff in Hi. destruct Hi as [v [Hi _]]. right. exists v. auto.
  - rewrite Hvars.
    assert (Hno : forall var v, In var vars -> ~ dashed var v).
    { destruct (Hrow t char vars Hst Hr) as [[c Hc]|Hn]; [exfalso; eapply parse_char_4290_none; eauto|exact Hn]. }
    rewrite vars_4290_none by exact Hno. exists last, [], g. rewrite app_nil_r. split; [reflexivity|]. split; [exact H|].
    split; [|split; [|intros x []]].
    + intro c. split; [intros [x [[] _]]|]. intros [t' [ch' [vs' [E1 [E2 E3]]]]]. destruct (Huniq _ _ _ E1 E2) as [_ [-> _]].
      exfalso. eapply parse_char_4290_none; eauto.
    + intros c v. split; [intros [x [[] _]]|]. intros [t' [ch' [vs' [w [E1 [E2 [E3 _]]]]]]]. destruct (Huniq _ _ _ E1 E2) as [_ [-> _]].
      exfalso. eapply parse_char_4290_none; eauto.
Qed.

Lemma doc_4290_spec : forall force lines last evs g, good evs g ->
  (forall char vars, listed_4290 lines char vars -> readable_row char vars) ->
  exists evs' g', doc_4290 force last g lines = (g', Done) /\ good (evs ++ evs') g' /\
  (forall c, (exists e, In e evs' /\ about_cp c e) <-> exists char vars, listed_4290 lines char vars /\ dashed char c) /\
  (forall c v, (exists e, In e evs' /\ about_var c v e) <->
      exists char vars var, listed_4290 lines char vars /\ dashed char c /\ In var vars /\ dashed var v) /\
  (forall e, In e evs' -> exists c, e = ECp c [] \/ exists v, e = EVar c v None []).
Proof.
  intros force. induction lines as [|line lines IH]; intros last evs g H Hr.
  - exists [], g. rewrite app_nil_r. split; [reflexivity|]. split; [exact H|]. split; [|split; [|intros e []]].
    + intro c. split; [intros [e [[] _]]|intros [ch [vs [[l [t [[] _]]] _]]]].
    + intros c v. split; [intros [e [[] _]]|intros [ch [vs [w [[l [t [[] _]]] _]]]]].
  - destruct (one_4290_spec force last line evs g H) as [last1 [ev1 [g1 [K1 [K2 [K3 [K4 K5]]]]]]].
    { intros t ch vs Ht Hx. apply Hr. exists line, t. split; [left; auto|auto]. }
    destruct (IH last1 _ _ K2) as [ev2 [g2 [J1 [J2 [J3 [J4 J5]]]]]].
    { intros ch vs [l [t [E1 E2]]]. apply Hr. exists l, t. split; [right; auto|auto]. }
    exists (ev1 ++ ev2), g2. cbn [doc_4290]. rewrite K1, J1. split; [reflexivity|]. rewrite app_assoc. split; [exact J2|].
    split; [|split].
    + intro c. split.
      * intros [e [Hi He]]. apply in_app_or in Hi. destruct Hi as [Hi|Hi].
        -- destruct (proj1 (K3 c)) as [t [ch [vs [E1 [E2 E3]]]]]; [eauto|]. exists ch, vs. split; [|exact E3].
           exists line, t. split; [left; auto|auto].
        -- destruct (proj1 (J3 c)) as [ch [vs [[l [t [E0 [E1 E2]]]] E3]]]; [eauto|]. exists ch, vs. split; [|exact E3].
           exists l, t. split; [right; auto|auto].
      * intros [ch [vs [[l [t [[<-|E0] [E1 E2]]]] E3]]].
        -- destruct (proj2 (K3 c)) as [e [E4 E5]]; [eauto 6|]. exists e. split; [apply in_or_app; auto|auto].
        -- destruct (proj2 (J3 c)) as [e [E4 E5]]; [exists ch, vs; split; [exists l, t; auto|auto]|].
           exists e. split; [apply in_or_app; auto|auto].
    + intros c v. split.
      * intros [e [Hi He]]. apply in_app_or in Hi. destruct Hi as [Hi|Hi].
        -- destruct (proj1 (K4 c v)) as [t [ch [vs [w [E1 [E2 E3]]]]]]; [eauto|]. exists ch, vs, w. split; [|exact E3].
           exists line, t. split; [left; auto|auto].
        -- destruct (proj1 (J4 c v)) as [ch [vs [w [[l [t [E0 [E1 E2]]]] E3]]]]; [eauto|]. exists ch, vs, w. split; [|exact E3].
           exists l, t. split; [right; auto|auto].
      * intros [ch [vs [w [[l [t [[<-|E0] [E1 E2]]]] E3]]]].
        -- destruct (proj2 (K4 c v)) as [e [E4 E5]]; [exists t, ch, vs, w; auto|]. exists e. split; [apply in_or_app; auto|auto].
        -- destruct (proj2 (J4 c v)) as [e [E4 E5]]; [exists ch, vs, w; split; [exists l, t; auto|auto]|].
           exists e. split; [apply in_or_app; auto|auto].
    + intros e Hi. apply in_app_or in Hi. destruct Hi; auto.
Qed.

Theorem table_4290 : forall force allow lines,
  (forall char vars, listed_4290 lines char vars -> readable_row char vars) ->
  exists g, parse_4290 force allow lines = (g, Done) /\ lgr_reachable g /\
  (forall c, lookup (lg_rep g) c <> None <-> exists char vars, listed_4290 lines char vars /\ dashed char c) /\
  (forall c ch u, lookup (lg_rep g) c = Some ch -> In u (get_variants ch) <->
     u = mkVariant (v_cp u) None None None None [] /\
     exists char vars var, listed_4290 lines char vars /\ dashed char c /\ In var vars /\ dashed var (v_cp u)).
Proof.
  intros force allow lines Hr.
  destruct (doc_4290_spec force lines None [] _ (good_start allow) Hr) as [evs [g [H1 [[Hre [_ [H _]]] [H3 [H4 H5]]]]]].
  cbn [app] in H. exists g. split; [exact H1|]. split; [exact Hre|]. split.
  - intro c. rewrite (h_cp _ _ H c). apply H3.
  - intros c ch u Hl. rewrite (h_var _ _ H c ch u Hl). split.
    + intros [pre [ty [refs [K1 K2]]]]. apply first_with_In in K1. destruct K1 as [K1 K3].
      split; [|apply H4; eauto]. destruct (H5 _ K1) as [x [E|[w E]]]; [discriminate|]. injection E as _ _ -> ->.
      rewrite kept_nil in K2. exact K2.
    + intros [K1 K2]. apply H4 in K2. destruct (first_var_exists _ _ _ K2) as [pre [ty [refs K3]]].
      exists pre, ty, refs. split; [exact K3|]. apply first_with_In in K3. destruct K3 as [K3 _].
      destruct (H5 _ K3) as [x [E|[w E]]]; [discriminate|]. injection E as _ _ -> ->. rewrite kept_nil. exact K1.
Qed.
