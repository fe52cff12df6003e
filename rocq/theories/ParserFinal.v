From Verif Require Import Base BaseFacts CharModel RefModel MetaModel LgrModel ValidateModel ClassModel RuleModel ActionModel Rfc7940Model Rfc7940Spec Rfc7940Proofs SerialModel ReportProofs RulesXmlModel DocModel ParserModel ParserSpec ParserProofs.
Open Scope string_scope.
Open Scope list_scope.

Definition with_checks (x : loaded) (r : results) : loaded := mkLoaded (set_md_checks (ld_meta x) r) (ld_lgr x) (ld_rules x) (ld_cache x).
Lemma with_same : forall x r r', same_loaded (with_checks x r) (with_checks x r').
Proof. intros x r r'. unfold same_loaded, same_meta, with_checks. cbn. auto 20. Qed.
Lemma reports_get : forall l1 l2 t, (forall b, In (t, b) l1 <-> In (t, b) l2) -> dget String.eqb t (apply_reports [] l1) = dget String.eqb t (apply_reports [] l2).
Proof.
  intros l1 l2 t H. destruct (apply_get_empty l1 t) as [A1 [A2 A3]]. destruct (apply_get_empty l2 t) as [B1 [B2 B3]].
  assert (E : executed l1 t <-> executed l2 t) by (unfold executed; split; intros [b Hb]; exists b; apply H; exact Hb).
  assert (F : failed l1 t <-> failed l2 t) by (unfold failed; apply H).
  destruct (dget String.eqb t (apply_reports [] l1)) as [[]|]; symmetry.
  - apply B3. destruct A3 as [A3 _]. specialize (A3 eq_refl). tauto.
  - apply B2. apply F, A2. reflexivity.
  - apply B1. rewrite <- E. apply A1. reflexivity.
Qed.

Section Parser.
  Variable lang_check : cps -> option bool.
  Variable dig : N -> bool.
  Variable db : option database.
  Variable fuel : nat.
  Variables allow_invalid force : bool.
  Variable d : document.
  Variable conforms : bool.
  Variable src : source.
  Notation read_from := (read_from lang_check dig db fuel allow_invalid force d).
  Notation meta_from := (meta_from lang_check dig force).
  Notation perform := (perform lang_check dig db fuel allow_invalid force d conforms src).
  Notation performs := (performs lang_check dig db fuel allow_invalid force d conforms src).

  Lemma read_start : read_from [] = read_document lang_check dig db fuel allow_invalid force d.
  Proof. reflexivity. Qed.
  Lemma read_cases : (exists e, forall r, read_from r = Raise e) \/
    (dc_meta d = None /\ forall r, read_from r = Ok None) \/
    (exists x L ml m rm Lm, unschemed L /\ (forall r, read_from r = Ok (Some (with_checks x (apply_reports r L)))) /\
      dc_meta d = Some ml /\ (forall r, meta_from r ml = (set_md_checks m (apply_reports r Lm), rm, Ok tt)) /\ incl Lm L /\ md_unicode m = md_unicode (ld_meta x)).
  Proof.
    unfold ParserModel.read_from. destruct (dc_meta d) as [ml|].
    - destruct (meta_from_from lang_check dig force ml) as [m [rm [Lm [x [U H]]]]]. destruct x as [[]|e]; [|left; exists e; intro r; rewrite H; reflexivity].
      destruct (data_from force (dc_data d) (set_refs (new_lgr (option_map fst db) allow_invalid) rm)) as [g [Ld [x [Ud Hd]]]].
      destruct x as [u|e]; [|left; exists e; intro r; rewrite H; cbn [md_checks set_md_checks]; rewrite Hd; reflexivity].
      destruct (rules_steady (option_map snd db) fuel force (match dc_rules d with Some l => l | None => [] end) (before_rules (lg_tags g)) O []) as [[e Hr]|[n' [k' [Lr [o [Ur Hr]]]]]].
      + left. exists e. intro r. rewrite H. cbn [md_checks set_md_checks]. rewrite Hd. specialize (Hr (apply_reports (apply_reports r Lm) Ld)). unfold swap, fresh_read in *.
        destruct (process_rules _ _ _ _ _ _) as [[g1 s1]|e']; cbn [bind] in *; [discriminate|congruence].
      + right. right. exists (mkLoaded m g o k'), (Lm ++ Ld ++ Lr ++ [("parse_xml", true)]), ml, m, rm, Lm. split; [repeat apply unschemed_app; auto; plainly|]. split; [|split; [reflexivity|split; [exact H|split; [intros q Hq; apply in_or_app; auto|reflexivity]]]].
        intro r. rewrite H. cbn [md_checks set_md_checks]. rewrite Hd. specialize (Hr (apply_reports (apply_reports r Lm) Ld)). unfold swap, fresh_read in *.
        destruct (process_rules _ _ _ _ _ _) as [[g1 s1]|e']; cbn [bind] in *; [|discriminate]. injection Hr as -> ->. cbn [fst snd rd_results rd_cache]. unfold with_checks. cbn [ld_meta ld_lgr ld_rules ld_cache].
        rewrite !apply_app. reflexivity.
    - destruct (headless_data (dc_data d)) as [[]|e]; cbn [bind]; [|left; exists e; reflexivity].
      destruct (headless_rules _) as [[]|e]; cbn [bind]; [right; left; split; reflexivity|left; exists e; reflexivity].
  Qed.

  Definition again (l : list ask) : Prop := rereadable src \/ ~ In Validate l.
  Section Good.
    Variables (x : loaded) (L Lm : list report) (ml : list meta_elem) (m : metadata) (rm : refman).
    Hypothesis U : unschemed L.
    Hypothesis HR : forall r, read_from r = Ok (Some (with_checks x (apply_reports r L))).
    Hypothesis HM : dc_meta d = Some ml.
    Hypothesis HF : forall r, meta_from r ml = (set_md_checks m (apply_reports r Lm), rm, Ok tt).
    Hypothesis HI : incl Lm L.
    Hypothesis HU : md_unicode m = md_unicode (ld_meta x).
    (** What has been recorded after [h]. *)
    Definition state (h : list ask) (p : xparser) : Prop :=
      xp_start p = true /\ exists R, xp_checks p = apply_reports [] R /\ (forall q, In q R -> In q L \/ fst q = "schema") /\
        (In ("schema", true) R <-> In Validate h) /\ (In ("schema", false) R <-> In Validate h /\ conforms = false).
    Lemma no_schema : forall b, ~ In ("schema", b) L.
    Proof. intros b H. unfold unschemed in U. rewrite Forall_forall in U. apply (U _ H). reflexivity. Qed.
    Lemma step_good : forall h p a, state h p -> again [a] -> exists p' y, perform p a = (p', Ok y) /\ state (h ++ [a]) p' /\ right x conforms a y.
    Proof.
      intros h p a [S1 [R [S2 [S3 [S4 S5]]]]] G. destruct a; cbn [ParserModel.perform].
      - unfold validate, from_start. rewrite S1. cbn [bind]. eexists. eexists. split; [reflexivity|]. split; [|constructor].
        split; [cbn [xp_start left_at]; unfold left_at; destruct src as [|[]] eqn:Es; try reflexivity; destruct G as [G|G]; [exfalso; apply G; exact Es|exfalso; apply G; left; reflexivity]|].
        exists (R ++ (if conforms then [] else [("schema", false)]) ++ [("schema", true)]). split; [|split; [|split]].
        + cbn [xp_checks]. rewrite !apply_app, <- S2. destruct conforms; reflexivity.
        + intros q Hq. rewrite !in_app_iff in Hq. destruct Hq as [Hq|[Hq|Hq]]; [auto| |]; [destruct conforms; [destruct Hq|]|]; destruct Hq as [<-|[]]; right; reflexivity.
        + rewrite !in_app_iff. split; [intros _; right; left; reflexivity|]. intros _. right. right. left. reflexivity.
        + rewrite !in_app_iff. rewrite S5. destruct conforms; cbn; split; intuition (congruence || discriminate || auto).
      - unfold unicode_version, from_start. rewrite S1, HM, HF. eexists. eexists. split; [reflexivity|]. split; [|cbn [md_unicode set_md_checks]; rewrite HU; constructor].
        split; [reflexivity|]. exists (R ++ Lm). split; [cbn [xp_checks md_checks set_md_checks]; rewrite apply_app, <- S2; reflexivity|]. split; [|split].
        + intros q Hq. apply in_app_or in Hq. destruct Hq; auto.
        + rewrite !in_app_iff, S4. split; [intros [H|H]; [auto|exfalso; apply (no_schema true); apply HI; exact H]|]. intros [H|[H|[]]]; [auto|discriminate].
        + rewrite !in_app_iff, S5. split; [intros [H|H]; [tauto|exfalso; apply (no_schema false); apply HI; exact H]|]. intros [[H|[H|[]]] H2]; [auto|discriminate].
      - unfold parse, from_start. rewrite S1, HR. eexists. eexists. split; [reflexivity|]. split; [|constructor; exact (with_same (with_checks x (md_checks (ld_meta x))) (md_checks (ld_meta x)) _)].
        split; [reflexivity|]. exists (R ++ L). split; [cbn [xp_checks with_checks ld_meta md_checks set_md_checks]; rewrite apply_app, <- S2; reflexivity|]. split; [|split].
        + intros q Hq. apply in_app_or in Hq. destruct Hq; auto.
        + rewrite !in_app_iff, S4. split; [intros [H|H]; [auto|exfalso; apply (no_schema true); exact H]|]. intros [H|[H|[]]]; [auto|discriminate].
        + rewrite !in_app_iff, S5. split; [intros [H|H]; [tauto|exfalso; apply (no_schema false); exact H]|]. intros [[H|[H|[]]] H2]; [auto|discriminate].
    Qed.
    Lemma steps_good : forall l h p, state h p -> again l -> exists p' ys, performs p l = (p', Ok ys) /\ state (h ++ l) p' /\ Forall2 (right x conforms) l ys.
    Proof.
      induction l as [|a l IH]; intros h p S G; cbn [ParserModel.performs].
      - exists p, []. split; [reflexivity|]. split; [rewrite app_nil_r; exact S|constructor].
      - destruct (step_good h p a S) as [p1 [y [E [S1 Ry]]]]; [destruct G as [G|G]; [left; exact G|right; intros [X|[]]; apply G; left; exact X]|]. rewrite E.
        destruct (IH (h ++ [a]) p1 S1) as [p2 [ys [E2 [S2 Rs]]]]; [destruct G as [G|G]; [left; exact G|right; intro X; apply G; right; exact X]|]. rewrite E2. cbn [bind].
        exists p2, (y :: ys). split; [reflexivity|]. split; [rewrite <- app_assoc in S2; exact S2|]. constructor; assumption.
    Qed.
    Lemma recorded_good : forall h p, state h p -> exists x', snd (perform p Parse) = Ok (Parsed (Some x')) /\ same_loaded x x' /\
      (forall t, t <> "schema" -> recorded (md_checks (ld_meta x')) t = recorded (apply_reports [] L) t) /\
      (In Validate h -> recorded (md_checks (ld_meta x')) "schema" = Some conforms) /\ (~ In Validate h -> recorded (md_checks (ld_meta x')) "schema" = None).
    Proof.
      intros h p [S1 [R [S2 [S3 [S4 S5]]]]]. cbn [ParserModel.perform]. unfold parse, from_start. rewrite S1, HR. eexists. split; [reflexivity|].
      split; [exact (with_same (with_checks x (md_checks (ld_meta x))) (md_checks (ld_meta x)) _)|]. cbn [with_checks ld_meta md_checks set_md_checks].
      rewrite S2, <- apply_app. unfold recorded. split; [|split].
      - intros t Ht. apply reports_get. intro b. rewrite in_app_iff. split; [|auto]. intros [H|H]; [|exact H]. destruct (S3 _ H) as [X|X]; [exact X|cbn in X; congruence].
      - intro H. destruct conforms eqn:EC.
        + apply apply_get_empty. split; [exists true; apply in_or_app; left; apply S4; exact H|]. unfold failed. rewrite in_app_iff. intros [X|X]; [apply S5 in X; destruct X; discriminate|exact (no_schema _ X)].
        + apply apply_get_empty. unfold failed. apply in_or_app. left. apply S5. auto.
      - intro H. apply apply_get_empty. intros [b X]. apply in_app_or in X. destruct X as [X|X]; [|exact (no_schema _ X)]. destruct b; [apply S4 in X; auto|apply S5 in X; destruct X; auto].
    Qed.
  End Good.

  Lemma good_cases : forall x0, read_document lang_check dig db fuel allow_invalid force d = Ok (Some x0) ->
    exists x L ml m rm Lm, unschemed L /\ (forall r, read_from r = Ok (Some (with_checks x (apply_reports r L)))) /\
      dc_meta d = Some ml /\ (forall r, meta_from r ml = (set_md_checks m (apply_reports r Lm), rm, Ok tt)) /\ incl Lm L /\ md_unicode m = md_unicode (ld_meta x) /\ x0 = with_checks x (apply_reports [] L).
  Proof.
    intros x0 E. rewrite <- read_start in E. destruct read_cases as [[e H]|[[_ H]|[x [L [ml [m [rm [Lm [H1 [H2 H3]]]]]]]]]]; [rewrite H in E; discriminate..|].
    exists x, L, ml, m, rm, Lm. rewrite H2 in E. injection E as <-. tauto.
  Qed.
  Lemma state_new : forall L, state L [] new_parser.
  Proof. intro L. split; [reflexivity|]. exists []. split; [reflexivity|]. split; [intros q []|]. cbn. tauto. Qed.

  Theorem answers_right : forall x l, read_document lang_check dig db fuel allow_invalid force d = Ok (Some x) -> again l ->
    exists p ys, performs new_parser l = (p, Ok ys) /\ Forall2 (right x conforms) l ys.
  Proof.
    intros x0 l E G. destruct (good_cases x0 E) as [x [L [ml [m [rm [Lm [U [H1 [H2 [H3 [H4 [H5 ->]]]]]]]]]]]].
    destruct (steps_good x L Lm ml m rm U H1 H2 H3 H4 H5 l [] new_parser (state_new L) G) as [p [ys [K1 [_ K2]]]]. exists p, ys. split; [exact K1|].
    clear K1. induction K2 as [|a y l' ys' Ha Hl IH]; constructor; [|apply IH; destruct G as [G|G]; [left; exact G|right; intro X; apply G; right; exact X]].
    destruct Ha as [| |x' Hx]; [apply right_validate|exact (right_version (with_checks x (apply_reports [] L)) conforms)|apply right_parse; exact Hx].
  Qed.
  Theorem parse_after : forall x l p ys, read_document lang_check dig db fuel allow_invalid force d = Ok (Some x) -> again l -> performs new_parser l = (p, Ok ys) ->
    exists x', snd (perform p Parse) = Ok (Parsed (Some x')) /\ same_loaded x x' /\
      (forall t, t <> "schema" -> recorded (md_checks (ld_meta x')) t = recorded (md_checks (ld_meta x)) t) /\
      (In Validate l -> recorded (md_checks (ld_meta x')) "schema" = Some conforms) /\ (~ In Validate l -> recorded (md_checks (ld_meta x')) "schema" = None).
  Proof.
    intros x0 l p ys E G Ep. destruct (good_cases x0 E) as [x [L [ml [m [rm [Lm [U [H1 [H2 [H3 [H4 [H5 ->]]]]]]]]]]]].
    destruct (steps_good x L Lm ml m rm U H1 H2 H3 H4 H5 l [] new_parser (state_new L) G) as [p' [ys' [K1 [K2 _]]]]. assert (p' = p) by congruence. subst p'.
    destruct (recorded_good x L U H1 l p K2) as [x' [J1 [J2 J3]]]. exists x'. split; [exact J1|]. split; [exact J2|exact J3].
  Qed.
  Theorem raises_after : forall e l p ys, read_document lang_check dig db fuel allow_invalid force d = Raise e -> performs new_parser l = (p, Ok ys) ->
    xp_start p = true -> snd (perform p Parse) = Raise e.
  Proof.
    intros e l p ys E _ S. rewrite <- read_start in E. cbn [ParserModel.perform]. unfold parse, from_start. rewrite S.
    destruct read_cases as [[e' H]|[[_ H]|[x [L [ml [m [rm [Lm [H1 [H2 H3]]]]]]]]]]; [|rewrite H in E; discriminate|rewrite H2 in E; discriminate].
    rewrite H in *. injection E as ->. reflexivity.
  Qed.
  Theorem kept_at_start : forall l p ys p0, performs p0 l = (p, Ok ys) -> xp_start p0 = true -> again l -> xp_start p = true.
  Proof.
    induction l as [|a l IH]; intros p ys p0 E S G; cbn [ParserModel.performs] in E; [injection E as <- _; exact S|].
    destruct (perform p0 a) as [p1 [y|e]] eqn:E1; [|discriminate]. destruct (performs p1 l) as [p2 y2] eqn:E2. destruct y2 as [ys2|]; cbn [bind] in E; [|discriminate]. injection E as <- _.
    apply (IH p2 ys2 p1 E2); [|destruct G as [G|G]; [left; exact G|right; intro X; apply G; right; exact X]].
    destruct a; cbn [ParserModel.perform] in E1.
    - unfold validate, from_start in E1. rewrite S in E1. injection E1 as <- _. cbn [xp_start]. unfold left_at. destruct src as [|[]] eqn:Es; try reflexivity. destruct G as [G|G]; [exfalso; apply G; exact Es|exfalso; apply G; left; reflexivity].
    - unfold unicode_version, from_start in E1. rewrite S in E1. destruct (dc_meta d) as [ml|].
      + destruct (meta_from (xp_checks p0) ml) as [[m rm] [u|e]]; [|discriminate]. injection E1 as <- _. reflexivity.
      + destruct (xp_lgr p0); [|discriminate]. injection E1 as <- _. reflexivity.
    - unfold parse, from_start in E1. rewrite S in E1. destruct (read_from (xp_checks p0)) as [[x|]|e]; [| |discriminate]; injection E1 as <- _; reflexivity.
  Qed.
  Theorem fails_the_same : forall e l p ys, read_document lang_check dig db fuel allow_invalid force d = Raise e -> again l -> performs new_parser l = (p, Ok ys) ->
    snd (perform p Parse) = Raise e.
  Proof. intros e l p ys E G P. apply (raises_after e l p ys E P). apply (kept_at_start l p ys new_parser P eq_refl G). Qed.
End Parser.
