From Verif Require Import Base BaseFacts CharModel RefModel MetaModel LgrModel ValidateModel ClassModel RuleModel ActionModel Rfc7940Model Rfc7940Spec Rfc7940Proofs SerialModel ReportProofs RulesXmlModel RulesXmlClass RulesXmlRule DocModel ParserModel ParserSpec.
Open Scope string_scope.
Open Scope list_scope.

(** ** What is reported does not depend on what was reported *)
Definition unschemed (L : list report) : Prop := Forall (fun p : report => fst p <> "schema") L.
Lemma unschemed_app : forall a b, unschemed a -> unschemed b -> unschemed (a ++ b).
Proof. intros a b H1 H2. apply Forall_app. auto. Qed.
Ltac plainly := repeat constructor; discriminate.

Lemma attempt_from : forall force p, exists g L x, unschemed L /\ forall r, attempt force r p = (g, apply_reports r L, x).
Proof.
  intros force [g [u|e]]; cbn [attempt].
  - exists g, [], (Ok tt). split; [constructor|reflexivity].
  - destruct (is_lgr_exception e); [|exists g, [], (Raise e); split; [constructor|reflexivity]].
    exists g, [("parse_xml", false); ("codepoint_valid", false)], (if force then Ok tt else Raise e). split; [plainly|]. intro r. destruct force; reflexivity.
Qed.
Lemma vars_from : forall force c vs g, exists g' L x, unschemed L /\ forall r, process_vars force g r c vs = (g', apply_reports r L, x).
Proof.
  intros force c. induction vs as [|v vs IH]; intro g.
  - exists g, [], (Ok tt). split; [constructor|reflexivity].
  - cbn [process_vars]. destruct (parse_cps (ve_cp v)) as [vc|e]; [|exists g, [], (Raise e); split; [constructor|reflexivity]].
    match goal with |- context[attempt force _ ?P] => destruct (attempt_from force P) as [g1 [L1 [x1 [U1 H1]]]] end.
    destruct x1 as [u|e].
    + destruct (IH g1) as [g2 [L2 [x2 [U2 H2]]]]. exists g2, (L1 ++ L2), x2. split; [apply unschemed_app; assumption|]. intro r. rewrite H1, H2, apply_app. reflexivity.
    + exists g1, L1, (Raise e). split; [exact U1|]. intro r. rewrite H1. reflexivity.
Qed.
Lemma order_unschemed : forall p c, unschemed (order_reports p c).
Proof. intros p c. apply Forall_forall. intros [t b] H. apply order_labels in H. destruct H as [_ [-> | ->]]; discriminate. Qed.
Lemma loop_from : forall force l prev g, exists g' L x, unschemed L /\ forall r, process_data_loop force g r prev l = (g', apply_reports r L, x).
Proof.
  intros force. induction l as [|e l IH]; intros prev g; cbn [process_data_loop].
  - exists g, [], (Ok tt). split; [constructor|reflexivity].
  - destruct e as [cp a vs|first last a vs|]; [| |apply IH].
    + destruct (parse_cps cp) as [c|e]; [|exists g, [], (Raise e); split; [constructor|reflexivity]].
      match goal with |- context[attempt force _ ?P] => destruct (attempt_from force P) as [g1 [L1 [x1 [U1 H1]]]] end.
      destruct x1 as [u|e].
      * destruct (vars_from force c vs g1) as [g2 [L2 [x2 [U2 H2]]]]. destruct x2 as [u2|e].
        -- destruct (IH c g2) as [g3 [L3 [x3 [U3 H3]]]]. exists g3, (order_reports prev c ++ L1 ++ L2 ++ L3), x3.
           split; [repeat apply unschemed_app; auto using order_unschemed|]. intro r. rewrite check_order_is, H1, H2, H3, !apply_app. reflexivity.
        -- exists g2, (order_reports prev c ++ L1 ++ L2), (Raise e). split; [repeat apply unschemed_app; auto using order_unschemed|]. intro r. rewrite check_order_is, H1, H2, !apply_app. reflexivity.
      * exists g1, (order_reports prev c ++ L1), (Raise e). split; [apply unschemed_app; auto using order_unschemed|]. intro r. rewrite check_order_is, H1, apply_app. reflexivity.
    + destruct (parse_cp first) as [f|e]; [|exists g, [], (Raise e); split; [constructor|reflexivity]].
      destruct (parse_cp last) as [la|e]; [|exists g, [], (Raise e); split; [constructor|reflexivity]].
      match goal with |- context[attempt force _ ?P] => destruct (attempt_from force P) as [g1 [L1 [x1 [U1 H1]]]] end.
      destruct x1 as [u|e].
      * destruct (IH prev g1) as [g3 [L3 [x3 [U3 H3]]]]. exists g3, (L1 ++ L3), x3. split; [apply unschemed_app; assumption|]. intro r. rewrite H1, H3, apply_app. reflexivity.
      * exists g1, L1, (Raise e). split; [exact U1|]. intro r. rewrite H1. reflexivity.
Qed.
Lemma data_from : forall force l g, exists g' L x, unschemed L /\ forall r, process_data force g r l = (g', apply_reports r L, x).
Proof.
  intros force l g. unfold process_data. destruct (loop_from force l [] g) as [g1 [L1 [x1 [U1 H1]]]]. destruct x1 as [u|e].
  - exists g1, (L1 ++ [("char_ascending_order", true); ("char_strict_ascending_order", true)]), (Ok tt). split; [apply unschemed_app; [exact U1|plainly]|].
    intro r. rewrite H1, apply_app. reflexivity.
  - exists g1, L1, (Raise e). split; [exact U1|]. intro r. rewrite H1. reflexivity.
Qed.

Section Meta.
  Variable lang_check : cps -> option bool.
  Variable dig : N -> bool.
  Variable force : bool.
  Lemma meta_elem_from : forall e m rm, exists m' rm' L x, unschemed L /\
    forall r, process_meta_elem lang_check dig force (set_md_checks m r) rm e = (set_md_checks m' (apply_reports r L), rm', x).
  Proof.
    assert (N : forall m rm (f : metadata -> metadata * refman * res unit) m' x, (forall r, f (set_md_checks m r) = (set_md_checks m' r, rm, x)) ->
      exists m' rm' L x, unschemed L /\ forall r, f (set_md_checks m r) = (set_md_checks m' (apply_reports r L), rm', x)).
    { intros m rm f m' x H. exists m', rm, [], x. split; [constructor|]. intro r. apply H. }
    intros e m rm. destruct e as [t c|t|t|t|t|t|t ty|t ty|l|]; cbn [process_meta_elem].
    - eexists (set_version_ m _), rm, [], _. split; [constructor|]. intro r. reflexivity.
    - destruct t as [t|]; cbn [needs_text fst snd]; [|exists m, rm, [], (Raise TypeError); split; [constructor|reflexivity]].
      unfold md_set_date. destruct (validate_date t force) as [d|e]; [exists (set_md_date m (Some d)), rm, [], (Ok tt)|exists m, rm, [], (Raise e)]; (split; [constructor|reflexivity]).
    - destruct t as [t|]; cbn [needs_text fst snd]; [|exists m, rm, [], (Raise TypeError); split; [constructor|reflexivity]].
      unfold md_set_start. destruct (validate_date t force) as [d|e]; [exists (set_md_start m (Some d)), rm, [], (Ok tt)|exists m, rm, [], (Raise e)]; (split; [constructor|reflexivity]).
    - destruct t as [t|]; cbn [needs_text fst snd]; [|exists m, rm, [], (Raise TypeError); split; [constructor|reflexivity]].
      unfold md_set_end. destruct (validate_date t force) as [d|e]; [exists (set_md_end m (Some d)), rm, [], (Ok tt)|exists m, rm, [], (Raise e)]; (split; [constructor|reflexivity]).
    - destruct t as [t|]; cbn [needs_text fst snd]; [|exists m, rm, [], (Raise TypeError); split; [constructor|reflexivity]].
      unfold md_set_unicode_version. destruct (version_prefix dig t); [exists (set_md_unicode m (Some t)), rm, [], (Ok tt); split; [constructor|reflexivity]|].
      destruct force; [exists (set_md_unicode m (Some t)), rm, [("valid_unicode_version", false)], (Ok tt)|
        exists m, rm, [("valid_unicode_version", false)], (Raise (LGRFormatException INVALID_UNICODE_VERSION_TAG))]; (split; [plainly|reflexivity]).
    - unfold md_add_language. destruct (lang_check (value_of t)) as [ok|].
      + set (m1 := if memb cps_eqb (value_of t) (md_languages m) then m else set_md_languages m (md_languages m ++ [value_of t])).
        destruct ok; cbn [negb andb].
        * exists m1, rm, [("metadata_language", true)], (Ok tt). split; [plainly|]. intro r. subst m1. cbn [fst snd md_languages set_md_checks]. destruct (memb cps_eqb (value_of t) (md_languages m)); reflexivity.
        * destruct force; cbn [negb].
          -- exists m1, rm, [("metadata_language", false); ("metadata_language", true)], (Ok tt). split; [plainly|]. intro r. subst m1. cbn [fst snd md_languages set_md_checks].
             destruct (memb cps_eqb (value_of t) (md_languages m)); reflexivity.
          -- exists m, rm, [("metadata_language", false)], (Raise (LGRFormatException INVALID_LANGUAGE_TAG)). split; [plainly|reflexivity].
      + exists m, rm, [("metadata_language", false)], (Raise (LGRFormatException INVALID_LANGUAGE_TAG)). split; [plainly|reflexivity].
    - eexists (add_scope_ m _), rm, [], _. split; [constructor|]. intro r. reflexivity.
    - destruct t as [t|]; [|exists m, rm, [], (Raise TypeError); split; [constructor|reflexivity]]. eexists (set_description_ m _), rm, [], _. split; [constructor|]. intro r. reflexivity.
    - destruct (process_references rm l) as [rm1 x]. exists m, rm1, [], x. split; [constructor|reflexivity].
    - exists m, rm, [("parse_xml", false)], (Ok tt). split; [plainly|reflexivity].
  Qed.
  Lemma meta_loop_from : forall l m rm, exists m' rm' L x, unschemed L /\
    forall r, process_meta_loop lang_check dig force (set_md_checks m r) rm l = (set_md_checks m' (apply_reports r L), rm', x).
  Proof.
    induction l as [|e l IH]; intros m rm; cbn [process_meta_loop].
    - exists m, rm, [], (Ok tt). split; [constructor|reflexivity].
    - destruct (meta_elem_from e m rm) as [m1 [rm1 [L1 [x1 [U1 H1]]]]]. destruct x1 as [u|x].
      + destruct (IH m1 rm1) as [m2 [rm2 [L2 [x2 [U2 H2]]]]]. exists m2, rm2, (L1 ++ L2), x2. split; [apply unschemed_app; assumption|].
        intro r. rewrite H1, H2, apply_app. reflexivity.
      + exists m1, rm1, L1, (Raise x). split; [exact U1|]. intro r. rewrite H1. reflexivity.
  Qed.
  Lemma meta_from_from : forall l, exists m rm L x, unschemed L /\ forall r, meta_from lang_check dig force r l = (set_md_checks m (apply_reports r L), rm, x).
  Proof.
    intro l. unfold meta_from. destruct (meta_loop_from l new_metadata empty_refman) as [m [rm [L [x [U H]]]]]. destruct x as [u|e].
    - exists m, rm, (L ++ [("explicit_unicode_version", existsb is_unicode_elem l)]), (Ok tt). split; [apply unschemed_app; [exact U|plainly]|].
      intro r. rewrite H, apply_app. reflexivity.
    - exists m, rm, L, (Raise e). split; [exact U|]. intro r. rewrite H. reflexivity.
  Qed.
End Meta.

(** ** The rules *)
Definition steady {A} (f : rread -> res (rread * A)) : Prop := forall n k,
  (exists e, forall r, f (mkRead n k r) = Raise e) \/
  (exists n' k' L o, unschemed L /\ forall r, f (mkRead n k r) = Ok (mkRead n' k' (apply_reports r L), o)).
Lemma steady_ret : forall A (o : A), steady (fun s => Ok (s, o)).
Proof. intros A o n k. right. exists n, k, [], o. split; [constructor|reflexivity]. Qed.
Lemma steady_raise : forall A e, steady (fun _ => Raise e : res (rread * A)).
Proof. intros A e n k. left. exists e. reflexivity. Qed.
Lemma steady_bind : forall A B (f : rread -> res (rread * A)) (h : rread * A -> res (rread * B)), steady f -> (forall o, steady (fun s => h (s, o))) ->
  steady (fun s => bind (f s) h).
Proof.
  intros A B f h Hf Hh n k. destruct (Hf n k) as [[e H]|[n1 [k1 [L1 [o1 [U1 H]]]]]].
  - left. exists e. intro r. rewrite H. reflexivity.
  - destruct (Hh o1 n1 k1) as [[e H2]|[n2 [k2 [L2 [o2 [U2 H2]]]]]].
    + left. exists e. intro r. rewrite H. cbn [bind]. apply H2.
    + right. exists n2, k2, (L1 ++ L2), o2. split; [apply unschemed_app; assumption|]. intro r. rewrite H. cbn [bind]. rewrite H2, apply_app. reflexivity.
Qed.
Lemma steady_res : forall A B (x : res A) (h : A -> rread -> res (rread * B)), (forall a, steady (h a)) -> steady (fun s => bind x (fun a => h a s)).
Proof. intros A B [a|e] h H; cbn [bind]; [apply H|apply steady_raise]. Qed.
Lemma steady_ext : forall A (f h : rread -> res (rread * A)), (forall s, f s = h s) -> steady f -> steady h.
Proof.
  intros A f h E H n k. destruct (H n k) as [[e K]|[n' [k' [L [o [U K]]]]]]; [left; exists e|right; exists n', k', L, o; split; [exact U|]]; intro r; rewrite <- E; apply K.
Qed.
Lemma unhandled_steady : forall A (o : A), steady (fun s => Ok (unhandled s, o)).
Proof. intros A o n k. right. exists n, k, [("parse_xml", false)], o. split; [plainly|reflexivity]. Qed.
Section Rules.
  Variable db : option unidb.
  Variable look : table.
  Variable rules : rtable.
  Variable fuel : nat.
  Lemma precalculate_steady : forall A rl (o : A), steady (fun s => bind (precalculate db look rules fuel rl s) (fun s1 => Ok (s1, o))).
  Proof.
    intros A rl o n k. unfold precalculate. destruct db as [u|]; [|right; exists n, k, [], o; split; [constructor|reflexivity]]. cbn [rd_cache].
    destruct (rpat u look rules fuel true rl k) as [k1 [p|e]]; cbn [bind]; [|left; exists e; reflexivity].
    destruct (rpat u look rules fuel false rl k1) as [k2 [q|e]]; cbn [bind]; [|left; exists e; reflexivity]. right. exists n, k2, [], o. split; [constructor|reflexivity].
  Qed.
  Lemma items_steady : forall l, Forall (fun e => steady (parse_helper db look rules fuel e)) l -> forall refuse, steady (parse_items db look rules fuel refuse l).
  Proof.
    intros l H refuse. induction H as [|e l He Hl IH]; cbn [parse_items]; [apply steady_ret|].
    apply steady_bind; [exact He|]. intros [m|]; cbn [fst snd]; [|exact IH]. destruct refuse; [apply steady_raise|].
    apply (steady_bind _ _ _ (fun q => Ok (fst q, m :: snd q))); [exact IH|]. intro o. cbn [fst snd]. apply steady_ret.
  Qed.
  Lemma helper_steady : forall e, steady (parse_helper db look rules fuel e).
  Proof.
    intro e. induction e as [sp n a tx ch IH] using xelem_induct. set (e := XElem sp n a tx ch). change ch with (x_children e) in IH. clearbody e.
    eapply steady_ext; [intro s; symmetry; apply parse_helper_eq|]. cbv zeta. pose proof (items_steady _ IH) as HI.
    destruct (has_tag "anchor" e); [apply steady_ret|]. destruct (has_tag "any" e); [apply steady_ret|].
    destruct (has_tag "char" e); [apply (steady_res _ _ (elem_cps e) (fun o s => Ok (s, _))); intro; apply steady_ret|].
    destruct (has_tag "choice" e); [apply (steady_bind _ _ _ (fun p => Ok (fst p, Some _))); [apply HI|intro; cbn [fst snd]; apply steady_ret]|].
    destruct (has_tag "end" e); [apply steady_ret|].
    destruct (has_tag "look-ahead" e); [apply (steady_bind _ _ _ (fun p => Ok (fst p, Some _))); [apply HI|intro; cbn [fst snd]; apply steady_ret]|].
    destruct (has_tag "look-behind" e); [apply (steady_bind _ _ _ (fun p => Ok (fst p, Some _))); [apply HI|intro; cbn [fst snd]; apply steady_ret]|].
    destruct (has_tag "start" e); [apply steady_ret|].
    destruct (has_tag "rule" e).
    { apply (steady_bind _ _ _ (fun p => Ok (fst p, Some (MRule (snd p) _)))); [|intro; cbn [fst snd]; apply steady_ret].
      intros n0 k. unfold parse_rule_body. cbn [rd_next rd_cache rd_results]. destruct (new_rule n0 _ _) as [rl|x]; cbn [bind]; [|left; exists x; reflexivity].
      match goal with |- context[parse_items db look rules fuel ?B _ _] => destruct (HI B (S n0) k) as [[x H]|[n1 [k1 [L1 [o1 [U1 H]]]]]] end.
      - left. exists x. intro r. rewrite H. reflexivity.
      - set (r1 := Rule (r_id rl) (r_name rl) (r_by_ref rl) o1).
        destruct (precalculate_steady _ r1 r1 n1 k1) as [[x H2]|[n2 [k2 [L2 [o2 [U2 H2]]]]]].
        + left. exists x. intro r. rewrite H. cbn [bind fst snd]. apply H2.
        + right. exists n2, k2, (L1 ++ L2), o2. split; [apply unschemed_app; assumption|]. intro r. rewrite H. cbn [bind fst snd]. fold r1. rewrite H2, apply_app. reflexivity. }
    destruct (class_tag e); [apply (steady_res _ _ (parse_class e) (fun c s => Ok (s, Some (MClass c _)))); intro; apply steady_ret|]. apply unhandled_steady.
  Qed.
End Rules.
Definition swap {A} (x : res (ruleset * A)) : res (A * ruleset) := bind x (fun p => Ok (snd p, fst p)).
Lemma elem_steady : forall db fuel force e g, steady (fun s => swap (read_elem db fuel force e g s)).
Proof.
  intros db fuel force e g. unfold read_elem, swap. destruct (class_tag e).
  - unfold read_class. destruct (parse_class e) as [c|x]; cbn [bind fst snd]; [|apply steady_raise]. destruct (add_class (ru_classes g) c force) as [t [u|x]]; cbn [bind fst snd]; [apply steady_ret|apply steady_raise].
  - destruct (has_tag "rule" e).
    + unfold read_rule, parse_rule. pose proof (steady_bind _ _ _ (fun p : rread * option matcher => match snd p with
        | Some (MRule r _) => let '(t, x) := add_rule (ru_classes g) (ru_rules g) r force in bind x (fun _ => Ok (fst p,
            mkRules (ru_classes g) (ru_class_names g) t (ru_rule_names g ++ [r_name r]) (ru_actions g) (ru_classes_xml g) (ru_rules_xml g ++ [drop_ns e]) (ru_actions_xml g)))
        | _ => Raise TypeError end) (helper_steady db (ru_classes g) (ru_rules g) fuel e)) as X. refine (steady_ext _ _ _ _ (X _)); clear X.
      * intro s. destruct (parse_helper db (ru_classes g) (ru_rules g) fuel e s) as [[s1 o]|x]; cbn [bind fst snd]; [|reflexivity].
        destruct o as [[]|]; cbn [bind fst snd]; try reflexivity. destruct (add_rule _ _ _ force) as [t [u|x]]; reflexivity.
      * intro o. destruct o as [[]|]; cbn [fst snd]; try apply steady_raise. destruct (add_rule _ _ _ force) as [t [u|x]]; cbn [bind fst snd]; [apply steady_ret|apply steady_raise].
    + destruct (has_tag "action" e).
      * unfold read_action. destruct (parse_action e) as [a|x]; cbn [bind fst snd]; [apply steady_ret|apply steady_raise].
      * cbn [bind fst snd]. apply unhandled_steady.
Qed.
Lemma rules_steady : forall db fuel force l g, steady (fun s => swap (process_rules db fuel force l g s)).
Proof.
  intros db fuel force. induction l as [|e l IH]; intro g; cbn [process_rules]; [unfold swap; cbn [bind fst snd]; apply steady_ret|].
  pose proof (steady_bind _ _ _ (fun p => swap (process_rules db fuel force l (snd p) (fst p))) (elem_steady db fuel force e g)) as X. refine (steady_ext _ _ _ _ (X _)); clear X.
  - intro s. destruct (read_elem db fuel force e g s) as [[g1 s1]|x]; reflexivity.
  - intro o. exact (IH o).
Qed.
