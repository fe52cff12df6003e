From Verif Require Import Base BaseFacts UtilsModel UtilsSpec UtilsProofs Rfc7940Model MetaModel MetaSpec MetaProofs.
Open Scope string_scope.
Open Scope list_scope.

(** ** Unicode version *)
Section Digits.
  Variable dig : N -> bool.
  Hypothesis dot_nodig : dig 46 = false.
  Lemma drop_while_run : forall x r, Forall (fun c => dig c = true) x -> (match r with [] => True | c :: _ => dig c = false end) ->
    drop_while dig (x ++ r) = r.
  Proof.
    induction x as [|c x IH]; intros r H Hr; cbn.
    - destruct r as [|c r]; [reflexivity|]. cbn. rewrite Hr. reflexivity.
    - inversion H as [|? ? Hc Hx]; subst. rewrite Hc. apply IH; assumption.
  Qed.
  Lemma drop_while_split : forall s, exists x, Forall (fun c => dig c = true) x /\ s = x ++ drop_while dig s /\
    match drop_while dig s with [] => True | c :: _ => dig c = false end.
  Proof.
    induction s as [|c s [x [H1 [H2 H3]]]]; [exists []; cbn; auto|]. cbn. destruct (dig c) eqn:E.
    - exists (c :: x). split; [constructor; auto|]. split; [cbn; f_equal; exact H2|exact H3].
    - exists []. cbn. rewrite E. auto.
  Qed.
  Lemma some_digits_iff : forall s t, some_digits dig s = Some t ->
    exists x, digit_run dig x /\ s = x ++ t /\ match t with [] => True | c :: _ => dig c = false end.
  Proof.
    intros s t H. destruct s as [|c s]; cbn in H; [discriminate|]. destruct (dig c) eqn:E; [|discriminate]. injection H as H. subst t.
    destruct (drop_while_split s) as [x [H1 [H2 H3]]]. exists (c :: x). split; [split; [discriminate|constructor; auto]|].
    split; [cbn; f_equal; exact H2|exact H3].
  Qed.
  Lemma some_digits_run : forall x r, digit_run dig x -> (match r with [] => True | c :: _ => dig c = false end) -> some_digits dig (x ++ r) = Some r.
  Proof.
    intros [|c x] r [Hne H] Hr; [congruence|]. inversion H as [|? ? Hc Hx]; subst. cbn. rewrite Hc. f_equal. apply drop_while_run; assumption.
  Qed.
  Lemma some_digits_first : forall x r, digit_run dig x -> some_digits dig (x ++ r) <> None.
  Proof. intros [|c x] r [Hne H]; [congruence|]. inversion H as [|? ? Hc Hx]; subst. cbn. rewrite Hc. discriminate. Qed.

  Theorem version_prefix_iff : forall s, version_prefix dig s = true <-> starts_with_version dig s.
  Proof.
    intro s. unfold version_prefix, dot_digits. split.
    - intro H. destruct (some_digits dig s) as [s1|] eqn:E1; [|discriminate].
      destruct s1 as [|c1 s1]; [discriminate|]. destruct (N.eqb_spec c1 46); [subst c1|discriminate].
      destruct (some_digits dig s1) as [s2|] eqn:E2; [|discriminate].
      destruct s2 as [|c2 s2]; [discriminate|]. destruct (N.eqb_spec c2 46); [subst c2|discriminate].
      destruct (some_digits dig s2) as [s3|] eqn:E3; [|discriminate].
      apply some_digits_iff in E1. apply some_digits_iff in E2. apply some_digits_iff in E3.
      destruct E1 as [x [X1 [X2 _]]]. destruct E2 as [y [Y1 [Y2 _]]]. destruct E3 as [z [Z1 [Z2 _]]]. subst.
      exists x, y, z, s3. auto 10.
    - intros [x [y [z [rest [Hx [Hy [Hz Hs]]]]]]]. subst s.
      rewrite some_digits_run by (auto; exact dot_nodig). cbn [app N.eqb]. change (N.eqb 46 46) with true. cbn iota.
      rewrite some_digits_run by (auto; exact dot_nodig). cbn [app]. change (N.eqb 46 46) with true. cbn iota.
      pose proof (some_digits_first z rest Hz). change (match some_digits dig (z ++ rest) with Some _ => true | None => false end = true).
      destruct (some_digits dig (z ++ rest)); congruence.
  Qed.
  Theorem set_unicode_version_spec : forall m v,
    let '(m', x) := md_set_unicode_version dig m v false in
    same_but_unicode m m' /\
    ((starts_with_version dig v /\ x = Ok tt /\ md_unicode m' = Some v /\ md_checks m' = md_checks m) \/
     (~ starts_with_version dig v /\ x = Raise (LGRFormatException INVALID_UNICODE_VERSION_TAG) /\ md_unicode m' = md_unicode m /\
      dget String.eqb "valid_unicode_version" (md_checks m') = Some false)).
  Proof.
    intros m v. unfold md_set_unicode_version. pose proof (version_prefix_iff v) as H. destruct (version_prefix dig v).
    - split; [unfold same_but_unicode; cbn; auto 10|]. left. split; [tauto|]. cbn. auto.
    - split; [unfold same_but_unicode; cbn; auto 10|]. right. split; [intro G; apply H in G; discriminate|]. split; [reflexivity|]. split; [reflexivity|].
      cbn [set_md_checks md_checks]. unfold report_error, add_test_result. cbn [negb orb]. rewrite (dget_dset _ string_eqb_iff). rewrite String.eqb_refl. reflexivity.
  Qed.

  Hypothesis lf_nodig : dig 10 = false.
  Theorem version_ok_iff : forall s, version_ok dig s = true <-> positive_integer dig s.
  Proof.
    intro s. unfold version_ok. split.
    - intro H. destruct s as [|c r]; [discriminate|]. rewrite !andb_true_iff, !N.leb_le in H. destruct H as [H1 H2].
      destruct (drop_while_split r) as [x [G1 [G2 G3]]]. exists c, x. split; [exact H1|]. split; [exact G1|].
      destruct (drop_while dig r) as [|a [|b t]].
      + left. rewrite app_nil_r in G2. congruence.
      + destruct (N.eq_dec a 10) as [->|Hn]; [right; congruence|]. exfalso. clear - H2 Hn.
        destruct a as [|p]; [discriminate|]. do 4 (destruct p as [p|p|]; try discriminate); congruence.
      + exfalso. destruct a as [|p]; [discriminate|]. do 4 (destruct p as [p|p|]; try discriminate).
    - intros [c [r [H1 [H2 H3]]]]. 
      assert (E : forall t, s = c :: t -> (drop_while dig t = [] \/ drop_while dig t = [10]) -> match s with c :: r => N.leb 49 c && N.leb c 57 &&
              match drop_while dig r with [] => true | [10] => true | _ => false end | [] => false end = true).
      { intros t H5 [H4|H4]; subst s; rewrite H4; rewrite !andb_true_iff, !N.leb_le; auto. }
      destruct H3 as [H3|H3].
      + apply (E r H3). left. rewrite <- (app_nil_r r). apply drop_while_run; auto.
      + apply (E (r ++ [10]) H3). right. apply drop_while_run; auto.
  Qed.
End Digits.

(** ** Histories *)
Theorem dates_always_valid : forall lang_check dig ops, Forall unforced ops ->
  let m := md_run lang_check dig ops in
  full_date_or_none (md_date m) /\ full_date_or_none (md_start m) /\ full_date_or_none (md_end m).
Proof.
  intros lang_check dig ops H. unfold md_run.
  assert (G : forall ops m, Forall unforced ops ->
    full_date_or_none (md_date m) /\ full_date_or_none (md_start m) /\ full_date_or_none (md_end m) ->
    let m' := fold_left (fun m o => fst (md_step lang_check dig m o)) ops m in
    full_date_or_none (md_date m') /\ full_date_or_none (md_start m') /\ full_date_or_none (md_end m')).
  { clear. induction ops as [|o ops IH]; intros m H Hm; [exact Hm|]. inversion H as [|? ? Ho Hr]; subst. cbn [fold_left].
    apply IH; [exact Hr|]. clear IH H Hr. destruct Hm as [M1 [M2 M3]].
    destruct o as [d f|d f|d f|l f|l f|v f]; cbn [unforced] in Ho; subst f; cbn [md_step].
    - pose proof (set_date_spec m d) as S. destruct (md_set_date m d false) as [m' x]. cbn [fst].
      destruct S as [[_ [_ [_ [S1 [S2 _]]]]] [[F [_ E]]|[_ [_ E]]]]; [|subst; auto].
      rewrite S1, S2. split; [|auto]. intros s Hs. congruence.
    - pose proof (set_start_spec m d) as S. destruct (md_set_start m d false) as [m' x]. cbn [fst].
      destruct S as [[_ [_ [_ [S1 [S2 _]]]]] [[F [_ E]]|[_ [_ E]]]]; [|subst; auto].
      rewrite S1, S2. split; [exact M1|]. split; [|exact M3]. intros s Hs. congruence.
    - pose proof (set_end_spec m d) as S. destruct (md_set_end m d false) as [m' x]. cbn [fst].
      destruct S as [[_ [_ [_ [S1 [S2 _]]]]] [[F [_ E]]|[_ [_ E]]]]; [|subst; auto].
      rewrite S1, S2. split; [exact M1|]. split; [exact M2|]. intros s Hs. congruence.
    - pose proof (add_language_spec lang_check m l) as S. destruct (md_add_language lang_check m l false) as [m' x]. cbn [fst].
      destruct S as [[_ [S1 [_ [S2 [S3 _]]]]] _]. rewrite S1, S2, S3. auto.
    - unfold md_set_languages. destruct (scan_languages _ _ _ _ _) as [[l' e]|]; [|cbn; auto]. destruct (e && negb false)%bool; cbn; auto.
    - unfold md_set_unicode_version. destruct (version_prefix dig v); cbn; auto. }
  apply G; [exact H|]. cbn. unfold full_date_or_none. split; [|split]; intros; discriminate.
Qed.

(** Every language stored by unforced operations is valid, when no tag is
    outside ASCII. *)
Definition ascii_tags (lang_check : cps -> option bool) (o : md_op) : Prop :=
  match o with MSetLangs l _ => Forall (fun x => lang_check x <> None) l | _ => True end.
Theorem languages_always_valid : forall lang_check dig ops, Forall unforced ops -> Forall (ascii_tags lang_check) ops ->
  Forall (fun t => lang_check t = Some true) (md_languages (md_run lang_check dig ops)).
Proof.
  intros lang_check dig ops H1 H2. unfold md_run.
  assert (G : forall ops m, Forall unforced ops -> Forall (ascii_tags lang_check) ops ->
    Forall (fun t => lang_check t = Some true) (md_languages m) ->
    Forall (fun t => lang_check t = Some true) (md_languages (fold_left (fun m o => fst (md_step lang_check dig m o)) ops m))).
  { clear. induction ops as [|o ops IH]; intros m H H' Hm; [exact Hm|]. inversion H as [|? ? Ho Hr]; subst. inversion H' as [|? ? Ha Hb]; subst. cbn [fold_left].
    apply IH; auto. clear IH H Hr H' Hb.
    destruct o as [d f|d f|d f|l f|l f|v f]; cbn [unforced] in Ho; subst f; cbn [md_step].
    - pose proof (set_date_spec m d) as S. destruct (md_set_date m d false) as [m' x]. cbn [fst]. destruct S as [[_ [S1 _]] _]. rewrite S1. exact Hm.
    - pose proof (set_start_spec m d) as S. destruct (md_set_start m d false) as [m' x]. cbn [fst]. destruct S as [[_ [S1 _]] _]. rewrite S1. exact Hm.
    - pose proof (set_end_spec m d) as S. destruct (md_set_end m d false) as [m' x]. cbn [fst]. destruct S as [[_ [S1 _]] _]. rewrite S1. exact Hm.
    - pose proof (add_language_spec lang_check m l) as S. destruct (md_add_language lang_check m l false) as [m' x]. cbn [fst].
      destruct S as [_ [[S1 [_ [S2 _]]]|[_ [_ [S2 _]]]]]; [|rewrite S2; exact Hm].
      apply Forall_forall. intros t Ht. apply S2 in Ht. rewrite Forall_forall in Hm. destruct Ht as [->|Ht]; auto.
    - pose proof (set_languages_spec lang_check m l Ha) as S. destruct (md_set_languages lang_check m l false) as [m' x]. cbn [fst].
      destruct S as [[S1 [_ [S2 _]]]|[_ [_ S2]]]; [rewrite S2; exact S1|subst; exact Hm].
    - unfold md_set_unicode_version. destruct (version_prefix dig v); cbn; auto. }
  apply G; auto. constructor.
Qed.

(** Languages stored are among those given, also with tags outside ASCII. *)
Theorem set_languages_subset : forall lang_check m l force t,
  In t (md_languages (fst (md_set_languages lang_check m l force))) -> In t l \/ In t (md_languages m).
Proof.
  intros lang_check m l force t. unfold md_set_languages.
  assert (G : forall fuel i l err l' err', scan_languages lang_check fuel i l err = Some (l', err') -> forall t, In t l' -> In t l).
  { clear. induction fuel as [|f IH]; intros i l err l' err' H t Ht; cbn [scan_languages] in H.
    - destruct (nth_error l i); [discriminate|]. injection H as H _. subst. exact Ht.
    - destruct (nth_error l i) as [x|]; [|injection H as H _; subst; exact Ht]. destruct (lang_check x).
      + eapply IH; eauto.
      + specialize (IH _ _ _ _ _ H t Ht). clear - IH. induction l as [|y l IHl]; [exact IH|]. cbn in IH. destruct (cps_eqb x y); [right; exact IH|].
        destruct IH as [IH|IH]; [left; exact IH|right; auto]. }
  destruct (scan_languages _ _ _ _ _) as [[l' e]|] eqn:E; [|cbn; auto]. destruct (e && negb force)%bool; cbn; [auto|]. intro H. left. eapply G; eauto.
Qed.

(** ** The metadata check *)
Lemma outcome_same : forall t bad r, dget String.eqb t r = None -> dget String.eqb t (outcome t bad r) = Some (negb bad).
Proof.
  intros t bad r H. unfold outcome, report_tested, report_error, add_test_result. destruct bad; cbn [negb orb].
  - unfold dmem. rewrite (dget_dset _ string_eqb_iff), String.eqb_refl. cbn. rewrite (dget_dset _ string_eqb_iff), String.eqb_refl. reflexivity.
  - unfold dmem. rewrite H. cbn. rewrite (dget_dset _ string_eqb_iff), String.eqb_refl. reflexivity.
Qed.
Lemma outcome_other : forall t u bad r, u <> t -> dget String.eqb u (outcome t bad r) = dget String.eqb u r.
Proof.
  intros t u bad r Hn. apply String.eqb_neq in Hn.
  assert (A : forall b r, dget String.eqb u (add_test_result r t b) = dget String.eqb u r).
  { intros b r0. unfold add_test_result. destruct (negb b || _)%bool; [|reflexivity]. rewrite (dget_dset _ string_eqb_iff), Hn. reflexivity. }
  unfold outcome, report_tested, report_error. rewrite A. destruct bad; [apply A|reflexivity].
Qed.
Lemma tells_intro : forall r t bad P, dget String.eqb t r = Some (negb bad) -> (bad = false <-> P) -> tells r t P.
Proof.
  intros r t bad P H HP. unfold tells. rewrite H. destruct bad; cbn [negb].
  - assert (Hn : ~ P) by (intro Hp; apply HP in Hp; discriminate). split; split; intro G; try discriminate; try tauto; auto.
  - assert (Hp : P) by (apply HP; reflexivity). split; split; intro G; try discriminate; try tauto; auto.
Qed.

Section Check.
  Variables (mime : cps -> bool) (dig : N -> bool).
  Hypothesis lf_nodig : dig 10 = false.
  Variables (today : day) (m : metadata).
  Hypothesis today_day : exists_day today.
  Hypothesis start_date : full_date_or_none (md_start m).
  Hypothesis end_date : full_date_or_none (md_end m).

  Lemma gt_iff : forall a b x y, exists_day a -> exists_day b -> x = written a -> y = written b -> (text_gtb x y = false <-> ~ before b a).
  Proof.
    intros a b x y Ha Hb -> ->. pose proof (dates_ordered a b Ha Hb) as H. destruct (text_gtb _ _); split; intro G; try discriminate; auto.
    - exfalso. apply G. apply H. reflexivity.
    - intro Hc. apply H in Hc. discriminate.
  Qed.
  Lemma expired_iff : bad_end (written today) m = false <-> not_expired today m.
  Proof.
    unfold bad_end, not_expired. destruct (md_end m) as [e|] eqn:E; [|split; [intros _ t _ Hc; discriminate|auto]].
    destruct (end_date e eq_refl) as [t [Ht He]]. split.
    - intros H t' Ht' E'. injection E' as E'. apply (gt_iff today t' _ _ today_day Ht' eq_refl E'). exact H.
    - intro H. apply (gt_iff today t _ _ today_day Ht eq_refl He). apply H; [exact Ht|congruence].
  Qed.
  Lemma started_iff : bad_start (written today) m = false <-> started today m.
  Proof.
    unfold bad_start, started. destruct (md_start m) as [e|] eqn:E; [|split; [intros _ t _ Hc; discriminate|auto]].
    destruct (start_date e eq_refl) as [t [Ht He]]. split.
    - intros H t' Ht' E'. injection E' as E'. apply (gt_iff t' today _ _ Ht' today_day E' eq_refl). exact H.
    - intro H. apply (gt_iff t today _ _ Ht today_day He eq_refl). apply H; [exact Ht|congruence].
  Qed.
  Lemma interval_iff : bad_interval m = false <-> interval_ok m.
  Proof.
    unfold bad_interval, interval_ok. destruct (md_start m) as [s|] eqn:Es; [|split; [intros _ ? ? _ _ Hc; discriminate|auto]].
    destruct (md_end m) as [e|] eqn:E; [|split; [intros _ ? ? _ _ _ Hc; discriminate|auto]].
    destruct (start_date s eq_refl) as [t [Ht He]]. destruct (end_date e eq_refl) as [u [Hu He']]. split.
    - intros H s' e' H1 H2 H3 H4. injection H3 as H3. injection H4 as H4. apply (gt_iff s' e' _ _ H1 H2 H3 H4). exact H.
    - intro H. apply (gt_iff t u _ _ Ht Hu He He'). apply H; auto; congruence.
  Qed.
  Lemma description_iff : bad_description mime m = false <-> media_type_ok mime m.
  Proof.
    unfold bad_description, media_type_ok. destruct (md_description m) as [d|]; [|split; [intros _ d t Hc; discriminate|auto]].
    destruct (desc_type d) as [t|] eqn:E; [|split; [intros _ d' t Hc Ht; injection Hc as Hc; congruence|auto]].
    rewrite negb_false_iff. split.
    - intros H d' t' Hd Ht. injection Hd as Hd. congruence.
    - intro H. eapply H; [reflexivity|exact E].
  Qed.
  Lemma scopes_iff : existsb bad_scope (md_scopes m) = false <-> scopes_ok m.
  Proof.
    unfold scopes_ok. induction (md_scopes m) as [|s l IH]; cbn; [split; [intros _ s Hs; contradiction|auto]|].
    rewrite orb_false_iff, IH.
    assert (Hs : bad_scope s = false <-> sc_type s = None \/ sc_type s = Some (txt "domain")).
    { unfold bad_scope. destruct (sc_type s) as [t|]; [|tauto]. rewrite negb_false_iff, cps_eqb_eq. split; [intros ->; auto|intros [H|H]; [discriminate|congruence]]. }
    rewrite Hs. split.
    - intros [H1 H2] s' [<-|H]; auto.
    - intro H. split; [apply H; auto|intros s' Hs'; apply H; auto].
  Qed.
  Lemma version_iff : bad_version dig m = false <-> version_number_ok dig m.
  Proof.
    unfold bad_version, version_number_ok. destruct (md_version m) as [v|]; [|split; [intros _ d Hc; discriminate|auto]].
    rewrite negb_false_iff, (version_ok_iff dig lf_nodig). split; [intros H v' Hv; congruence|auto].
  Qed.

  Theorem check_metadata_spec :
    let '(ok, r) := check_metadata (written today) mime dig m [] in
    (ok = true <-> not_expired today m /\ interval_ok m /\ started today m /\ media_type_ok mime m /\ scopes_ok m /\ version_number_ok dig m) /\
    tells r "validity_end_expiry" (not_expired today m) /\ tells r "validity_start_end" (interval_ok m) /\
    tells r "validity_started" (started today m) /\ tells r "metadata_description_type" (media_type_ok mime m) /\
    tells r "metadata_scope_type" (scopes_ok m) /\ tells r "metadata_version_integer" (version_number_ok dig m).
  Proof.
    unfold check_metadata. cbv zeta.
    split.
    - rewrite negb_true_iff, !orb_false_iff, expired_iff, interval_iff, started_iff, description_iff, scopes_iff, version_iff. tauto.
    - split; [apply (tells_intro _ _ (bad_end (written today) m)); [repeat (rewrite outcome_other by discriminate); apply outcome_same; reflexivity|apply expired_iff]|].
      split; [apply (tells_intro _ _ (bad_interval m)); [repeat (rewrite outcome_other by discriminate); apply outcome_same; repeat (rewrite outcome_other by discriminate); reflexivity|apply interval_iff]|].
      split; [apply (tells_intro _ _ (bad_start (written today) m)); [repeat (rewrite outcome_other by discriminate); apply outcome_same; repeat (rewrite outcome_other by discriminate); reflexivity|apply started_iff]|].
      split; [apply (tells_intro _ _ (bad_description mime m)); [repeat (rewrite outcome_other by discriminate); apply outcome_same; repeat (rewrite outcome_other by discriminate); reflexivity|apply description_iff]|].
      split; [apply (tells_intro _ _ (existsb bad_scope (md_scopes m))); [repeat (rewrite outcome_other by discriminate); apply outcome_same; repeat (rewrite outcome_other by discriminate); reflexivity|apply scopes_iff]|].
      apply (tells_intro _ _ (bad_version dig m)); [repeat (rewrite outcome_other by discriminate); apply outcome_same; repeat (rewrite outcome_other by discriminate); reflexivity|apply version_iff].
  Qed.
End Check.

(** ** Counterexamples *)
(** A language library in which a text with a code point above 127 cannot be
    encoded and only "en" is valid. *)
Definition lang_sample (t : cps) : option bool :=
  if existsb (fun c => N.ltb 127 c) t then None else Some (cps_eqb t (txt "en")).
(** Two tags outside ASCII: the second is stored. *)
Theorem languages_unchecked : exists lang_check l t,
  In t (md_languages (fst (md_set_languages lang_check new_metadata l false))) /\ snd (md_set_languages lang_check new_metadata l false) = Ok tt /\ lang_check t = None.
Proof. exists lang_sample, [[233]; [232]], [232]. vm_compute. auto. Qed.
(** A tag following one outside ASCII is not checked. *)
Theorem languages_invalid_stored : exists lang_check l t,
  In t (md_languages (fst (md_set_languages lang_check new_metadata l false))) /\ snd (md_set_languages lang_check new_metadata l false) = Ok tt /\ lang_check t = Some false.
Proof. exists lang_sample, [[233]; txt "xx"], (txt "xx"). vm_compute. auto. Qed.
(** Forcing a date may still raise, and not the documented exception. *)
Theorem forced_date_raises : exists s, md_set_date new_metadata s true = (new_metadata, Raise OverflowError).
Proof. exists (txt "99999999999-01-01"). vm_compute. reflexivity. Qed.
(** A Unicode version followed by other text is accepted. *)
Theorem unicode_version_loose : exists v, let '(m, x) := md_set_unicode_version ascii_digit new_metadata v false in
  x = Ok tt /\ md_unicode m = Some v /\ ~ exists a b c, digit_run ascii_digit a /\ digit_run ascii_digit b /\ digit_run ascii_digit c /\ v = a ++ [46] ++ b ++ [46] ++ c.
Proof.
  exists (txt "6.3.0 beta"). vm_compute (md_set_unicode_version _ _ _ _). split; [reflexivity|]. split; [reflexivity|].
  intros [a [b [c [_ [_ [[Hne Hc] H]]]]]]. assert (Hl : last (a ++ [46] ++ b ++ [46] ++ c) 0 = 97) by (rewrite <- H; reflexivity).
  assert (Hx : last (a ++ [46] ++ b ++ [46] ++ c) 0 = last c 0).
  { clear - Hne. destruct (exists_last Hne) as [c' [x Hc]]. subst c. rewrite !app_assoc, !last_last. reflexivity. }
  assert (Hd : ascii_digit (last c 0) = true).
  { destruct (exists_last Hne) as [c' [x E]]. subst c. rewrite last_last. rewrite Forall_forall in Hc. apply Hc. apply in_app_iff. right. left. reflexivity. }
  rewrite <- Hx, Hl in Hd. discriminate.
Qed.
(** The version check accepts a trailing line feed. *)
Theorem version_newline : exists m, fst (check_metadata (written (mkDay 2024 1 1)) (fun _ => true) ascii_digit m []) = true /\
  md_version m = Some (mkVersion [49; 10] None).
Proof. exists (mkMeta (Some (mkVersion [49; 10] None)) None [] [] None None None None []). vm_compute. auto. Qed.
