(** IDNA 2008 report and script of a label (C56, C57); witnesses. *)
From Verif Require Import Base BaseFacts UtilsModel RefModel CharModel RepSpec RepProofs VariantProofs IterProofs ActionModel LgrModel LgrSpec LgrReach LgrInv LgrFinal Rfc7940Model Rfc7940Spec
  ValidateSpec ValidateProofs ValidateFinal StatsProofs CompareModel MetaModel StatsNamed ChecksModel ChecksSpec ChecksProofs.
From Coq Require Import Ascii.
Open Scope string_scope.
Open Scope list_scope.

Lemma prefix_iff_app : forall p s, String.prefix p s = true <-> exists r, s = (p ++ r)%string.
Proof.
  induction p as [|c p IH]; intro s.
  - split; [exists s; reflexivity|]. intros _. destruct s; reflexivity.
  - destruct s as [|d s]; [split; [discriminate|intros [r H]; discriminate]|].
    change (String.prefix (String c p) (String d s)) with (if ascii_dec c d then String.prefix p s else false).
    destruct (ascii_dec c d) as [E|E].
    + subst d. rewrite IH. split; intros [r H]; exists r; [rewrite H; reflexivity|injection H as H; exact H].
    + split; [discriminate|]. intros [r H]. injection H as H _. congruence.
Qed.
Lemma reflexive_In : forall ch v, wf_char ch -> (In v (get_reflexive_variants ch) <-> In v (get_variants ch) /\ v_cp v = ch_cp ch).
Proof.
  intros ch v Hw. pose proof Hw as Hw'. destruct Hw' as [[Hnd Hv] _].
  unfold get_reflexive_variants. rewrite (get_variants_In ch v Hw). split.
  - destruct (dget cps_eqb (ch_cp ch) (ch_variants ch)) as [l|] eqn:E; [|intros []]. intro H.
    apply (dget_In _ cps_eqb_eq) in E. destruct (Hv _ _ E) as [_ [_ [H3 _]]]. rewrite (H3 v H). split; [exists l; auto|reflexivity].
  - intros [[l [H1 H2]] H3]. rewrite H3 in H1. rewrite (In_dget _ cps_eqb_eq _ _ _ Hnd H1). exact H2.
Qed.
Lemma out_iff : forall g c ch, lgr_reachable g -> lk (lg_rep g) c = Some ch -> (is_out_of_repertoire ch = true <-> declared_out g c).
Proof.
  intros g c ch Hg H. pose proof (lgr_reachable_wf g Hg) as Hwf. pose proof (lk_wf _ _ _ Hwf H) as Hw. pose proof (lk_cp _ _ _ H) as Hcp.
  unfold is_out_of_repertoire, declared_out. rewrite existsb_exists. split.
  - intros [v [H1 H2]]. apply (reflexive_In ch v Hw) in H1. destruct H1 as [H1 H3]. destruct (v_type v) as [t|] eqn:Et; [|discriminate].
    destruct (String.eqb t ""); [discriminate|]. apply prefix_iff_app in H2. destruct H2 as [r H2]. exists v, t, r.
    split; [apply mapping_lk; exists ch; rewrite <- Hcp; rewrite <- Hcp in H; auto|]. auto.
  - intros [v [t [r [H1 [H2 H3]]]]]. apply mapping_lk in H1. destruct H1 as [ch' [K1 [K2 K3]]]. assert (ch' = ch) by congruence. subst ch'.
    exists v. split; [apply reflexive_In; [exact Hw|]; split; [exact K2|congruence]|]. rewrite H2.
    destruct (String.eqb_spec t "") as [E|E]; [subst t; discriminate|]. apply prefix_iff_app. exists r. exact H3.
Qed.
Lemma rep_len_all : forall r, rep_len r = length (all_chars r).
Proof.
  intro r. unfold rep_len, all_chars. induction (rep_chars r) as [|[k l] d IH]; [reflexivity|]. cbn [map fold_right flat_map snd]. rewrite app_length. rewrite IH. reflexivity.
Qed.
Lemma listed_all : forall r, all_repertoire r true true = all_chars r.
Proof.
  intro r. unfold all_repertoire, all_chars. induction (flat_map snd (rep_chars r)) as [|c l IH]; [reflexivity|]. cbn [filter].
  replace (negb (is_seq c && negb true) && negb (is_range c && negb true))%bool with true by (destruct (is_seq c), (is_range c); reflexivity). rewrite IH. reflexivity.
Qed.
Lemma NoDup_filter_map : forall {A B} (f : A -> B) p l, NoDup (map f l) -> NoDup (map f (filter p l)).
Proof.
  intros A B f p. induction l as [|a l IH]; intro H; [constructor|]. cbn [map filter] in *. inversion H; subst. destruct (p a); [|auto]. cbn [map]. constructor; [|auto].
  intro K. apply in_map_iff in K. destruct K as [b [K1 K2]]. apply filter_In in K2. destruct K2 as [K2 _]. apply H2. rewrite <- K1. apply in_map. exact K2.
Qed.
Lemma idna2008_spec : forall db g es, lgr_reachable g -> enumerates (lg_rep g) es ->
  let '(some, report, compliant) := check_idna2008 db g in
  NoDup (map il_cp report) /\
  (forall line, In line report <-> exists ch, lookup (lg_rep g) (il_cp line) = Some ch /\
     (exists x, In x (il_cp line) /\ ~ idna_ok db x) /\ ~ declared_out g (il_cp line) /\
     il_property line = map (ucd_idna db) (il_cp line) /\
     (il_idna2003 line = true <-> forall x, In x (il_cp line) -> ucd_idna2003_disallowed db x = false)) /\
  (some = true <-> report <> []) /\
  (compliant + Z.of_nat (length report))%Z = Z.of_nat (length es).
Proof.
  intros db g es Hg [He1 He2]. pose proof (lgr_reachable_wf g Hg) as Hwf. unfold check_idna2008. rewrite listed_all.
  set (keep := fun ch => if negb (is_out_of_repertoire ch) then negb (fst (is_idna_valid db (ch_cp ch) false)) else false).
  assert (Hcp : forall l, map il_cp (map (idna_line_of db) l) = map ch_cp l) by (intro l; rewrite map_map; reflexivity).
  split; [rewrite Hcp; apply NoDup_filter_map; apply all_chars_NoDup; exact Hwf|]. split; [|split].
  - intro line. rewrite in_map_iff. split.
    + intros [ch [H1 H2]]. apply filter_In in H2. destruct H2 as [H2 H3]. apply in_all_chars_lk in H2; [|exact Hwf]. subst line. cbn [il_cp idna_line_of il_property il_idna2003].
      exists ch. split; [rewrite lookup_lk; exact H2|]. unfold keep in H3. destruct (negb (is_out_of_repertoire ch)) eqn:Eo; [|discriminate].
      apply negb_true_iff in Eo. split; [|split; [|split; [reflexivity|]]].
      * apply negb_true_iff in H3. unfold is_idna_valid in H3.
        destruct (forallb (fun x => memb String.eqb (ucd_idna db x) valid_idna_values) (ch_cp ch)) eqn:E.
        -- exfalso. assert (K : fst (idna_valid_loop db false (ch_cp ch) []) = true); [|congruence]. apply idna_loop_first. split; [reflexivity|].
           intros x Hx. apply idna_ok_iff. rewrite forallb_forall in E. apply E. exact Hx.
        -- apply existsb_false_forall in E. destruct E as [x [E1 E2]]. exists x. split; [exact E1|]. rewrite <- idna_ok_iff. congruence.
      * rewrite <- (out_iff g (ch_cp ch) ch Hg H2). congruence.
      * rewrite negb_true_iff. split.
        -- intros H x Hx. destruct (ucd_idna2003_disallowed db x) eqn:E; [|reflexivity]. exfalso.
           assert (K : existsb (ucd_idna2003_disallowed db) (ch_cp ch) = true) by (apply existsb_exists; exists x; auto). congruence.
        -- intro H. destruct (existsb _ _) eqn:E; [|reflexivity]. exfalso. apply existsb_exists in E. destruct E as [x [E1 E2]]. rewrite (H x E1) in E2. discriminate.
    + intros [ch [H1 [[x [Hx Hn]] [Ho [Hp Hi]]]]]. rewrite lookup_lk in H1. pose proof (lk_cp _ _ _ H1) as Hc. exists ch. split.
      * unfold idna_line_of. rewrite Hc. destruct line as [c p i]. cbn [il_cp il_property il_idna2003] in *. f_equal; [auto|].
        destruct i.
        -- apply negb_true_iff. destruct (existsb (ucd_idna2003_disallowed db) c) eqn:E; [|reflexivity]. exfalso. apply existsb_exists in E.
           destruct E as [y [E1 E2]]. rewrite (proj1 Hi eq_refl y E1) in E2. discriminate.
        -- apply negb_false_iff. destruct (existsb (ucd_idna2003_disallowed db) c) eqn:E; [reflexivity|]. exfalso. assert (false = true); [|discriminate]. apply Hi.
           intros y Hy. destruct (ucd_idna2003_disallowed db y) eqn:F; [|reflexivity].
           assert (K : existsb (ucd_idna2003_disallowed db) c = true) by (apply existsb_exists; exists y; auto). congruence.
      * apply filter_In. split; [eapply lk_in_all; eauto|]. unfold keep. rewrite <- (out_iff g (il_cp line) ch Hg H1) in Ho. apply not_true_iff_false in Ho. rewrite Ho. cbn [negb].
        apply negb_true_iff. destruct (fst (is_idna_valid db (ch_cp ch) false)) eqn:E; [|reflexivity]. exfalso. unfold is_idna_valid in E. apply idna_loop_first in E.
        destruct E as [_ E]. apply Hn, E. rewrite Hc. exact Hx.
  - destruct (map (idna_line_of db) (filter keep (all_chars (lg_rep g)))); split; congruence.
  - rewrite rep_len_all. assert (L : length (all_chars (lg_rep g)) = length es); [|lia].
    apply Permutation_length. apply NoDup_Permutation; [apply (NoDup_map_inv ch_cp), all_chars_NoDup; exact Hwf|exact He1|].
    intro ch. rewrite He2, lookup_lk. apply in_all_chars_lk. exact Hwf.
Qed.

(** ** C57 *)
Lemma neutral_iff : forall s, common_or_inherited s = true <-> neutral s.
Proof. intro s. unfold common_or_inherited, neutral. rewrite orb_true_iff, !String.eqb_eq. tauto. Qed.
Lemma kana_iff : forall s, kana s = true <-> is_kana s.
Proof. intro s. unfold kana, is_kana. rewrite orb_true_iff, !String.eqb_eq. tauto. Qed.
Lemma first_script_own : forall script l before x s, first_own script l before x -> first_script script s l = script x.
Proof.
  intros script. induction l as [|c l IH]; intros before x s [[after H1] [H2 H3]].
  - destruct before; discriminate.
  - cbn [first_script]. destruct before as [|b before]; cbn [app] in H1; injection H1 as H1 H4.
    + subst c. destruct (common_or_inherited (script x)) eqn:E; [apply neutral_iff in E; contradiction|reflexivity].
    + subst c. rewrite (proj2 (neutral_iff (script b)) (H2 b (or_introl eq_refl))). apply (IH before). split; [exists after; exact H4|].
      split; [|exact H3]. intros y Hy. apply H2. right. exact Hy.
Qed.
Lemma first_script_none : forall script l s, (forall y, In y l -> neutral (script y)) -> first_script script s l = last (map script l) s.
Proof.
  intros script. induction l as [|c l IH]; intros s H; [reflexivity|]. cbn [first_script map].
  rewrite (proj2 (neutral_iff (script c)) (H c (or_introl eq_refl))). rewrite IH by (intros y Hy; apply H; right; exact Hy).
  destruct l as [|d l]; [reflexivity|]. cbn [map last]. clear. revert d. induction l as [|e l IH]; intro d; [reflexivity|]. cbn [map last]. apply IH.
Qed.
Definition finish (s1 : string) : string := String.append "und-" (if kana s1 then "Jpan" else if String.eqb s1 "Hang" then "Kore" else s1).
Lemma finish_tag : forall s, lgr_tag s (finish s).
Proof.
  intro s. unfold lgr_tag, finish. destruct (kana s) eqn:E.
  - apply kana_iff in E. split; [reflexivity|]. split; [|contradiction]. intro; subst. destruct E; discriminate.
  - assert (~ is_kana s) by (rewrite <- kana_iff; congruence). split; [contradiction|]. destruct (String.eqb_spec s "Hang") as [F|F]; [split; [reflexivity|contradiction]|].
    split; [contradiction|reflexivity].
Qed.
Lemma finish_neutral : forall s, neutral s -> finish s = ("und-" ++ s)%string.
Proof. intros s [H|H]; subst; reflexivity. Qed.
Lemma rz_own : forall script label before x, first_own script label before x -> before <> [] \/ script x <> "Hani" ->
  exists tag, get_rz_label_script script label = Some tag /\ lgr_tag (script x) tag.
Proof.
  intros script label before x Hf Hc. destruct label as [|c rest]; [destruct Hf as [[after H] _]; destruct before; discriminate|].
  exists (finish (script x)). split; [|apply finish_tag]. unfold get_rz_label_script. fold (finish (script x)). cbv zeta.
  match goal with |- Some ("und-" ++ (if kana ?s then _ else _))%string = _ => change (Some (finish s) = Some (finish (script x))) end.
  f_equal. f_equal. destruct Hf as [[after H1] [H2 H3]]. destruct before as [|b before].
  - cbn [app] in H1. injection H1 as H1 H4. subst c. destruct Hc as [Hc|Hc]; [contradiction|]. destruct (String.eqb_spec (script x) "Hani") as [E|E]; [contradiction|].
    destruct (common_or_inherited (script x)) eqn:F; [apply neutral_iff in F; contradiction|reflexivity].
  - cbn [app] in H1. injection H1 as H1 H4. subst c. pose proof (H2 b (or_introl eq_refl)) as Hb.
    destruct (String.eqb_spec (script b) "Hani") as [E|E]; [rewrite E in Hb; destruct Hb; discriminate|].
    rewrite (proj2 (neutral_iff _) Hb). rewrite (first_script_own script rest before x).
    + destruct (common_or_inherited (script x)) eqn:F; [apply neutral_iff in F; contradiction|reflexivity].
    + split; [exists after; exact H4|]. split; [|exact H3]. intros y Hy. apply H2. right. exact Hy.
Qed.
Lemma rz_han : forall script x rest, script x = "Hani" ->
  ((exists y, In y rest /\ is_kana (script y)) -> get_rz_label_script script (x :: rest) = Some "und-Jpan") /\
  (~ (exists y, In y rest /\ is_kana (script y)) -> get_rz_label_script script (x :: rest) = Some "und-Hani").
Proof.
  intros script x rest H. unfold get_rz_label_script. rewrite H. cbn [String.eqb]. change (String.eqb "Hani" "Hani") with true. cbv iota zeta.
  destruct (existsb (fun y => kana (script y)) rest) eqn:E.
  - split; [reflexivity|]. intro K. exfalso. apply K. apply existsb_exists in E. destruct E as [y [E1 E2]]. exists y. split; [exact E1|]. apply kana_iff. exact E2.
  - split; [|reflexivity]. intros [y [K1 K2]]. exfalso. apply kana_iff in K2.
    assert (C : existsb (fun y => kana (script y)) rest = true) by (apply existsb_exists; exists y; auto). congruence.
Qed.
Lemma last_map : forall {A B} (f : A -> B) l a, last (map f l) (f a) = f (last l a).
Proof. intros A B f. induction l as [|c l IH]; intro a; [reflexivity|]. cbn [map last]. destruct l; [reflexivity|]. cbn [map]. cbn [map] in IH. apply IH. Qed.
Lemma last_default : forall {A} (l : list A) a d d', last (a :: l) d = last (a :: l) d'.
Proof. intros A. induction l as [|b l IH]; intros a d d'; [reflexivity|]. change (last (b :: l) d = last (b :: l) d'). apply IH. Qed.
Lemma last_cons : forall {A} (l : list A) a d, last (a :: l) d = last l a.
Proof. intros A l a d. destruct l as [|b l]; [reflexivity|]. change (last (b :: l) d = last (b :: l) a). apply last_default. Qed.
Lemma last_in : forall {A} (l : list A) a d, In (last (a :: l) d) (a :: l).
Proof. intros A. induction l as [|b l IH]; intros a d; [left; reflexivity|]. right. apply (IH b d). Qed.
Lemma rz_neutral : forall script label, label <> [] -> (forall y, In y label -> neutral (script y)) ->
  ((exists y, In y label /\ (y = 12294 \/ y = 12540)%N) -> get_rz_label_script script label = Some "und-Jpan") /\
  (~ (exists y, In y label /\ (y = 12294 \/ y = 12540)%N) ->
   get_rz_label_script script label = Some ("und-" ++ script (last label 0%N))%string).
Proof.
  intros script [|c rest] Hn Hl; [contradiction|]. pose proof (Hl c (or_introl eq_refl)) as Hc.
  unfold get_rz_label_script. cbv zeta. destruct (String.eqb_spec (script c) "Hani") as [E|E]; [rewrite E in Hc; destruct Hc; discriminate|].
  rewrite (proj2 (neutral_iff _) Hc). rewrite first_script_none by (intros y Hy; apply Hl; right; exact Hy). rewrite last_map.
  rewrite <- (last_cons rest c 0%N). pose proof (Hl _ (last_in rest c 0%N)) as Hla. rewrite (proj2 (neutral_iff _) Hla). cbn [andb].
  assert (J : existsb (fun x => memb N.eqb x jpan_pair) (c :: rest) = true <-> exists y, In y (c :: rest) /\ (y = 12294 \/ y = 12540)%N).
  { rewrite existsb_exists. split; intros [y [K1 K2]]; exists y; (split; [exact K1|]).
    - apply (memb_In _ _ N_eqb_iff) in K2. destruct K2 as [K2|[K2|[]]]; auto.
    - apply (memb_In _ _ N_eqb_iff). unfold jpan_pair. cbn [In]. destruct K2; subst; auto. }
  destruct (existsb (fun x => memb N.eqb x jpan_pair) (c :: rest)).
  - split; [reflexivity|]. intro K. exfalso. apply K, J. reflexivity.
  - split; [intro K; apply J in K; discriminate|]. intros _. fold (finish (script (last (c :: rest) 0%N))). f_equal. apply finish_neutral. exact Hla.
Qed.

(** ** Witnesses *)
Definition lvart (a b : cps) (t : string) := LAddVariant a b (Some t) None None None [] None false false.
Definition doc_for (ops : list lgr_op) (disps : list string) (version : cps) : doc :=
  mkDoc "" (lgr_of ops) (mkMeta None None [] [] None None (Some version) None []) (map (fun d => mkAction d None None None None None) disps) [] [] [] [] [].
(** Code points up to 100 are PVALID; those above 60 are disallowed by IDNA 2003. *)
Definition toy_ucd : ucd := mkUcd (txt "6.3.0") (fun x => if (x <=? 100)%N then "PVALID" else "DISALLOWED") (fun x => (60 <? x)%N).
Definition fair_ops : list lgr_op :=
  [LAddReference "book" None None; LAddReference "page" None None; LAddCp [10] None ["0"; "1"] [] None None None false false; lcp [20; 21];
   LAddRange 30 33 None ["1"] [] None None None false false; lvart [10] [20; 21] "blocked"].
Lemma fair_tidy : tidy (lgr_of fair_ops).
Proof. apply ranges_tidy. vm_compute. reflexivity. Qed.
Lemma fair_passes : snd (check_miscellaneous (Some toy_ucd) (doc_for fair_ops ["blocked"] (txt "6.3.0"))) = Ok true.
Proof. vm_compute. reflexivity. Qed.
Definition foul_ops : list lgr_op :=
  [LAddReference "book" None None; LAddReference "page" None None; LAddCp [10] None ["1"; "0"] [] None None None false false; lcp [200];
   lvart [10] [10] "_x"].
Lemma foul_results : let rs := fst (check_miscellaneous (Some toy_ucd) (doc_for foul_ops ["blocked"] (txt "6.3.0"))) in
  failed rs "data_variant_type" /\ failed rs "codepoint_valid" /\ failed rs "ref_attribute_ascending" /\ ~ failed rs "standard_dispositions".
Proof.
  assert (B : forall rs t, existsb (fun p : report => (String.eqb (fst p) t && negb (snd p))%bool) rs = true <-> failed rs t).
  { intros rs t. rewrite existsb_exists. unfold failed. split.
    - intros [[u b] [H1 H2]]. apply andb_prop in H2. destruct H2 as [H2 H3]. cbn [fst snd] in *. apply String.eqb_eq in H2. subst u. destruct b; [discriminate|exact H1].
    - intro H. exists (t, false). split; [exact H|]. cbn [fst snd]. rewrite String.eqb_refl. reflexivity. }
  cbv zeta. rewrite <- !B. vm_compute. repeat split; discriminate.
Qed.
(** Only ranges: everything is right, yet a policy that asks for the variant types fails. *)
Lemma range_only_fails : exists db d pol, tidy (doc_lgr d) /\ (forall t p, In (t, p) pol -> In t ["standard_dispositions"; "data_variant_type"; "codepoint_valid"; "ref_attribute_ascending"]) /\
  snd (check_miscellaneous (Some db) d) = Ok true /\
  get_final_result (fun t => t) (apply_reports [] (fst (check_miscellaneous (Some db) d))) (Some pol) false = "FAIL".
Proof.
  exists toy_ucd, (doc_for [LAddRange 30 33 None [] [] None None None false false] [] (txt "6.3.0")), [("data_variant_type", "ERROR")].
  split; [apply ranges_tidy; vm_compute; reflexivity|]. split; [|split; vm_compute; reflexivity].
  intros t p [H|[]]. injection H as H _. subst t. cbn. auto.
Qed.
(** A disposition outside the standard hides every fault of the data. *)
Lemma data_hidden : exists db d, tidy (doc_lgr d) /\ ~ types_ok (doc_lgr d) /\ ~ refs_ok (doc_lgr d) /\ same_version db d /\ ~ code_points_ok db (doc_lgr d) /\
  forall t, failed (fst (check_miscellaneous (Some db) d)) t -> t = "standard_dispositions".
Proof.
  exists toy_ucd, (doc_for foul_ops ["strange"] (txt "6.3.0")).
  assert (T : tidy (doc_lgr (doc_for foul_ops ["strange"] (txt "6.3.0")))) by (apply ranges_tidy; vm_compute; reflexivity).
  assert (T' : tidy (doc_lgr (doc_for foul_ops ["blocked"] (txt "6.3.0")))) by exact T.
  pose proof (misc_recorded toy_ucd _ T') as M. cbv zeta in M. destruct M as [_ [_ [_ [M1 [_ [M2 [_ [_ [_ [M3 _]]]]]]]]]].
  destruct foul_results as [F1 [F2 [F3 _]]].
  split; [exact T|]. split; [exact (proj2 (proj1 M1 F1))|]. split; [exact (proj2 (proj1 M3 F3))|]. split; [reflexivity|].
  split; [exact (proj2 (proj2 (proj1 M2 F2)))|]. intros t H. vm_compute in H. repeat destruct H as [H|H]; try discriminate; try contradiction. injection H as H. auto.
Qed.
Lemma no_database_raises : exists d, tidy (doc_lgr d) /\ rules_ok d /\ snd (check_miscellaneous None d) = Raise TypeError.
Proof.
  exists (doc_for fair_ops ["blocked"] (txt "6.3.0")). split; [exact fair_tidy|]. split; [|vm_compute; reflexivity].
  intros a [H|[]]. subst a. cbn. unfold standard. auto.
Qed.
(** The entries counted as compliant include entries that are not. *)
Definition out_ops : list lgr_op := [lcp [200]; lvart [200] [200] "Out-Of-Repertoire-Var"; lcp [10]; lcp [70; 300]].
Lemma out_report : check_idna2008 toy_ucd (lgr_of out_ops) = (true, [mkIdnaLine [70; 300] ["PVALID"; "DISALLOWED"] false], 2%Z).
Proof. vm_compute. reflexivity. Qed.
Lemma counted_compliant : exists db g, lgr_reachable g /\
  let '(_, _, compliant) := check_idna2008 db g in
  forall es, NoDup es -> (forall c, In c es -> lookup (lg_rep g) c <> None /\ forall x, In x c -> idna_ok db x) -> (Z.of_nat (length es) < compliant)%Z.
Proof.
  exists toy_ucd, (lgr_of out_ops). split; [apply lgr_of_reachable|]. rewrite out_report. intros es Hnd H.
  assert (I : incl es [[10%N]]).
  { intros c Hc. destruct (H c Hc) as [H1 H2]. rewrite lookup_lk in H1. destruct (lk (lg_rep (lgr_of out_ops)) c) as [ch|] eqn:E; [|congruence].
    pose proof (lk_cp _ _ _ E) as Hcp. apply lk_in_all in E; [|apply lgr_reachable_wf, lgr_of_reachable]. vm_compute in E.
    destruct E as [E|[E|[E|[]]]]; subst ch; cbn [ch_cp] in Hcp; subst c.
    - exfalso. destruct (H2 200%N (or_introl eq_refl)) as [K|[K|K]]; discriminate.
    - left. reflexivity.
    - exfalso. destruct (H2 300%N (or_intror (or_introl eq_refl))) as [K|[K|K]]; discriminate. }
  pose proof (NoDup_incl_length Hnd I) as L. cbn in L. lia.
Qed.
(** Han then kana is Japanese, but not after a common code point. *)
Definition toy_script (x : N) : string := if (x <? 10)%N then "Zyyy" else if (x <? 20)%N then "Hani" else if (x <? 30)%N then "Hira" else "Latn".
Lemma rz_order : exists script c label, neutral (script c) /\ get_rz_label_script script label = Some "und-Jpan" /\
  get_rz_label_script script (c :: label) = Some "und-Hani".
Proof. exists toy_script, 1%N, [10; 20]%N. split; [left; reflexivity|]. split; vm_compute; reflexivity. Qed.
