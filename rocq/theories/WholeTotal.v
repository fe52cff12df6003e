(** The whole review: when it completes, its checks of variant sets, and the review
    of a table against itself. *)
From Coq Require Import Lia.
From Verif Require Import Base BaseFacts CharModel RepSpec RepProofs VarSetProofs ActionModel LgrModel LgrSpec LgrProofs LgrReach CompareModel CompareProofs.
From Verif Require Import ValidateModel ValidateSpec ValidateProofs LabelSpec ClassModel ReviewModel ReviewSpec ReviewSummary ReviewRepertoire ReviewSets ReviewPairing ReviewSelf ReviewRules ReviewWitness.
From Verif Require Import LangModel LangSpec LangProofs GeneralModel GeneralProofs WholeModel WholeSpec WholeVariants WholeChecks WholeProofs.
Open Scope string_scope.
Open Scope list_scope.

(** ** The sets of the table in the report are its variant sets *)
Definition from (sets : list (list cps)) (d : dict cps (list cps)) : Prop := forall k s, In (k, s) d -> In s sets.
Lemma from_get : forall sets d k s, from sets d -> dget cps_eqb k d = Some s -> In s sets.
Proof. intros sets d k s H E. apply (dget_In _ cps_eqb_eq) in E. exact (H _ _ E). Qed.
Lemma from_dset : forall sets d k s, from sets d -> In s sets -> from sets (dset cps_eqb k s d).
Proof.
  intros sets d k s H Hs k' s' E. revert H E. induction d as [|[k0 s0] d IH]; intros H E; cbn [dset] in E.
  - destruct E as [E | []]. injection E as <- <-. exact Hs.
  - destruct (cps_eqb k k0); destruct E as [E | E].
    + injection E as <- <-. exact Hs.
    + exact (H _ _ (or_intror E)).
    + exact (H _ _ (or_introl E)).
    + apply IH; [intros x y Hx; exact (H _ _ (or_intror Hx)) | exact E].
Qed.
Lemma from_ddel : forall sets d k, from sets d -> from sets (ddel cps_eqb k d).
Proof.
  intros sets d k H k' s E. apply (H k' s). clear H. induction d as [|[k0 s0] d IH]; [destruct E|]. cbn [ddel] in E. destruct (cps_eqb k k0); [right; exact E|].
  destruct E as [E | E]; [left; exact E | right; exact (IH E)].
Qed.
Lemma from_by_first : forall sets, from sets (by_first sets).
Proof.
  intros sets. unfold by_first. assert (G : forall l d, incl l sets -> from sets d -> from sets (fold_left (fun d s => match s with [] => d | x :: _ => dset cps_eqb x s d end) l d)).
  { induction l as [|t l IH]; intros d Hl Hd; [exact Hd|]. cbn [fold_left]. apply IH; [intros x Hx; apply Hl; right; exact Hx|].
    destruct t as [|x t]; [exact Hd|]. apply from_dset; [exact Hd | apply Hl; left; reflexivity]. }
  apply G; [intros x Hx; exact Hx | intros ? ? []].
Qed.
Lemma pair_one_from : forall sets i r l p p', from sets (pr_idn p) -> pair_one i r l p = Ok p' -> from sets (pr_idn p').
Proof.
  intros sets i r l p p' H E. unfold pair_one in E. destruct (dget cps_eqb r (pr_ref p)); [|discriminate E]. destruct (_ || _)%bool; [|injection E as <-; exact H].
  cbv zeta in E. apply bind_ok in E. destruct E as (p2 & E2 & E). cbn [pr_idn pr_ref pr_updated pr_new] in E2.
  assert (K : from sets (pr_idn p2)).
  { destruct (dmem cps_eqb (cps_min i r) (pr_idn p)); [injection E2 as <-; exact H|]. destruct (dget cps_eqb i (pr_idn p)) as [s|] eqn:Es; [|discriminate E2]. injection E2 as <-.
    cbn [pr_idn]. apply from_dset; [apply from_ddel; exact H | exact (from_get _ _ _ _ H Es)]. }
  destruct (dmem cps_eqb (cps_min i r) (pr_ref p2)); injection E as <-; exact K.
Qed.
Lemma pair_refs_from : forall rs sets i l p p', from sets (pr_idn p) -> pair_refs i l rs p = Ok p' -> from sets (pr_idn p').
Proof.
  induction rs as [|r rs IH]; intros sets i l p p' H E; cbn [pair_refs] in E; [injection E as <-; exact H|].
  apply bind_ok in E. destruct E as (p1 & E1 & E). exact (IH _ _ _ _ _ (pair_one_from _ _ _ _ _ _ H E1) E).
Qed.
Lemma pair_idns_from : forall is sets rs p p', from sets (pr_idn p) -> pair_idns is rs p = Ok p' -> from sets (pr_idn p').
Proof.
  induction is as [|i is IH]; intros sets rs p p' H E; cbn [pair_idns] in E; [injection E as <-; exact H|].
  destruct (dget cps_eqb i (pr_idn p)); [|discriminate E]. apply bind_ok in E. destruct E as (p1 & E1 & E). exact (IH _ _ _ _ (pair_refs_from _ _ _ _ _ _ H E1) E).
Qed.
Lemma pair_values : forall a b ps k i r, pair_sets a b = Ok ps -> In (k, (i, r)) ps -> i = [] \/ In i a.
Proof.
  intros a b ps k i r E H. unfold pair_sets in E. cbv zeta in E. apply bind_ok in E. destruct E as (p & Ep & E). apply bind_ok in E. destruct E as (ref' & _ & E). injection E as <-.
  apply in_map_iff in H. destruct H as (k' & Ek & _). injection Ek as _ Ei _. subst i.
  assert (F : from a (pr_idn p)) by exact (pair_idns_from _ a _ (mkPairing (by_first a) (by_first b) [] []) _ (from_by_first a) Ep).
  destruct (dget cps_eqb k' (pr_idn p)) as [s|] eqn:Es; [right; exact (from_get _ _ _ _ F Es) | left; reflexivity].
Qed.
Lemma report_sets : forall order oc ir rr rows i r l sets, get_variant_sets ir true = Some sets -> variant_sets_report order oc ir rr = Ok rows ->
  In (i, r, l) rows -> i = [] \/ In i sets.
Proof.
  intros order oc ir rr rows i r l sets Es E H. unfold variant_sets_report in E. rewrite Es in E. destruct (get_variant_sets rr true) as [b|]; [|discriminate E].
  apply bind_ok in E. destruct E as (ps & Ep & E). destruct (reports_for_In _ _ _ _ _ _ E) as (_ & B). destruct (B _ _ _ H) as (k & Hk & _). exact (pair_values _ _ _ _ _ _ Ep Hk).
Qed.
Lemma check_told : forall ir sets i, wf_rep ir -> get_variant_sets ir true = Some sets -> i = [] \/ In i sets ->
  exists c, set_checks ir i = Ok c /\ check_says ir i c.
Proof.
  intros ir sets i Wi Es Hi. destruct i as [|a i]; [exists None; split; reflexivity|]. destruct Hi as [Hi | Hi]; [discriminate Hi|].
  destruct (variant_sets_spec ir true Wi) as (sets' & E & _ & H). rewrite Es in E. injection E as <-.
  destruct (checks_say ir (a :: i) Wi) as (x & y & E & K).
  - apply strict_sorted_NoDup. apply (proj1 (H _) Hi).
  - discriminate.
  - intros c Hc. exact (sets_members ir sets _ c Wi Es Hi Hc).
  - exists (Some (x, y)). split; [exact E|]. exists x, y. split; [reflexivity | exact K].
Qed.
Lemma all_checks_told : forall ir rows, (forall i r l, In (i, r, l) rows -> exists c, set_checks ir i = Ok c /\ check_says ir i c) ->
  exists cs, all_checks ir rows = Ok cs /\ Forall2 (fun x c => check_says ir (fst (fst x)) c) rows cs.
Proof.
  intros ir. induction rows as [|[[i r] l] rows IH]; intros H; [exists []; split; [reflexivity | constructor]|]. cbn [all_checks].
  destruct (H i r l (or_introl eq_refl)) as (c & -> & Hc). destruct (IH (fun i' r' l' Hin => H i' r' l' (or_intror Hin))) as (cs & -> & Hcs).
  exists (c :: cs). split; [reflexivity|]. constructor; [exact Hc | exact Hcs].
Qed.
Lemma checks_total : forall order oc ir rr rows, wf_rep ir -> variant_sets_report order oc ir rr = Ok rows ->
  exists cs, all_checks ir rows = Ok cs /\ Forall2 (fun x c => check_says ir (fst (fst x)) c) rows cs.
Proof.
  intros order oc ir rr rows Wi E. destruct (variant_sets_spec ir true Wi) as (sets & Es & _). apply all_checks_told.
  intros i r l Hin. apply (check_told ir sets i Wi Es). exact (report_sets _ _ _ _ _ _ _ _ _ Es E Hin).
Qed.
Theorem checks_told : forall o idn ref w s, lgr_reachable (it_lgr idn) -> review_lgr o idn ref = Ok (w, s) ->
  Forall2 (fun x c => check_says (it_rep idn) (fst (fst x)) c) (wh_variants w) (wh_checks w).
Proof.
  intros o idn ref w s Ri E. apply review_parts in E. destruct (pt_rows _ _ _ _ _ E) as (rows & Er & Ec & ->).
  destruct (checks_total _ _ (it_rep idn) _ _ (lgr_reachable_wf _ Ri) Er) as (cs & Ec' & H). rewrite Ec in Ec'. injection Ec' as ->. clear - H.
  induction H as [|[[i r] l] c rows cs H Hs IH]; cbn [map]; constructor; [exact H | exact IH].
Qed.

(** ** Completion *)
Theorem review_completes : forall o idn ref rows, lgr_reachable (it_lgr idn) -> lgr_reachable (it_lgr ref) ->
  variant_sets_report (wo_variants o) (wo_cps o) (it_rep idn) (it_rep ref) = Ok rows ->
  classes_fine (wo_runtime o) (wo_fuel o) idn -> classes_fine (wo_runtime o) (wo_fuel o) ref ->
  (forall c ch, lookup (it_rep idn) c = Some ch -> is_seq ch = false) -> (forall l, exists b, wo_test o l = Ok b) ->
  exists w s, review_lgr o idn ref = Ok (w, s).
Proof.
  intros o idn ref rows Ri Rr Er Fi Fr Ns Ht. assert (Wi : wf_rep (it_rep idn)) by exact (lgr_reachable_wf _ Ri). assert (Wr : wf_rep (it_rep ref)) by exact (lgr_reachable_wf _ Rr).
  destruct Fi as (ui & Di & Fi). assert (Db : forall {A} (l : list A), need (is_some (it_db idn)) l = Ok tt) by (intros A l; rewrite Di; unfold need; destruct (nonempty l); reflexivity).
  assert (Db' : forall {A} (l : list A) b, need (is_some (it_db idn) || b) l = Ok tt) by (intros A l b; rewrite Di; unfold need; destruct (nonempty l); reflexivity).
  destruct (checks_total _ _ _ _ _ Wi Er) as (cs & Ec & _).
  destruct (classes_are (wo_runtime o) (wo_fuel o) idn ref Wi Wr (ex_intro _ ui (conj Di Fi)) Fr) as (cl & Ek & _).
  assert (G : exists g, table_general (wo_digit o) (wo_mark o) (wo_rtl o) (wo_script_rtl o) (wo_test o) (wo_tags o) (it_rep idn) (it_languages idn) (Some (it_languages ref)) = Ok g)
    by (rewrite table_uses; apply general_total; [apply lgr_reachable_rep; exact Ri | exact Ns | exact Ht]).
  destruct G as (g & Eg). unfold review_lgr. cbv zeta. rewrite Db', Er. cbn [bind]. rewrite Ec. cbn [bind]. rewrite Db. cbn [bind]. rewrite Ek. cbn [bind]. rewrite Eg. cbn [bind].
  match goal with |- context [generate_summary ?w] => destruct (summary_total w) as (s & ->) end. cbn [bind]. eexists. eexists. reflexivity.
Qed.
Theorem review_total : forall o idn ref, lgr_reachable (it_lgr idn) -> lgr_reachable (it_lgr ref) -> symmetric (it_rep idn) -> symmetric (it_rep ref) ->
  classes_fine (wo_runtime o) (wo_fuel o) idn -> classes_fine (wo_runtime o) (wo_fuel o) ref ->
  (forall c ch, lookup (it_rep idn) c = Some ch -> is_seq ch = false) -> (forall l, exists b, wo_test o l = Ok b) ->
  exists w s, review_lgr o idn ref = Ok (w, s).
Proof.
  intros o idn ref Ri Rr Si Sr Fi Fr Ns Ht.
  destruct (report_produced (wo_variants o) (wo_cps o) (it_rep idn) (it_rep ref) (lgr_reachable_wf _ Ri) (lgr_reachable_wf _ Rr) (symmetric_edges _ Si) (symmetric_edges _ Sr)) as (rows & Er).
  exact (review_completes o idn ref rows Ri Rr Er Fi Fr Ns Ht).
Qed.
Theorem database_needed : forall o idn ref x, lgr_reachable (it_lgr idn) -> lgr_reachable (it_lgr ref) -> review_lgr o idn ref = Ok x -> it_db idn <> None /\ it_db ref <> None.
Proof.
  intros o idn ref [w s] Ri Rr E. destruct (fine_both o idn ref w s E) as ((u & -> & _) & (v & -> & _)). split; discriminate.
Qed.

(** ** Against itself *)
Theorem review_self : forall o t w s, any_order (wo_strings o) -> any_order (wo_cps o) -> lgr_reachable (it_lgr t) -> no_ranges (it_rep t) -> one_rule (it_rep t) ->
  (List.length (it_languages t) <= 1)%nat -> review_lgr o t t = Ok (w, s) -> all_match s.
Proof.
  intros o t w s Os Oc R Nr One Lg E. assert (W : wf_rep (it_rep t)) by exact (lgr_reachable_wf _ R). unfold all_match.
  split; [|split; [|split; [|split; [|split]]]].
  - apply (tags_match o t t w s E). split; [intros H; exact H|]. intros a b Ha Hb. destruct (it_languages t) as [|x [|y l]]; [destruct Ha| |cbn in Lg; lia].
    destruct Ha as [<- | []]. destruct Hb as [<- | []]. eexists. apply compare_iff. apply (LangProofs.compare_self _ _ x (two_letters (wo_alpha2 o) x)); apply normalised_two; reflexivity.
  - apply (repertoire_match o t t Os R R w s E). intros c. destruct (lookup (it_rep t) c); [|exact I]. split; [intros; tauto | reflexivity].
  - destruct (variants_rows o t t w s E) as (rows & Er & H). apply H. destruct (variants_self (wo_variants o) (wo_cps o) _ Oc W) as (l & El & Hl). rewrite Er in El. injection El as <-. exact Hl.
  - apply (classes_match o t t R R w s E). intros; tauto.
  - apply (rules_match o t t R R w s E Nr). intros n _. split; [reflexivity|]. intros c. split; intros (ch & L & H); exists ch; (split; [exact L|]); apply (rule_agree ch n (One _ _ L)); exact H.
  - apply (actions_match o t t w s E). split; intros a Ha; apply found_self; exact Ha.
Qed.
Theorem review_self_total : forall o t, any_order (wo_cps o) -> lgr_reachable (it_lgr t) -> classes_fine (wo_runtime o) (wo_fuel o) t ->
  (forall c ch, lookup (it_rep t) c = Some ch -> is_seq ch = false) -> (forall l, exists b, wo_test o l = Ok b) ->
  exists w s, review_lgr o t t = Ok (w, s).
Proof.
  intros o t Oc R F Ns Ht. destruct (variants_self (wo_variants o) (wo_cps o) (it_rep t) Oc (lgr_reachable_wf _ R)) as (l & El & _).
  exact (review_completes o t t l R R El F F Ns Ht).
Qed.

(** ** The remark on missing sequences *)
Lemma missing_none : forall r ir, wf_rep ir -> no_ranges ir -> missing_sequence r ir = None -> forall c, In c r -> ~ broken ir c.
Proof.
  intros r ir Wi Nr. induction r as [|c r IH]; intros H x Hx; [destruct Hx|]. cbn [missing_sequence] in H. destruct Hx as [<- | Hx].
  - intros (Hl & y & e & Hy & He & L). apply Nat.ltb_lt in Hl. rewrite Hl in H. destruct (set_inter N.eqb c (all_single ir)) eqn:E; [|discriminate H].
    assert (K : In y (set_inter N.eqb c (all_single ir))).
    { apply (set_inter_In _ N_eqb_iff). split; [exact Hy|]. unfold all_single. apply in_flat_map. rewrite lookup_lk in L. destruct (lk ir e) as [ch|] eqn:Ek; [|contradiction].
      pose proof (lk_cp _ _ _ Ek) as Ec. exists ch. split; [|rewrite Ec; exact He]. apply (no_ranges_iter _ _ Wi Nr), (in_all_chars_lk _ _ Wi). rewrite Ec. exact Ek. }
    rewrite E in K. destruct K.
  - apply IH; [|exact Hx]. destruct (Nat.ltb 1 (List.length c)); [|exact H]. destruct (set_inter N.eqb c (all_single ir)); [exact H | discriminate H].
Qed.
Lemma missing_some : forall r ir c l, wf_rep ir -> no_ranges ir -> missing_sequence r ir = Some (c, l) -> first_broken ir r c.
Proof.
  intros r ir c l Wi Nr. induction r as [|x r IH]; intros H; [discriminate H|].
  destruct (Nat.ltb 1 (List.length x)) eqn:Hl.
  - cbn [missing_sequence] in H. rewrite Hl in H. destruct (set_inter N.eqb x (all_single ir)) as [|y t] eqn:E.
    + destruct (IH H) as (l1 & l2 & -> & B & F). exists (x :: l1), l2. split; [reflexivity|]. split; [exact B|]. intros z [<- | Hz]; [|exact (F z Hz)].
      apply (missing_none [x] ir Wi Nr); [|left; reflexivity]. cbn [missing_sequence]. rewrite Hl, E. reflexivity.
    + injection H as <- _. exists [], r. split; [reflexivity|]. split; [|intros ? []]. split; [apply Nat.ltb_lt; exact Hl|].
      assert (K : In y (set_inter N.eqb x (all_single ir))) by (rewrite E; left; reflexivity). apply (set_inter_In _ N_eqb_iff) in K. destruct K as [K1 K2].
      unfold all_single in K2. apply in_flat_map in K2. destruct K2 as (ch & Hch & K2). apply (no_ranges_iter _ _ Wi Nr), (in_all_chars_lk _ _ Wi) in Hch.
      exists y, (ch_cp ch). split; [exact K1|]. split; [exact K2|]. rewrite lookup_lk. congruence.
  - cbn [missing_sequence] in H. rewrite Hl in H. destruct (IH H) as (l1 & l2 & -> & B & F). exists (x :: l1), l2. split; [reflexivity|]. split; [exact B|]. intros z [<- | Hz]; [|exact (F z Hz)].
    intros (K & _). apply Nat.ltb_lt in K. congruence.
Qed.
Theorem notice_told : forall o idn ref w s, lgr_reachable (it_lgr idn) -> no_ranges (it_rep idn) -> review_lgr o idn ref = Ok (w, s) ->
  exists rows, variant_sets_report (wo_variants o) (wo_cps o) (it_rep idn) (it_rep ref) = Ok rows /\
    Forall2 (fun x y => fst x = fst y /\
      (forall c, fst (fst x) = [] -> first_broken (it_rep idn) (snd (fst x)) c -> Forall2 (with_remark (may_be_missing (wo_shown o c))) (snd x) (snd y)) /\
      (fst (fst x) <> [] \/ (forall c, In c (snd (fst x)) -> ~ broken (it_rep idn) c) -> snd y = snd x)) rows (wh_variants w).
Proof.
  intros o idn ref w s Ri Nr E. assert (Wi : wf_rep (it_rep idn)) by exact (lgr_reachable_wf _ Ri). apply review_parts in E. destruct (pt_rows _ _ _ _ _ E) as (rows & Er & _ & ->). exists rows. split; [exact Er|]. clear Er E.
  induction rows as [|[[i r] l] rows IH]; cbn [map]; constructor; [|exact IH]. clear IH. cbn [noticed fst snd].
  assert (Same : forall l, map (fun w0 => mkVrow (vr_src w0) (vr_dst w0) (with_notice (wo_shown o) None (vr_fwd w0)) (with_notice (wo_shown o) None (vr_rev w0))) l = l).
  { clear. induction l as [|[a b c d] l IH]; [reflexivity|]. cbn [map]. rewrite IH. reflexivity. }
  assert (With : forall c l, Forall2 (with_remark (may_be_missing (wo_shown o c))) l (map (fun w0 => mkVrow (vr_src w0) (vr_dst w0) (with_notice (wo_shown o) (Some c) (vr_fwd w0)) (with_notice (wo_shown o) (Some c) (vr_rev w0))) l)).
  { clear. intros c. induction l as [|[a b x y] l IH]; cbn [map]; constructor; [|exact IH]. split; [reflexivity|]. split; [reflexivity|]. split; reflexivity. }
  split; [reflexivity|]. split.
  - intros c -> Hc. destruct (missing_sequence r (it_rep idn)) as [[c' l']|] eqn:Em; cbn [option_map fst].
    + apply missing_some in Em; [|exact Wi|exact Nr]. replace c with c'; [apply With|]. destruct Hc as (a & b & E1 & B1 & F1). destruct Em as (a' & b' & E2 & B2 & F2). clear - E1 B1 F1 E2 B2 F2.
      subst r. revert a' E2 F2. induction a as [|x a IH]; intros [|y a'] E2 F2; cbn [app] in E2; injection E2 as Ex Et.
      * symmetry. exact Ex.
      * exfalso. apply (F2 y (or_introl eq_refl)). rewrite <- Ex. exact B1.
      * exfalso. apply (F1 x (or_introl eq_refl)). rewrite Ex. exact B2.
      * apply (IH (fun z Hz => F1 z (or_intror Hz)) a' Et). intros z Hz. apply F2. right. exact Hz.
    + exfalso. destruct Hc as (a & b & -> & B & _). apply (missing_none _ _ Wi Nr Em c); [apply in_or_app; right; left; reflexivity | exact B].
  - intros H. destruct i as [|z i]; [|apply Same]. destruct H as [H | H]; [contradiction|]. destruct (missing_sequence r (it_rep idn)) as [[c l']|] eqn:Em; [|apply Same].
    exfalso. apply missing_some in Em; [|exact Wi|exact Nr]. destruct Em as (a & b & -> & B & _). apply (H c); [apply in_or_app; right; left; reflexivity | exact B].
Qed.
