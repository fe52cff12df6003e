(** Listing of a label with its variants, and the estimate of their number. *)
From Coq Require Import Sorting.Sorted Permutation.
From Verif Require Import Base BaseFacts CharModel RepSpec RepProofs VariantProofs ActionModel ActionSpec ActionProofs
  LabelModel LabelSpec LabelProofs LabelElig LabelGen LabelVar LabelFilter.
Open Scope string_scope.
Open Scope list_scope.

Section Listing.
  Variables (rm : rule_oracle) (r : repertoire) (acts : list action) (script : N -> string).
  Hypothesis Hr : reachable r.
  Let Hwf : wf_rep r := reachable_wf r Hr.

  Lemma judge_spec : forall label w, vl_cp w <> [] -> exists z, judge rm r acts label w = Ok z /\ judged rm r acts label w z.
  Proof.
    intros label w Hne. unfold judge, judged.
    destruct (test_label_eligible_spec rm r acts (vl_cp w) (negb (cps_eqb (vl_cp w) label)) Hr Hne) as [e [chars [inv [H1 _]]]].
    rewrite H1. cbn [bind]. destruct (el_ok e) eqn:E; cbn [negb].
    - destruct (decided rm acts (vl_cp w) (vl_disp w) (vl_only w)) as [a [i [D1 D2]]]. rewrite D2. eexists. split; [reflexivity|].
      cbn. split; auto. split; auto. exists e. split; auto. split; auto. right. split; auto. exists a, i. auto.
    - eexists. split; [reflexivity|]. cbn. split; auto. split; auto. exists e. split; auto.
  Qed.
  Lemma judge_judged : forall label w z, vl_cp w <> [] -> judge rm r acts label w = Ok z -> judged rm r acts label w z.
  Proof. intros label w z Hne H. destruct (judge_spec label w Hne) as [z' [H1 H2]]. congruence. Qed.

  Definition invalid_disp (z : listed) : Prop := ls_disp z = Some "invalid".
  Lemma shown_iff : forall z inc, (negb (ostring_eqb (ls_disp z) (Some "invalid")) || inc = true)%bool <-> (inc = false -> ~ invalid_disp z).
  Proof.
    intros z inc. rewrite orb_true_iff, negb_true_iff. unfold invalid_disp. split.
    - intros [H|H] Hi Hz; [|congruence]. rewrite Hz in H. cbn in H. discriminate.
    - intro H. destruct inc; auto. left. destruct (ostring_eqb (ls_disp z) (Some "invalid")) eqn:E; auto. exfalso. apply H; auto. apply ostring_eqb_eq. exact E.
  Qed.
  Lemma wanted_iff : forall wl c, match wl with [] => true | _ => memb cps_eqb c wl end = true <-> wanted wl c.
  Proof.
    intros wl c. unfold wanted. destruct wl as [|a wl]; [tauto|]. rewrite (memb_In _ _ cps_eqb_eq). split; auto. intros [H|H]; [discriminate|auto].
  Qed.

  Lemma listing_loop_spec : forall label inc gen wl l handled orig, (forall w, In w l -> vl_cp w <> []) ->
    exists ys o, listing_loop rm r acts label inc gen wl l handled orig = (ys, Ok o) /\
      (forall y, In y ys -> exists w, In w l /\ wanted wl (vl_cp w) /\ judged rm r acts label w y /\ ls_cp y <> label /\
                              (inc = false -> ~ invalid_disp y) /\ (gen = false -> ~ In (ls_cp y) handled)) /\
      (gen = false -> NoDup (map ls_cp ys)) /\
      (gen = false -> forall w, first_with l w -> wanted wl (vl_cp w) -> ~ In (vl_cp w) handled -> vl_cp w <> label ->
         exists z, judged rm r acts label w z /\ (In z ys \/ inc = false /\ invalid_disp z)) /\
      (gen = true -> forall w, In w l -> wanted wl (vl_cp w) -> vl_cp w <> label ->
         exists z, judged rm r acts label w z /\ (In z ys \/ inc = false /\ invalid_disp z)) /\
      (forall x, o = Some x -> orig = Some x \/ exists w, In w l /\ vl_cp w = label /\ judged rm r acts label w x /\ (inc = false -> ~ invalid_disp x)).
  Proof.
    intros label inc gen wl. induction l as [|w l IH]; intros handled orig Hne.
    { exists [], orig. cbn. split; [reflexivity|]. split; [intros y []|]. split; [intros; constructor|].
      split; [intros _ w [l1 [l2 [H _]]]; destruct l1; discriminate|]. split; [intros _ w []|]. auto. }
    assert (Hne' : forall w0, In w0 l -> vl_cp w0 <> []) by (intros; apply Hne; right; auto).
    (* lifting facts about the tail *)
    assert (Hskip : (gen = false /\ In (vl_cp w) handled) \/ ~ wanted wl (vl_cp w) ->
      exists ys o, listing_loop rm r acts label inc gen wl l handled orig = (ys, Ok o) /\
      (forall y, In y ys -> exists w0, In w0 (w :: l) /\ wanted wl (vl_cp w0) /\ judged rm r acts label w0 y /\ ls_cp y <> label /\
                              (inc = false -> ~ invalid_disp y) /\ (gen = false -> ~ In (ls_cp y) handled)) /\
      (gen = false -> NoDup (map ls_cp ys)) /\
      (gen = false -> forall w0, first_with (w :: l) w0 -> wanted wl (vl_cp w0) -> ~ In (vl_cp w0) handled -> vl_cp w0 <> label ->
         exists z, judged rm r acts label w0 z /\ (In z ys \/ inc = false /\ invalid_disp z)) /\
      (gen = true -> forall w0, In w0 (w :: l) -> wanted wl (vl_cp w0) -> vl_cp w0 <> label ->
         exists z, judged rm r acts label w0 z /\ (In z ys \/ inc = false /\ invalid_disp z)) /\
      (forall x, o = Some x -> orig = Some x \/ exists w0, In w0 (w :: l) /\ vl_cp w0 = label /\ judged rm r acts label w0 x /\ (inc = false -> ~ invalid_disp x))).
    { intro Hcase. destruct (IH handled orig Hne') as [ys [o [I1 [I2 [I3 [I4 [I5 I6]]]]]]]. exists ys, o. split; [exact I1|]. split; [|split; [|split; [|split]]].
      - intros y Hy. destruct (I2 y Hy) as [w0 [H1 H2]]. exists w0. split; [right; exact H1|exact H2].
      - exact I3.
      - intros Hg w0 [l1 [l2 [E1 E2]]] Hw Hh Hl. destruct l1 as [|a l1]; injection E1 as E1 E3.
        + subst w0. exfalso. destruct Hcase as [[_ Hc]|Hc]; contradiction.
        + apply I4; auto. exists l1, l2. split; auto. intros w' Hw'. apply E2. right. exact Hw'.
      - intros Hg w0 [<-|Hw0] Hw Hl; [|auto]. exfalso. destruct Hcase as [[Hc _]|Hc]; [congruence|contradiction].
      - intros x Hx. destruct (I6 x Hx) as [H|[w0 [H1 H2]]]; [left; exact H|right]. exists w0. split; [right; exact H1|exact H2]. }
    cbn [listing_loop]. destruct (negb gen && memb cps_eqb (vl_cp w) handled)%bool eqn:E1.
    { apply Hskip. left. apply andb_true_iff in E1. destruct E1 as [E1 E2]. apply negb_true_iff in E1. split; auto. apply (memb_In _ _ cps_eqb_eq) in E2. exact E2. }
    assert (Hnh : gen = false -> ~ In (vl_cp w) handled).
    { intros -> Hin. cbn in E1. apply (memb_In _ _ cps_eqb_eq) in Hin. congruence. }
    destruct (match wl with [] => true | _ => memb cps_eqb (vl_cp w) wl end) eqn:E2; cbn [negb].
    2: { apply Hskip. right. intro Hw. apply wanted_iff in Hw. congruence. }
    apply wanted_iff in E2. clear Hskip.
    destruct (judge_spec label w (Hne w (or_introl eq_refl))) as [x [J1 J2]]. rewrite J1.
    assert (Hxc : ls_cp x = vl_cp w) by apply J2.
    destruct (negb (ostring_eqb (ls_disp x) (Some "invalid")) || inc)%bool eqn:E3.
    - pose proof (proj1 (shown_iff x inc) E3) as E3'. clear E3. rename E3' into E3. destruct (cps_eqb (vl_cp w) label) eqn:E4.
      + apply cps_eqb_eq in E4. destruct (IH (vl_cp w :: handled) (Some x) Hne') as [ys [o [I1 [I2 [I3 [I4 [I5 I6]]]]]]].
        exists ys, o. split; [exact I1|]. split; [|split; [|split; [|split]]].
        * intros y Hy. destruct (I2 y Hy) as [w0 [H1 [H2 [H3 [H4 [H5 H6]]]]]]. exists w0. split; [right; exact H1|]. split; auto. split; auto. split; auto. split; auto.
          intros Hg Hin. apply (H6 Hg). right. exact Hin.
        * exact I3.
        * intros Hg w0 [l1 [l2 [F1 F2]]] Hw Hh Hl. destruct l1 as [|a l1]; injection F1 as F1 F3; [subst w0; contradiction|].
          apply I4; auto; [exists l1, l2; split; auto; intros w' Hw'; apply F2; right; exact Hw'|]. intros [Hx|Hx]; [|contradiction]. congruence.
        * intros Hg w0 [<-|Hw0] Hw Hl; [contradiction|auto].
        * intros z Hz. right. destruct (I6 z Hz) as [H|[w0 [H1 H2]]].
          -- injection H as <-. exists w. split; [left; reflexivity|]. auto.
          -- exists w0. split; [right; exact H1|exact H2].
      + assert (Hnl : vl_cp w <> label) by (intro Hx; apply cps_eqb_eq in Hx; congruence).
        destruct (IH (vl_cp w :: handled) orig Hne') as [ys [o [I1 [I2 [I3 [I4 [I5 I6]]]]]]]. rewrite I1.
        exists (x :: ys), o. split; [reflexivity|]. split; [|split; [|split; [|split]]].
        * intros y [<-|Hy].
          -- exists w. split; [left; reflexivity|]. split; auto. split; auto. split; [congruence|]. split; auto. rewrite Hxc. exact Hnh.
          -- destruct (I2 y Hy) as [w0 [H1 [H2 [H3 [H4 [H5 H6]]]]]]. exists w0. split; [right; exact H1|]. split; auto. split; auto. split; auto. split; auto.
             intros Hg Hin. apply (H6 Hg). right. exact Hin.
        * intro Hg. cbn. constructor; [|auto]. intro Hin. apply in_map_iff in Hin. destruct Hin as [y [Hy1 Hy2]]. destruct (I2 y Hy2) as [w0 [_ [_ [_ [_ [_ H6]]]]]].
          apply (H6 Hg). left. congruence.
        * intros Hg w0 [l1 [l2 [F1 F2]]] Hw Hh Hl. destruct l1 as [|a l1]; injection F1 as F1 F3.
          -- subst w0. exists x. split; auto. left. left. reflexivity.
          -- subst a. assert (Hd : vl_cp w <> vl_cp w0) by (apply F2; left; reflexivity).
             destruct (I4 Hg w0) as [z [Z1 Z2]]; auto; [exists l1, l2; split; auto; intros w' Hw'; apply F2; right; exact Hw'|intros [Hx|Hx]; [congruence|contradiction]|].
             exists z. split; auto. destruct Z2 as [Z2|Z2]; [left; right; exact Z2|right; exact Z2].
        * intros Hg w0 [<-|Hw0] Hw Hl; [exists x; split; auto; left; left; reflexivity|].
          destruct (I5 Hg w0 Hw0 Hw Hl) as [z [Z1 Z2]]. exists z. split; auto. destruct Z2 as [Z2|Z2]; [left; right; exact Z2|right; exact Z2].
        * intros z Hz. destruct (I6 z Hz) as [H|[w0 [H1 H2]]]; [left; exact H|right]. exists w0. split; [right; exact H1|exact H2].
    - assert (Hinv : inc = false /\ invalid_disp x).
      { apply orb_false_iff in E3. destruct E3 as [E3 E4]. split; auto. apply negb_false_iff in E3. apply ostring_eqb_eq. exact E3. }
      destruct (IH (vl_cp w :: handled) orig Hne') as [ys [o [I1 [I2 [I3 [I4 [I5 I6]]]]]]].
      exists ys, o. split; [exact I1|]. split; [|split; [|split; [|split]]].
      * intros y Hy. destruct (I2 y Hy) as [w0 [H1 [H2 [H3 [H4 [H5 H6]]]]]]. exists w0. split; [right; exact H1|]. split; auto. split; auto. split; auto. split; auto.
        intros Hg Hin. apply (H6 Hg). right. exact Hin.
      * exact I3.
      * intros Hg w0 [l1 [l2 [F1 F2]]] Hw Hh Hl. destruct l1 as [|a l1]; injection F1 as F1 F3.
        -- subst w0. exists x. split; auto.
        -- subst a. assert (Hd : vl_cp w <> vl_cp w0) by (apply F2; left; reflexivity).
           apply I4; auto; [exists l1, l2; split; auto; intros w' Hw'; apply F2; right; exact Hw'|]. intros [Hx|Hx]; [congruence|contradiction].
      * intros Hg w0 [<-|Hw0] Hw Hl; [exists x; split; auto|auto].
      * intros z Hz. destruct (I6 z Hz) as [H|[w0 [H1 H2]]]; [left; exact H|right]. exists w0. split; [right; exact H1|exact H2].
  Qed.

  (** Generated labels are not empty. *)
  Lemma perm_nonempty : forall done rest first flt ch p, entry r ch -> In p (char_perms rm script done rest first flt ch) -> piece_cp (pp p) <> [].
  Proof.
    intros done rest first flt ch p He H.
    assert (Hp : pp p = PChar ch \/ exists v, In v (get_variants ch) /\ pp p = PVar v).
    { unfold char_perms in H. set (vs := flat_map (var_perm rm script done (skipn (ch_len ch) rest) first flt) (get_variants ch)) in H.
      assert (Hc : p = (PChar ch, [], false, flt) \/ In p vs) by (destruct (_ && _)%bool in H; auto; destruct H; auto).
      destruct Hc as [->|Hc]; [left; reflexivity|right]. apply in_flat_map in Hc. destruct Hc as [v [Hv Hc]]. exists v. split; auto.
      unfold var_perm in Hc. destruct flt as [f|].
      - destruct (first && cp_in_other script f (v_cp v))%bool; [|destruct (negb (cp_in_base script f (v_cp v))); [contradiction|]];
          (destruct (ctx_var rm v _ _); [|contradiction]; destruct Hc as [<-|[]]; reflexivity).
      - destruct (ctx_var rm v _ _); [|contradiction]. destruct Hc as [<-|[]]. reflexivity. }
    destruct Hp as [->|[v [Hv ->]]]; cbn [piece_cp]; [eapply entry_nonempty; eauto|].
    apply entry_lk in He. pose proof (lk_wf _ _ _ Hwf He) as Hwc. apply get_variants_In in Hv; auto. destruct Hv as [vl [V1 _]]. destruct Hwc as [[_ Hvw] _]. apply (Hvw _ _ V1).
  Qed.
  Lemma generated_nonempty : forall label hide ws w, label_variants rm r script label hide = Some ws -> In w ws -> vl_cp w <> [].
  Proof.
    intros label hide ws w H Hw. unfold label_variants in H.
    match type of H with gen_variants _ _ _ _ _ _ _ _ ?F = _ => set (flt := F) in H end.
    destruct (gen_spec rm r script Hwf (length label) [] label false true flt (le_n _)) as [ws' [W1 W2]]. assert (ws' = ws) by congruence. subst ws'.
    apply W2 in Hw. destruct Hw as [l [R [_ ->]]]. rewrite cp_out, chars_out.
    inversion R as [lp ch fi fl p Hc Hp|lp ch tl fi fl p l' Hc Hp Hrun]; subst; apply considered_entry in Hc; destruct Hc as [He _];
      apply perm_nonempty in Hp; auto; cbn [map flat_map snd]; intro Hx; apply app_eq_nil in Hx; destruct Hx as [Hx _]; contradiction.
  Qed.
  Lemma variants_total : forall label hide, exists ws, label_variants rm r script label hide = Some ws.
  Proof.
    intros label hide. unfold label_variants. match goal with |- exists ws, gen_variants _ _ _ _ _ _ _ _ ?F = _ => set (flt := F) end.
    destruct (gen_spec rm r script Hwf (length label) [] label false true flt (le_n _)) as [ws [W1 _]]. eauto.
  Qed.

  Theorem listing_spec : forall label inc hide gen wl, label <> [] -> (length label <= 63)%nat ->
    exists ws zs o, label_variants rm r script label hide = Some ws /\
      compute_label_disposition rm r acts script true label inc hide gen wl = (zs ++ [o], Ok tt) /\
      (* the original label is last and appears nowhere else *)
      ls_cp o = label /\ (forall z, In z zs -> ls_cp z <> label) /\
      ((exists w, In w ws /\ vl_cp w = label /\ judged rm r acts label w o) \/
       (exists e, test_label_eligible rm r acts label false = Ok e /\ ls_disp o = el_disp e /\ ls_idx o = el_idx e /\ ls_types o = [])) /\
      (* the others are judged variants, invalid ones only on request *)
      (forall z, In z zs -> exists w, In w ws /\ wanted wl (vl_cp w) /\ judged rm r acts label w z /\ (inc = false -> ~ invalid_disp z)) /\
      (gen = false -> NoDup (map ls_cp (zs ++ [o]))) /\
      (* nothing else is left out *)
      (forall w, In w ws -> (gen = false -> first_with ws w) -> wanted wl (vl_cp w) -> vl_cp w <> label ->
         exists z, judged rm r acts label w z /\ (In z zs \/ inc = false /\ invalid_disp z)).
  Proof.
    intros label inc hide gen wl Hne Hlen. destruct (variants_total label hide) as [ws Hws]. exists ws.
    destruct (listing_loop_spec label inc gen wl ws [] None (fun w Hw => generated_nonempty label hide ws w Hws Hw)) as [zs [o [L1 [L2 [L3 [L4 [L5 L6]]]]]]].
    assert (Hnd : forall x, ls_cp x = label -> gen = false -> NoDup (map ls_cp (zs ++ [x]))).
    { intros x Hx Hg. rewrite map_app. apply NoDup_app_iff. split; [auto|]. split; [constructor; [intros []|constructor]|].
      intros c Hc [Hc'|[]]. cbn in Hc'. subst c. apply in_map_iff in Hc. destruct Hc as [z [Hz1 Hz2]]. destruct (L2 z Hz2) as [w [_ [_ [_ [H _]]]]]. congruence. }
    assert (Hcommon : (forall z, In z zs -> ls_cp z <> label) /\
      (forall z, In z zs -> exists w, In w ws /\ wanted wl (vl_cp w) /\ judged rm r acts label w z /\ (inc = false -> ~ invalid_disp z)) /\
      (forall w, In w ws -> (gen = false -> first_with ws w) -> wanted wl (vl_cp w) -> vl_cp w <> label ->
         exists z, judged rm r acts label w z /\ (In z zs \/ inc = false /\ invalid_disp z))).
    { split; [|split].
      - intros z Hz. destruct (L2 z Hz) as [w [_ [_ [_ [H _]]]]]. exact H.
      - intros z Hz. destruct (L2 z Hz) as [w [H1 [H2 [H3 [H4 [H5 H6]]]]]]. exists w. auto.
      - intros w Hw Hf Hwl Hl. destruct gen; [apply L5; auto|apply L4; auto]. }
    destruct Hcommon as [C1 [C2 C3]].
    assert (Hl63 : Nat.ltb 63 (length label) = false) by (apply Nat.ltb_ge; exact Hlen).
    destruct o as [x|].
    - exists zs, x. split; auto. destruct (L6 x eq_refl) as [H|[w [H1 [H2 [H3 H4]]]]]; [discriminate|].
      assert (Hx : ls_cp x = label) by (destruct H3 as [H3 _]; congruence).
      split; [unfold compute_label_disposition; cbn [negb]; rewrite Hl63, Hws, L1; reflexivity|].
      split; auto. split; auto. split; [left; exists w; auto|]. auto.
    - destruct (test_label_eligible_spec rm r acts label false Hr Hne) as [e [chars [inv [H1 _]]]].
      exists zs, (mkListed label (el_disp e) None (el_idx e) []). split; auto.
      split; [unfold compute_label_disposition; cbn [negb]; rewrite Hl63, Hws, L1, H1; reflexivity|].
      split; auto. split; auto. split; [right; exists e; cbn; auto|]. auto.
  Qed.

  Theorem listing_refused : forall label hu inc hide gen wl,
    (hu = false -> compute_label_disposition rm r acts script hu label inc hide gen wl = ([], Raise LGRApiException)) /\
    (hu = true -> (63 < length label)%nat -> compute_label_disposition rm r acts script hu label inc hide gen wl = ([], Raise (LGRApiInvalidParameter "label"))) /\
    (hu = true -> label = [] -> compute_label_disposition rm r acts script hu label inc hide gen wl = ([], Raise (LGRApiInvalidParameter "label"))).
  Proof.
    intros label hu inc hide gen wl. unfold compute_label_disposition. split; [|split].
    - intros ->. reflexivity.
    - intros -> H. cbn [negb]. rewrite (proj2 (Nat.ltb_lt _ _) H). reflexivity.
    - intros -> ->. destruct hide; reflexivity.
  Qed.

  (** ** Estimate *)
  Definition choices (ch : char) : list cps := ch_cp ch :: map v_cp (vars_excl_reflexive ch).
  Fixpoint combos (l : list char) : list cps :=
    match l with
    | [] => [[]]
    | ch :: l' => flat_map (fun c => map (fun t => c ++ t) (combos l')) (choices ch)
    end.
  Lemma flat_map_map_length : forall (l cs : list cps), length (flat_map (fun c => map (fun t => c ++ t) l) cs) = (length cs * length l)%nat.
  Proof. intro l. induction cs as [|c cs IH]; [reflexivity|]. cbn [flat_map length]. rewrite app_length, map_length, IH. reflexivity. Qed.
  Lemma combos_length : forall l, length (combos l) = product (map (fun ch => S (length (vars_excl_reflexive ch))) l).
  Proof.
    induction l as [|ch l IH]; [reflexivity|]. cbn [combos map product fold_right]. fold (product (map (fun ch => S (length (vars_excl_reflexive ch))) l)). rewrite <- IH.
    replace (S (length (vars_excl_reflexive ch))) with (length (choices ch)) by (unfold choices; cbn; rewrite map_length; reflexivity).
    apply flat_map_map_length.
  Qed.
  Lemma choices_In : forall ch c, In c (choices ch) <-> c = ch_cp ch \/ exists v, In v (get_variants ch) /\ v_cp v = c.
  Proof.
    intros ch c. unfold choices, vars_excl_reflexive. cbn [In]. rewrite in_map_iff. split.
    - intros [H|[v [H1 H2]]]; [left; auto|right]. apply filter_In in H2. exists v. tauto.
    - intros [H|[v [H1 H2]]]; [left; auto|]. destruct (cps_eqb (v_cp v) (ch_cp ch)) eqn:E; [left; apply cps_eqb_eq in E; congruence|].
      right. exists v. split; auto. apply filter_In. rewrite E. auto.
  Qed.
  Lemma combos_In : forall l c, In c (combos l) <-> exists cs, Forall2 (fun ch x => In x (choices ch)) l cs /\ c = concat cs.
  Proof.
    induction l as [|ch l IH]; intro c; cbn [combos].
    - split; [intros [<-|[]]; exists []; split; [constructor|reflexivity]|]. intros [cs [H ->]]. inversion H; subst. left. reflexivity.
    - rewrite in_flat_map. split.
      + intros [x [Hx Hc]]. apply in_map_iff in Hc. destruct Hc as [t [<- Ht]]. apply IH in Ht. destruct Ht as [cs [H1 ->]]. exists (x :: cs). split; [constructor; auto|reflexivity].
      + intros [cs [H ->]]. inversion H as [|? x ? cs' Hx Hcs]; subst. exists x. split; auto. cbn. apply in_map. apply IH. eauto.
  Qed.

  Lemma replacement_combos : forall (allowed : cps -> cps -> char -> Prop) done rest l, replacement rm allowed done rest l ->
    In (result l) (combos (map fst l)) /\ spelled (map fst l) = rest.
  Proof.
    intros allowed done rest l H. induction H as [done|done ch tail l Hc Hn Hl [I1 I2]|done ch v tail l Hc Hu Hl [I1 I2]].
    - split; [left; reflexivity|reflexivity].
    - split; [|cbn; fold (spelled (map fst l)); rewrite I2; reflexivity]. cbn [map fst combos result flat_map snd piece_cp]. fold (result l).
      apply in_flat_map. exists (ch_cp ch). split; [left; reflexivity|]. apply in_map. exact I1.
    - split; [|cbn; fold (spelled (map fst l)); rewrite I2; reflexivity]. cbn [map fst combos result flat_map snd piece_cp]. fold (result l).
      apply in_flat_map. exists (v_cp v). split; [apply choices_In; right; exists v; split; auto; apply Hu|]. apply in_map. exact I1.
  Qed.
  Definition single_entries : Prop := forall ch, entry r ch -> length (ch_cp ch) = 1%nat.
  Lemma single_spelling : single_entries -> forall a b, (forall c, In c a -> entry r c) -> (forall c, In c b -> entry r c) -> spelled a = spelled b -> a = b.
  Proof.
    intros Hs. induction a as [|x a IH]; intros [|y b] Ha Hb H; auto.
    - exfalso. cbn in H. symmetry in H. apply app_eq_nil in H. destruct H as [H _]. apply (entry_nonempty r y); [apply Hb; left; reflexivity|exact H].
    - exfalso. cbn in H. apply app_eq_nil in H. destruct H as [H _]. apply (entry_nonempty r x); [apply Ha; left; reflexivity|exact H].
    - assert (Ex : entry r x) by (apply Ha; left; reflexivity). assert (Ey : entry r y) by (apply Hb; left; reflexivity).
      pose proof (Hs x Ex) as Lx. pose proof (Hs y Ey) as Ly. cbn in H. fold (spelled a) (spelled b) in H.
      destruct (ch_cp x) as [|p [|]] eqn:Cx; try discriminate. destruct (ch_cp y) as [|q [|]] eqn:Cy; try discriminate. cbn in H. injection H as H1 H2. subst q.
      assert (x = y) by (unfold entry in *; rewrite Cx in Ex; rewrite Cy in Ey; congruence). subst y. f_equal. apply IH; auto; intros c Hc; [apply Ha|apply Hb]; right; auto.
  Qed.

  Lemma cut_entries : forall label i l, cut rm r label i l -> forall c, In c l -> entry r c.
  Proof. intros label i l H. induction H as [|i ch l Ha Hc IH]; intros c Hin; [contradiction|]. destruct Hin as [<-|Hin]; [apply Ha|auto]. Qed.

  Lemma listed_in_combos : forall label chars, single_entries -> label <> [] -> cut rm r label 0 chars ->
    forall inc wl zs o, compute_label_disposition rm r acts script true label inc false false wl = (zs, o) ->
    (length label <= 63)%nat -> forall c, In c (map ls_cp zs) -> In c (combos chars).
  Proof.
    intros label chars Hs Hne Hcut inc wl zs o H Hlen c Hc.
    destruct (listing_spec label inc false false wl Hne Hlen) as [ws [zs' [o' [W1 [E [Ho [_ [_ [Hj [_ _]]]]]]]]]]. rewrite E in H. injection H as <- <-.
    pose proof (cut_spelled _ _ _ _ _ Hcut ltac:(lia)) as Hsp. cbn [skipn] in Hsp.
    rewrite map_app in Hc. apply in_app_or in Hc. destruct Hc as [Hc|[Hc|[]]].
    - apply in_map_iff in Hc. destruct Hc as [z [<- Hz]]. destruct (Hj z Hz) as [w [Hw [_ [[Hcp _] _]]]]. rewrite Hcp.
      destruct (variants_exact rm r script Hwf label Hne) as [ws' [V1 [V2 _]]]. assert (ws' = ws) by congruence. subst ws'. destruct (V2 w Hw) as [l [R1 [_ [R2 _]]]].
      rewrite R2. destruct (replacement_combos _ _ _ _ R1) as [R3 R4]. replace chars with (map fst l); auto. apply single_spelling; auto.
      + intros d Hd. apply in_map_iff in Hd. destruct Hd as [y [<- Hy]]. eapply replacement_entries; [|exact R1|exact Hy]. intros d t e He. apply considered_entry in He. apply He.
      + eapply cut_entries; eauto.
      + congruence.
    - subst c. rewrite Ho. rewrite Hsp. clear. induction chars as [|ch chars IH]; [left; reflexivity|]. cbn [spelled flat_map combos]. apply in_flat_map. exists (ch_cp ch). split; [left; reflexivity|].
      apply in_map. exact IH.
  Qed.

  Theorem estimate_bound : forall label inc wl zs o, single_entries -> label <> [] -> (length label <= 63)%nat ->
    (exists chars, longest_match rm r label 0 chars []) ->
    compute_label_disposition rm r acts script true label inc false false wl = (zs, o) ->
    exists n, estimate_variant_number rm r script label false = Some n /\ (length zs <= n)%nat.
  Proof.
    intros label inc wl zs o Hs Hne Hlen [chars Hlm] H. unfold estimate_variant_number. destruct (preliminary_spec rm r label Hr) as [p [P1 [P2 _]]]. rewrite P1.
    destruct (longest_match_deterministic _ _ _ _ _ _ Hlm _ _ P2) as [<- _]. eexists. split; [reflexivity|]. rewrite <- combos_length.
    pose proof (longest_match_cut _ _ _ _ _ _ Hlm eq_refl) as Hcut.
    rewrite <- (map_length ls_cp). apply NoDup_incl_length.
    - destruct (listing_spec label inc false false wl Hne Hlen) as [ws [zs' [o' [_ [E [_ [_ [_ [_ [Hnd _]]]]]]]]]]. rewrite E in H. injection H as <- _. apply Hnd. reflexivity.
    - intros c Hc. eapply listed_in_combos; eauto.
  Qed.

  (** Exactness. *)
  Record plain_variants : Prop := {
    pv_single : single_entries;
    pv_variants : forall ch v, entry r ch -> In v (get_variants ch) -> v_when v = None /\ v_not_when v = None /\ length (v_cp v) = 1%nat
  }.
  Lemma choices_NoDup : plain_variants -> forall ch, entry r ch -> NoDup (choices ch).
  Proof.
    intros Hp ch He. unfold choices. constructor.
    - intro H. apply in_map_iff in H. destruct H as [v [H1 H2]]. unfold vars_excl_reflexive in H2. apply filter_In in H2. destruct H2 as [_ H2].
      rewrite H1, cps_eqb_refl in H2. discriminate.
    - assert (Hk : NoDup (map vkey (get_variants ch))) by (apply get_variants_NoDup; pose proof He as He'; apply entry_lk in He'; eapply lk_wf; eauto).
      assert (Hv : forall v, In v (get_variants ch) -> v_when v = None /\ v_not_when v = None) by (intros v Hv; destruct (pv_variants Hp ch v He Hv) as [H1 [H2 _]]; auto).
      unfold vars_excl_reflexive. revert Hk Hv. induction (get_variants ch) as [|v l IH]; intros Hk Hv; [constructor|]. cbn [map] in Hk. inversion Hk as [|? ? Hni Hk']; subst.
      assert (IHl : NoDup (map v_cp (filter (fun v => negb (cps_eqb (v_cp v) (ch_cp ch))) l))) by (apply IH; auto; intros w Hw; apply Hv; right; exact Hw).
      cbn [filter]. destruct (negb (cps_eqb (v_cp v) (ch_cp ch))); auto. cbn [map]. constructor; auto. intro H. apply in_map_iff in H. destruct H as [w [H1 H2]].
      apply filter_In in H2. destruct H2 as [H2 _]. apply Hni. apply in_map_iff. exists w. split; auto. unfold vkey.
      destruct (Hv v (or_introl eq_refl)) as [A1 A2]. destruct (Hv w (or_intror H2)) as [B1 B2]. congruence.
  Qed.
  Lemma choices_len : plain_variants -> forall ch c, entry r ch -> In c (choices ch) -> length c = 1%nat.
  Proof.
    intros Hp ch c He Hc. apply choices_In in Hc. destruct Hc as [->|[v [Hv <-]]]; [apply (pv_single Hp); auto|]. apply (pv_variants Hp ch v He Hv).
  Qed.
  Lemma combos_NoDup : plain_variants -> forall l, (forall c, In c l -> entry r c) -> NoDup (combos l).
  Proof.
    intros Hp. induction l as [|ch l IH]; intro He; cbn [combos]; [constructor; [intros []|constructor]|].
    assert (Hch : entry r ch) by (apply He; left; reflexivity). assert (Hl : NoDup (combos l)) by (apply IH; intros; apply He; right; auto).
    pose proof (choices_NoDup Hp ch Hch) as Hnd. pose proof (choices_len Hp ch) as Hlen.
    assert (Hone : forall c, In c (choices ch) -> length c = 1%nat) by (intros; apply Hlen; auto). clear Hlen. revert Hnd Hone.
    induction (choices ch) as [|c cs IHc]; intros Hnd Hone; cbn [flat_map]; [constructor|]. inversion Hnd as [|? ? Hni Hnd']; subst.
    apply NoDup_app_iff. split; [|split].
    - apply FinFun.Injective_map_NoDup; [|exact Hl]. intros x y Hxy. eapply app_inv_head; eauto.
    - apply IHc; auto. intros; apply Hone; right; auto.
    - intros d Hd Hd'. apply in_map_iff in Hd. destruct Hd as [t [<- Ht]]. apply in_flat_map in Hd'. destruct Hd' as [c' [Hc' Hd']]. apply in_map_iff in Hd'. destruct Hd' as [t' [E Ht']].
      assert (L1 : length c = 1%nat) by (apply Hone; left; reflexivity). assert (L2 : length c' = 1%nat) by (apply Hone; right; exact Hc').
      destruct c as [|x [|]]; try discriminate. destruct c' as [|x' [|]]; try discriminate. cbn in E. injection E as -> _. contradiction.
  Qed.
  Lemma combos_free : plain_variants -> forall chars cs done, (forall c, In c chars -> entry r c) -> Forall2 (fun ch x => In x (choices ch)) chars cs ->
    exists l, free_replacement rm r done (spelled chars) l /\ result l = concat cs.
  Proof.
    intros Hp. induction chars as [|ch chars IH]; intros cs done He Hf; inversion Hf as [|? x ? cs' Hx Hcs]; subst.
    - exists []. split; [constructor|reflexivity].
    - assert (Hch : entry r ch) by (apply He; left; reflexivity). assert (Het : forall c, In c chars -> entry r c) by (intros; apply He; right; auto).
      cbn [spelled flat_map]. fold (spelled chars). apply choices_In in Hx. destruct Hx as [->|[v [Hv <-]]].
      + destruct (IH cs' (done ++ ch_cp ch) Het Hcs) as [l [L1 L2]]. exists ((ch, PChar ch) :: l). split; [apply fr_keep; auto|]. cbn. fold (result l). rewrite L2. reflexivity.
      + destruct (IH cs' (done ++ v_cp v) Het Hcs) as [l [L1 L2]]. exists ((ch, PVar v) :: l). split.
        * apply fr_variant; auto. split; auto. destruct (pv_variants Hp ch v Hch Hv) as [-> [-> _]]. exact I.
        * cbn. fold (result l). rewrite L2. reflexivity.
  Qed.

  Lemma first_with_exists : forall ws w, In w ws -> exists w', vl_cp w' = vl_cp w /\ first_with ws w' /\ In w' ws.
  Proof.
    induction ws as [|a ws IH]; intros w Hw; [contradiction|]. destruct (cps_eq_dec (vl_cp a) (vl_cp w)) as [E|E].
    - exists a. split; auto. split; [exists [], ws; split; [reflexivity|intros w' []]|left; reflexivity].
    - destruct Hw as [->|Hw]; [contradiction|]. destruct (IH w Hw) as [w' [H1 [[l1 [l2 [H2 H3]]] H4]]]. exists w'. split; auto. split; [|right; exact H4].
      exists (a :: l1), l2. split; [rewrite H2; reflexivity|]. intros x [<-|Hx]; [congruence|auto].
  Qed.

  Theorem estimate_exact : forall label zs o, plain_variants -> label <> [] -> (length label <= 63)%nat ->
    (exists chars, longest_match rm r label 0 chars []) ->
    compute_label_disposition rm r acts script true label true false false [] = (zs, o) ->
    estimate_variant_number rm r script label false = Some (length zs).
  Proof.
    intros label zs o Hp Hne Hlen [chars Hlm] H. unfold estimate_variant_number. destruct (preliminary_spec rm r label Hr) as [p [P1 [P2 _]]]. rewrite P1.
    destruct (longest_match_deterministic _ _ _ _ _ _ Hlm _ _ P2) as [<- _]. f_equal. rewrite <- combos_length.
    pose proof (longest_match_cut _ _ _ _ _ _ Hlm eq_refl) as Hcut. pose proof (cut_entries _ _ _ Hcut) as Hent.
    pose proof (cut_spelled _ _ _ _ _ Hcut ltac:(lia)) as Hsp. cbn [skipn] in Hsp.
    rewrite <- (map_length ls_cp zs). apply Nat.le_antisymm.
    - apply NoDup_incl_length; [apply combos_NoDup; auto|]. intros c Hc.
      destruct (listing_spec label true false false [] Hne Hlen) as [ws [zs' [o' [W1 [E [Ho [_ [_ [_ [_ Hall]]]]]]]]]]. rewrite E in H. injection H as <- _.
      rewrite map_app. apply in_or_app. destruct (cps_eq_dec c label) as [->|Hd]; [right; left; exact Ho|left].
      apply combos_In in Hc. destruct Hc as [cs [Hf Hc]]. destruct (combos_free Hp chars cs [] Hent Hf) as [l [L1 L2]]. rewrite <- Hsp in L1.
      assert (Hseq : sequences_mapped r) by (intros ch He Hl; pose proof (pv_single Hp ch He); lia).
      destruct (variants_complete rm r script Hwf Hseq label l Hne L1) as [ws' [w [V1 [V2 V3]]]]; [congruence|]. assert (ws' = ws) by congruence. subst ws'.
      destruct (first_with_exists ws w V2) as [w' [F1 [F2 F3]]]. destruct (Hall w' F3 (fun _ => F2) (or_introl eq_refl)) as [z [Z1 Z2]]; [congruence|].
      destruct Z2 as [Z2|[Z2 _]]; [|discriminate]. apply in_map_iff. exists z. split; auto. destruct Z1 as [Z1 _]. congruence.
    - apply NoDup_incl_length.
      + destruct (listing_spec label true false false [] Hne Hlen) as [ws [zs' [o' [_ [E [_ [_ [_ [_ [Hnd _]]]]]]]]]]. rewrite E in H. injection H as <- _. apply Hnd. reflexivity.
      + intros c Hc. eapply listed_in_combos; eauto. apply (pv_single Hp).
  Qed.
End Listing.
