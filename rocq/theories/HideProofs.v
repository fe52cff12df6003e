(** Hiding mixed script variants, exactly. *)
From Coq Require Import Sorting.Sorted Permutation.
From Verif Require Import Base BaseFacts CharModel RepSpec RepProofs VariantProofs ActionModel ActionSpec ActionProofs
  LabelModel LabelSpec LabelProofs LabelElig LabelGen LabelVar LabelFilter HideSpec.
Open Scope string_scope.
Open Scope list_scope.

Section Hide.
  Variables (rm : rule_oracle) (r : repertoire) (script : N -> string).
  Hypothesis Hwf : wf_rep r.

  (** ** Alternative scripts *)
  Lemma known_dec : forall x, known r x \/ ~ known r x.
  Proof.
    intro x. pose proof (prefix_cases r x Hwf) as Hp. destruct (get_chars_from_prefix r x false) as [l|e] eqn:E.
    - destruct l as [|ch l]; [right|left].
      + intros [ch [t [He Ht]]]. assert (In ch []) by (apply Hp; eauto). contradiction.
      + assert (In ch (ch :: l)) as Hi by (left; reflexivity). apply Hp in Hi. destruct Hi as [He [t Ht]]. exists ch, t. auto.
    - right. intros [ch [t [He Ht]]]. exact (Hp ch He t Ht).
  Qed.
  Lemma knows_total : forall l, exists n, knows r l n.
  Proof.
    induction l as [|x l [n IH]]; [exists 0%nat; constructor|]. destruct (known_dec x); [exists (S n)|exists n]; constructor; auto.
  Qed.
  Lemma skipn_tl : forall (A : Type) n (l : list A), tl (skipn n l) = skipn (S n) l.
  Proof. induction n; intros [|a l]; auto. change (tl (skipn n l) = skipn (S n) l). apply IHn. Qed.

  Lemma scripts_for_char_In : forall x cur l s, (forall ch, In ch l <-> entry r ch /\ has_variant ch = true /\ exists t, ch_cp ch = x :: t) ->
    (In s (scripts_for_char script cur l) <-> named s /\ offers r script x cur s).
  Proof.
    intros x cur l s Hl. unfold scripts_for_char. rewrite (dedup_In _ _ string_eqb_iff), sminus_In, in_flat_map. unfold named, offers, ignored_scripts. cbn [In]. split.
    - intros [[ch [Hc Hs]] Hn]. split; [split; intro; subst; tauto|]. destruct (is_prefix_of ch cur) eqn:E; [|contradiction].
      apply in_flat_map in Hs. destruct Hs as [v [Hv Hs]]. apply in_map_iff in Hs. destruct Hs as [y [Hy Hs]].
      apply Hl in Hc. destruct Hc as [He [_ [t Ht]]]. exists ch, t, v, y. apply starts_prefix in E. auto 8.
    - intros [[N1 N2] [ch [t [v [y [He [Ht [Hst [Hv [Hy Hs]]]]]]]]]]. split; [|intros [H|[H|[]]]; congruence].
      exists ch. split; [apply Hl; split; auto; split; [|eauto]; apply (has_variant_iff r); auto; intro Hx; rewrite Hx in Hv; contradiction|].
      apply starts_prefix in Hst. rewrite Hst. apply in_flat_map. exists v. split; auto. apply in_map_iff. exists y. auto.
  Qed.

  (** The loop over the code points, started after [n] code points of
      [label] that start an entry. *)
  Definition agreed (label l : cps) (n : nat) (s : string) : Prop :=
    forall l1 x l2 k, l = l1 ++ x :: l2 -> known r x -> knows r l1 k -> named s /\ offers r script x (skipn (n + k) label) s.
  Lemma agreed_known : forall label x l n s, known r x ->
    (agreed label (x :: l) n s <-> (named s /\ offers r script x (skipn n label) s) /\ agreed label l (S n) s).
  Proof.
    intros label x l n s Hx. unfold agreed. split.
    - intro H. split.
      + specialize (H [] x l 0%nat eq_refl Hx (kn_nil r)). rewrite Nat.add_0_r in H. exact H.
      + intros l1 y l2 k -> Hy Hk. specialize (H (x :: l1) y l2 (S k) eq_refl Hy (kn_known r x l1 k Hx Hk)).
        replace (n + S k)%nat with (S n + k)%nat in H by lia. exact H.
    - intros [H1 H2] l1 y l2 k E Hy Hk. destruct l1 as [|z l1]; injection E as -> E.
      + inversion Hk; subst. rewrite Nat.add_0_r. exact H1.
      + inversion Hk; subst; [|contradiction]. match goal with h : knows r l1 ?m |- _ => specialize (H2 l1 y l2 m eq_refl Hy h); replace (n + S m)%nat with (S n + m)%nat by lia end. exact H2.
  Qed.
  Lemma agreed_other : forall label x l n s, ~ known r x -> (agreed label (x :: l) n s <-> agreed label l n s).
  Proof.
    intros label x l n s Hx. unfold agreed. split.
    - intros H l1 y l2 k -> Hy Hk. exact (H (x :: l1) y l2 k eq_refl Hy (kn_other r x l1 k Hx Hk)).
    - intros H l1 y l2 k E Hy Hk. destruct l1 as [|z l1]; injection E as -> E; [contradiction|].
      inversion Hk; subst; [contradiction|]. eapply H; eauto.
  Qed.
  Lemma prefix_known : forall x l, get_chars_from_prefix r x true = Ok l -> known r x.
  Proof.
    intros x l E. pose proof (prefix_cases r x Hwf) as Hq. unfold get_chars_from_prefix in E, Hq.
    destruct (dget N.eqb x (rep_chars r)) as [l0|] eqn:Ed; [|discriminate].
    destruct l0 as [|c0 l0].
    - apply (dget_In _ N_eqb_iff) in Ed. destruct Hwf as [_ [Hb _]]. apply Hb in Ed. destruct Ed as [Ed _]. contradiction.
    - assert (Hi : In c0 (isort len_geb (c0 :: l0))) by (apply isort_In; left; reflexivity).
      apply Hq in Hi. destruct Hi as [He [t Ht]]. exists c0, t. auto.
  Qed.
  Lemma loop_spec : forall label l n acc,
    match scripts_loop r script l (skipn n label) acc with
    | None => acc = None /\ forall x, In x l -> ~ known r x
    | Some ss => (acc <> None \/ exists x, In x l /\ known r x) /\
        forall s, In s ss <-> (match acc with None => True | Some a => In s a end) /\ agreed label l n s
    end.
  Proof.
    intros label l. induction l as [|x l IH]; intros n acc; cbn [scripts_loop].
    - destruct acc as [a|].
      + split; [left; discriminate|]. intro s. split; [intro H; split; [exact H|]|tauto]. intros l1 x l2 k E. destruct l1; discriminate.
      + split; auto.
    - pose proof (prefix_cases_var r x Hwf) as Hp. destruct (get_chars_from_prefix r x true) as [cs|e] eqn:E.
      + destruct Hp as [Hp _]. pose proof (prefix_known x cs E) as Hk. rewrite skipn_tl.
        set (new := match acc with None => scripts_for_char script (skipn n label) cs | Some a => filter (fun y => smem y (scripts_for_char script (skipn n label) cs)) a end).
        specialize (IH (S n) (Some new)). destruct (scripts_loop r script l (skipn (S n) label) (Some new)) as [ss|].
        2: { destruct IH as [IH _]. discriminate. }
        destruct IH as [_ IH]. split; [right; exists x; split; [left; reflexivity|exact Hk]|].
        intro s. rewrite IH, agreed_known by exact Hk. rewrite <- (scripts_for_char_In x (skipn n label) cs s Hp). unfold new. destruct acc as [a|]; [|tauto].
        rewrite filter_In, smem_In. tauto.
      + assert (Hk : ~ known r x) by (intros [ch [t [He Ht]]]; exact (Hp ch He t Ht)).
        specialize (IH n acc). destruct (scripts_loop r script l (skipn n label) acc) as [ss|].
        * destruct IH as [I1 I2]. split; [destruct I1 as [I1|[y [Hy1 Hy2]]]; [left; exact I1|right; exists y; split; [right; exact Hy1|exact Hy2]]|].
          intro s. rewrite I2, agreed_other by exact Hk. tauto.
        * destruct IH as [I1 I2]. split; auto. intros y [<-|Hy]; auto.
  Qed.
  Theorem other_scripts_spec : forall label s, In s (other_scripts r script label) <-> alternative r script label s.
  Proof.
    intros label s. unfold other_scripts, alternative. pose proof (loop_spec label label 0%nat None) as H. cbn [skipn] in H.
    destruct (scripts_loop r script label label None) as [ss|].
    - destruct H as [[H|H1] H2]; [contradiction|]. rewrite sminus_In, H2, base_scripts_spec. unfold native, agreed. split.
      + intros [[_ Ha] Hb]. destruct H1 as [x [Hx Hk]]. split.
        * apply in_split in Hx. destruct Hx as [l1 [l2 E]]. destruct (knows_total l1) as [k Hn]. exact (proj1 (Ha l1 x l2 k E Hk Hn)).
        * split; [exact Hb|]. split; [eauto|]. intros l1 y l2 n E Hy Hn. exact (proj2 (Ha l1 y l2 n E Hy Hn)).
      + intros [Hn [Hb [_ Ha]]]. split; [|exact Hb]. split; [exact I|]. intros l1 y l2 k E Hy Hk. split; [exact Hn|]. exact (Ha l1 y l2 k E Hy Hk).
    - destruct H as [_ H]. split; [contradiction|]. intros [_ [_ [[x [Hx Hk]] _]]]. exact (H x Hx Hk).
  Qed.

  (** ** Replacements under a filter *)
  Definition named_by (f : sfilter) (x : char * piece) : char * perm := (fst x, (snd x, ds_of (snd x), isv_of (snd x), Some f)).
  Lemma perms_later_iff : forall done ch tail f p,
    In p (char_perms rm script done (ch_cp ch ++ tail) false (Some f) ch) <->
    exists pc, p = (pc, ds_of pc, isv_of pc, Some f) /\ in_filter script f pc /\
      ((exists v, usable rm done tail ch v /\ pc = PVar v) \/ ((forall v, usable rm done tail ch v -> v_cp v <> ch_cp ch) /\ pc = PChar ch)).
  Proof.
    intros done ch tail f p. unfold char_perms, ch_len. rewrite skipn_app_len. cbn [orb].
    set (vs := flat_map (var_perm rm script done tail false (Some f)) (get_variants ch)).
    assert (Hvs : forall q, In q vs <-> exists v, usable rm done tail ch v /\ in_filter script f (PVar v) /\ q = (PVar v, ds_of (PVar v), true, Some f)).
    { intro q. unfold vs. rewrite in_flat_map. unfold var_perm, in_filter, cp_in_base. cbn [andb piece_cp]. split.
      - intros [v [Hv Hq]]. destruct (cp_in_scripts script (v_cp v) (sf_base f)) eqn:Ef; [|contradiction]. cbn [negb] in Hq.
        destruct (ctx_var rm v (done ++ v_cp v ++ tail) (length done)) eqn:E; [|contradiction]. destruct Hq as [<-|[]]. exists v. split; [apply usable_dec; auto|]. auto.
      - intros [v [Hu [Hf ->]]]. exists v. split; [apply Hu|]. rewrite Hf. cbn [negb].
        pose proof (proj1 (usable_dec rm done tail ch v (proj1 Hu)) Hu) as Hu'. rewrite Hu'. left. reflexivity. }
    assert (Hex : in_filter script f (PChar ch) -> (existsb (is_refl_perm ch) vs = false <-> forall v, usable rm done tail ch v -> v_cp v <> ch_cp ch)).
    { intro Hin. split.
      - intros H v Hu Hc. assert (Ht : existsb (is_refl_perm ch) vs = true); [|congruence].
        apply existsb_exists. exists (PVar v, ds_of (PVar v), true, Some f). split; [apply Hvs; exists v; split; auto; split; auto; unfold in_filter in *; cbn [piece_cp] in *; congruence|].
        cbn. rewrite Hc. apply cps_eqb_refl.
      - intro H. destruct (existsb (is_refl_perm ch) vs) eqn:E; auto. apply existsb_exists in E. destruct E as [q [Hq E]]. apply Hvs in Hq. destruct Hq as [v [Hu [_ ->]]].
        cbn in E. apply cps_eqb_eq in E. exfalso. eapply H; eauto. }
    assert (Hgo : In p (if (negb (existsb (is_refl_perm ch) vs) && cp_in_base script f (ch_cp ch))%bool then (PChar ch, [], false, Some f) :: vs else vs) <->
        In p vs \/ (p = (PChar ch, [], false, Some f) /\ in_filter script f (PChar ch) /\ existsb (is_refl_perm ch) vs = false)).
    { unfold in_filter, cp_in_base. cbn [piece_cp]. destruct (existsb (is_refl_perm ch) vs), (cp_in_scripts script (ch_cp ch) (sf_base f)); cbn [negb andb In]; intuition congruence. }
    rewrite Hgo, Hvs. split.
    - intros [[v [Hu [Hf ->]]]|[-> [Hf He]]]; eexists; (split; [|split; [exact Hf|]]); try reflexivity; eauto. right. split; auto. apply Hex; auto.
    - intros [pc [-> [Hf [[v [Hu ->]]|[Hn ->]]]]]; [left; exists v; auto|right]. split; [reflexivity|]. split; auto. apply Hex; auto.
  Qed.
  Lemma nothing_left : forall done l, replacement rm (considered rm r) done [] l -> l = [].
  Proof.
    intros done l H. inversion H; subst; auto; exfalso;
      match goal with h : _ ++ _ = [] |- _ => apply app_eq_nil in h; destruct h as [h _] end;
      match goal with h : considered _ _ _ (ch_cp ?c ++ _) ?c, g : ch_cp ?c = [] |- _ => apply considered_entry in h; destruct h as [h _]; apply entry_nonempty in h; contradiction end.
  Qed.
  Lemma run_later_iff : forall f done rest l, run rm r script done rest false (Some f) l <->
    rest <> [] /\ exists l', l = map (named_by f) l' /\ replacement rm (considered rm r) done rest l' /\ forall x, In x l' -> in_filter script f (snd x).
  Proof.
    intros f done rest l. split.
    - intro H. split; [eapply run_nonempty; exact H|]. remember false as first eqn:Ef. remember (Some f) as flt eqn:El. revert Ef El.
      induction H as [done ch first flt p Hc Hp|done ch tail first flt p l Hc Hp Hrun IH]; intros -> ->.
      + rewrite <- (app_nil_r (ch_cp ch)) in Hp, Hc. apply perms_later_iff in Hp. destruct Hp as [pc [-> [Hf Hpc]]]. exists [(ch, pc)]. split; [reflexivity|].
        rewrite <- (app_nil_r (ch_cp ch)). split; [|intros x [<-|[]]; exact Hf].
        destruct Hpc as [[v [Hu ->]]|[Hn ->]]; [apply rp_variant|apply rp_keep]; auto; constructor.
      + apply perms_later_iff in Hp. destruct Hp as [pc [-> [Hf Hpc]]]. destruct (IH eq_refl eq_refl) as [l' [-> [Hl' Hin]]]. cbn [pp] in Hl'.
        exists ((ch, pc) :: l'). split; [reflexivity|]. split; [|intros x [<-|Hx]; [exact Hf|auto]].
        destruct Hpc as [[v [Hu ->]]|[Hn ->]]; [apply rp_variant|apply rp_keep]; auto.
    - intros [Hne [l' [-> [H Hin]]]]. revert Hne Hin. induction H as [done|done ch tail l Hc Hn Hl IH|done ch v tail l Hc Hu Hl IH]; intros Hne Hin; [contradiction| |].
      + assert (Hp : In (PChar ch, [], false, Some f) (char_perms rm script done (ch_cp ch ++ tail) false (Some f) ch)).
        { apply perms_later_iff. exists (PChar ch). split; [reflexivity|]. split; [apply (Hin (ch, PChar ch)); left; reflexivity|auto]. }
        destruct tail as [|y tail].
        * apply nothing_left in Hl. subst l. rewrite app_nil_r in *. apply run_last; auto.
        * cbn [map]. apply run_step; auto. apply IH; [discriminate|]. intros x Hx. apply Hin. right. exact Hx.
      + assert (Hp : In (PVar v, ds_of (PVar v), true, Some f) (char_perms rm script done (ch_cp ch ++ tail) false (Some f) ch)).
        { apply perms_later_iff. exists (PVar v). split; [reflexivity|]. split; [apply (Hin (ch, PVar v)); left; reflexivity|eauto]. }
        destruct tail as [|y tail].
        * apply nothing_left in Hl. subst l. rewrite app_nil_r in *. apply run_last; auto.
        * cbn [map]. apply run_step; auto. apply IH; [discriminate|]. intros x Hx. apply Hin. right. exact Hx.
  Qed.

  (** The first entry. *)
  Lemma perms_first_iff : forall ch tail f p,
    In p (char_perms rm script [] (ch_cp ch ++ tail) true (Some f) ch) <->
    (exists v, usable rm [] tail ch v /\ cp_in_other script f (v_cp v) = true /\
       p = (PVar v, ds_of (PVar v), true, Some (other_filter (match v_cp v with x :: _ => script x | [] => "" end)))) \/
    (exists v, usable rm [] tail ch v /\ cp_in_other script f (v_cp v) = false /\ in_filter script f (PVar v) /\ p = (PVar v, ds_of (PVar v), true, Some f)) \/
    (p = (PChar ch, [], false, Some f) /\
     forall v, usable rm [] tail ch v -> v_cp v = ch_cp ch -> cp_in_other script f (v_cp v) = false /\ ~ in_filter script f (PVar v)).
  Proof.
    intros ch tail f p. unfold char_perms, ch_len. rewrite skipn_app_len. cbn [orb]. rewrite andb_true_r.
    set (vs := flat_map (var_perm rm script [] tail true (Some f)) (get_variants ch)).
    assert (Hvs : forall q, In q vs <->
      (exists v, usable rm [] tail ch v /\ cp_in_other script f (v_cp v) = true /\
         q = (PVar v, ds_of (PVar v), true, Some (other_filter (match v_cp v with x :: _ => script x | [] => "" end)))) \/
      (exists v, usable rm [] tail ch v /\ cp_in_other script f (v_cp v) = false /\ in_filter script f (PVar v) /\ q = (PVar v, ds_of (PVar v), true, Some f))).
    { intro q. unfold vs. rewrite in_flat_map. unfold var_perm, in_filter, cp_in_base. cbn [andb piece_cp]. split.
      - intros [v [Hv Hq]]. destruct (cp_in_other script f (v_cp v)) eqn:Eo; [left|right].
        + destruct (ctx_var rm v ([] ++ v_cp v ++ tail) (length (@nil N))) eqn:E; [|contradiction]. destruct Hq as [<-|[]]. exists v. split; [apply usable_dec; auto|]. auto.
        + destruct (cp_in_scripts script (v_cp v) (sf_base f)) eqn:Ef; [|contradiction]. cbn [negb] in Hq.
          destruct (ctx_var rm v ([] ++ v_cp v ++ tail) (length (@nil N))) eqn:E; [|contradiction]. destruct Hq as [<-|[]]. exists v. split; [apply usable_dec; auto|]. auto.
      - intros [[v [Hu [Ho ->]]]|[v [Hu [Ho [Hf ->]]]]]; exists v; (split; [apply Hu|]); rewrite Ho; try rewrite Hf; cbn [negb];
          pose proof (proj1 (usable_dec rm [] tail ch v (proj1 Hu)) Hu) as Hu'; rewrite Hu'; left; reflexivity. }
    assert (Hex : existsb (is_refl_perm ch) vs = false <->
        forall v, usable rm [] tail ch v -> v_cp v = ch_cp ch -> cp_in_other script f (v_cp v) = false /\ ~ in_filter script f (PVar v)).
    { split.
      - intros H v Hu Hc.
        assert (Hno : forall q, In q vs -> pp q = PVar v -> False).
        { intros q Hq Hpq. assert (Ht : existsb (is_refl_perm ch) vs = true); [|congruence]. apply existsb_exists. exists q. split; auto.
          destruct q as [[[pc a] b] c]. cbn in Hpq. subst pc. cbn. rewrite Hc. apply cps_eqb_refl. }
        destruct (cp_in_other script f (v_cp v)) eqn:Eo; [exfalso; eapply Hno; [apply Hvs; left; exists v; split; [exact Hu|split; [exact Eo|reflexivity]]|reflexivity]|].
        split; auto. intro Hf. eapply Hno; [apply Hvs; right; exists v; split; [exact Hu|split; [exact Eo|split; [exact Hf|reflexivity]]]|reflexivity].
      - intro H. destruct (existsb (is_refl_perm ch) vs) eqn:E; auto. apply existsb_exists in E. destruct E as [q [Hq E]]. exfalso.
        apply Hvs in Hq. destruct Hq as [[v [Hu [Ho ->]]]|[v [Hu [Ho [Hf ->]]]]]; cbn in E; apply cps_eqb_eq in E; destruct (H v Hu E) as [H1 H2]; [congruence|contradiction]. }
    destruct (existsb (is_refl_perm ch) vs) eqn:E; cbn [negb].
    - rewrite Hvs. split; [tauto|]. intros [H|[H|[_ H]]]; auto. apply Hex in H. discriminate.
    - cbn [In]. rewrite Hvs. split; [|intuition congruence]. intros [<-|[H|H]]; auto. right. right. split; auto. apply Hex. reflexivity.
  Qed.

  Lemma map_strip_out : forall (l : list (char * perm)) l', map (fun x => (fst x, (pp (snd x), pds (snd x), pisv (snd x)))) l = map (fun x => (fst x, (snd x, ds_of (snd x), isv_of (snd x)))) l' ->
    out l = out (map canon l') /\ forall hv, emit hv l = emit hv (map canon l').
  Proof.
    induction l as [|[ch p] l IH]; intros [|[ch' p'] l'] H; try discriminate; [split; reflexivity|].
    cbn [map fst snd] in H. injection H as -> H1 H2 H3 H. destruct (IH l' H) as [I1 I2].
    destruct l as [|y l]; destruct l' as [|y' l']; try discriminate.
    - destruct p as [[[a b] c] d]. cbn in *. subst. split; reflexivity.
    - remember (y :: l) as m. remember (y' :: l') as m'.
      assert (Eo : forall c q n, n <> [] -> out ((c, q) :: n) = mkVL (piece_cp (pp q) ++ vl_cp (out n)) (vl_disp (out n) ++ pds q) (pisv q && vl_only (out n)) (pp q :: vl_chars (out n)) /\
         forall h, emit h ((c, q) :: n) = emit (pisv q || h) n).
      { intros c q n Hn. destruct n; [contradiction|split; reflexivity]. }
      destruct (Eo ch' p m) as [A1 A2]; [subst m; discriminate|]. cbn [map]. destruct (Eo ch' (snd (canon (ch', p'))) (map canon m')) as [B1 B2]; [subst m'; discriminate|].
      change (canon (ch', p')) with (ch', snd (canon (ch', p'))). rewrite A1, B1, I1. split.
      + destruct p as [[[a b] c] d]. cbn [canon fst snd pp pds pisv] in *. rewrite H1, H2, H3. reflexivity.
      + intro hv. rewrite A2, B2, I2. destruct p as [[[a b] c] d]. cbn [canon fst snd pp pds pisv] in *. rewrite H3. reflexivity.
  Qed.
End Hide.
