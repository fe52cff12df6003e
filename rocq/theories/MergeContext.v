From Coq Require Import Permutation Sorting.Sorted Ascii OrderedTypeEx.
From Verif Require Import Base BaseFacts CharModel RepSpec RepProofs VariantProofs IterProofs VarSetSpec VarSetProofs.
From Verif Require Import RefModel RefSpec RefProofs ActionModel LgrModel LgrSpec LgrProofs LgrReach LgrInv LgrRefs LgrFinal.
From Verif Require Import ValidateModel ValidateSpec ValidateProofs PopulateModel PopulateSpec PopulateProofs.
From Verif Require Import CompareModel CompareProofs HarmonizeModel HarmonizeSpec HarmonizeProofs HarmonizeFinal MergeModel MergeProofs MergeSteps MergeLoop MergeSpec MergeRefs MergeFold MergeFinal.
Open Scope string_scope.
Open Scope list_scope.

(** ** Strings *)
Lemma prefix_iff : forall s w, String.prefix s w = true <-> exists r, w = (s ++ r)%string.
Proof.
  induction s as [|a s IH]; intro w.
  - split; [intros _; exists w; reflexivity|intros _; destruct w; reflexivity].
  - destruct w as [|b w]; [split; [discriminate|intros [r H]; discriminate]|].
    change (String.prefix (String a s) (String b w)) with (if ascii_dec a b then String.prefix s w else false). cbn [append]. destruct (ascii_dec a b) as [<-|N].
    + rewrite IH. split; intros [r H]; exists r; congruence.
    + split; [discriminate|]. intros [r H]. congruence.
Qed.
Lemma sub_all : forall s, String.substring 0 (String.length s) s = s.
Proof. induction s as [|a s IH]; cbn; [reflexivity|]. rewrite IH. reflexivity. Qed.
Lemma sub_app : forall s r n, String.substring (String.length s) n (s ++ r) = String.substring 0 n r.
Proof. induction s as [|a s IH]; intros r n; cbn [String.length append]; [reflexivity|]. cbn [String.substring]. apply IH. Qed.
Lemma sub_front : forall s r, String.substring 0 (String.length s) (s ++ r) = s.
Proof. induction s as [|a s IH]; intro r; [destruct r; reflexivity|]. cbn [String.length append String.substring]. rewrite IH. reflexivity. Qed.
Lemma length_app_s : forall a b, String.length (a ++ b) = (String.length a + String.length b)%nat.
Proof. induction a as [|x a IH]; intro b; cbn; [reflexivity|]. rewrite IH. reflexivity. Qed.
Lemma app_assoc_s : forall a b c, ((a ++ b) ++ c = a ++ (b ++ c))%string.
Proof. induction a as [|x a IH]; intros b c; cbn; [reflexivity|]. rewrite IH. reflexivity. Qed.
Lemma strip_prefix_app : forall s r, strip_prefix s (s ++ r) = r.
Proof.
  intros s r. unfold strip_prefix. assert (H : String.prefix s (s ++ r) = true) by (apply prefix_iff; exists r; reflexivity). rewrite H.
  rewrite length_app_s, sub_app. replace (String.length s + String.length r - String.length s)%nat with (String.length r) by lia. apply sub_all.
Qed.
Lemma strip_suffix_app : forall x s, strip_suffix s (x ++ s) = x.
Proof.
  intros x s. unfold strip_suffix. rewrite length_app_s. replace (String.length x + String.length s - String.length s)%nat with (String.length x) by lia.
  cbv zeta. rewrite sub_front, String.eqb_refl. reflexivity.
Qed.
Lemma strip_not : forall s n, ~ starts s n -> strip_prefix (s ++ "-") n = n.
Proof.
  intros s n H. unfold strip_prefix. destruct (String.prefix (s ++ "-") n) eqn:E; [|reflexivity]. exfalso. apply H. apply prefix_iff in E. destruct E as [r ->].
  exists r. rewrite app_assoc_s. reflexivity.
Qed.
(** Of two prefixes of a string, one is a prefix of the other. *)
Lemma two_prefixes : forall a b c d, (a ++ b = c ++ d)%string -> (exists r, c = (a ++ r)%string) \/ exists r, a = (c ++ r)%string.
Proof.
  induction a as [|x a IH]; intros b c d H; [left; exists c; reflexivity|]. destruct c as [|y c]; [right; exists (String x a); reflexivity|].
  cbn in H. injection H as <- H. destruct (IH b c d H) as [[r ->]|[r ->]]; [left|right]; exists r; reflexivity.
Qed.
Lemma starts_chain : forall s x t, starts s (x ++ "-" ++ t) -> starts s (x ++ "-") \/ starts x (s ++ "-").
Proof.
  intros s x t [r H]. rewrite <- !app_assoc_s in H. destruct (two_prefixes _ _ _ _ H) as [[q Q]|[q Q]]; [right|left]; exists q; rewrite Q, app_assoc_s; reflexivity.
Qed.

Definition apart (l : list member) : Prop := forall m x rest, Permutation l (m :: x :: rest) -> ~ starts (get_script m) (get_script x ++ "-").
Lemma apart_perm : forall l l', Permutation l l' -> apart l -> apart l'.
Proof. intros l l' P H m x rest R. apply (H m x rest). eapply perm_trans; eauto. Qed.
Lemma apart_tail : forall m l, apart (m :: l) -> apart l.
Proof.
  intros m l H a b rest R. apply (H a b (m :: rest)). eapply perm_trans; [apply perm_skip, R|]. eapply perm_trans; [apply perm_swap|]. apply perm_skip, perm_swap.
Qed.
Lemma apart_two : forall m l x, apart (m :: l) -> In x l -> ~ starts (get_script m) (get_script x ++ "-") /\ ~ starts (get_script x) (get_script m ++ "-").
Proof.
  intros m l x H Hx. apply in_split in Hx. destruct Hx as [l1 [l2 ->]]. split.
  - apply (H m x (l1 ++ l2)). apply perm_skip, Permutation_sym, Permutation_middle.
  - apply (H x m (l1 ++ l2)). eapply perm_trans; [apply perm_skip, Permutation_sym, Permutation_middle|apply perm_swap].
Qed.
Lemma strip_all : forall f c n R, apart R -> (forall m, In m R -> ~ starts (get_script m) n) ->
  fold_left (fun w s => strip_prefix (s ++ "-")%string w) (map get_script R) (chain (map get_script (asking f R c)) n) = n.
Proof.
  intros f c n. induction R as [|m R IH]; intros A S; [reflexivity|]. cbn [map fold_left asking filter].
  assert (HI := IH (apart_tail _ _ A) (fun x Hx => S x (or_intror Hx))). destruct (truthy (f m c)) eqn:T.
  - cbn [map chain]. rewrite <- app_assoc_s, strip_prefix_app. exact HI.
  - rewrite strip_not; [exact HI|]. fold (asking f R c). destruct (asking f R c) as [|x A'] eqn:EA; [apply S; left; reflexivity|].
    assert (Hx : In x R) by (apply (filter_In (fun m => truthy (f m c)) x R); unfold asking in EA; rewrite EA; left; reflexivity).
    destruct (apart_two _ _ _ A Hx) as [A1 A2]. cbn [map chain]. intro H. apply starts_chain in H. tauto.
Qed.
Lemma chain_last : forall s ss n, exists x, chain (s :: ss) n = (x ++ "-" ++ n)%string.
Proof.
  intros s ss n. revert s. induction ss as [|t ss IH]; intro s; [exists s; reflexivity|]. destruct (IH t) as [x Hx]. exists (s ++ "-" ++ x)%string.
  change (chain (s :: t :: ss) n) with (s ++ "-" ++ chain (t :: ss) n)%string. rewrite Hx. rewrite !app_assoc_s. reflexivity.
Qed.

(** ** Sorting *)
Lemma compare_cmp : forall a b, String.compare a b = String_as_OT.cmp a b.
Proof. reflexivity. Qed.
Lemma leb_total : forall a b, script_leb a b = true \/ script_leb b a = true.
Proof.
  intros a b. unfold script_leb. rewrite (String.compare_antisym (replace_und 0 (get_script b))). destruct (String.compare _ _); cbn; auto.
Qed.
Lemma leb_iff : forall a b, script_leb a b = true <-> String.compare (sort_key a) (sort_key b) <> Gt.
Proof. intros a b. unfold script_leb, sort_key. destruct (String.compare _ _); split; congruence. Qed.
Lemma leb_trans : forall a b c, script_leb a b = true -> script_leb b c = true -> script_leb a c = true.
Proof.
  intros a b c. rewrite !leb_iff. set (x := sort_key a). set (y := sort_key b). set (z := sort_key c). intros H1 H2.
  destruct (String.compare x y) eqn:E1; [| |congruence].
  - apply String.compare_eq_iff in E1. rewrite E1. exact H2.
  - destruct (String.compare y z) eqn:E2; [| |congruence].
    + apply String.compare_eq_iff in E2. rewrite <- E2, E1. discriminate.
    + rewrite compare_cmp in *. apply String_as_OT.cmp_lt in E1. apply String_as_OT.cmp_lt in E2.
      assert (E3 := String_as_OT.lt_trans _ _ _ E1 E2). apply String_as_OT.cmp_lt in E3. rewrite E3. discriminate.
Qed.
Lemma sorted_order : forall l, in_script_order (isort script_leb l).
Proof.
  intro l. pose proof (isort_sorted script_leb leb_total leb_trans l) as H. induction H as [|x k H IH F]; constructor; [exact IH|].
  eapply Forall_impl; [|exact F]. intros y Hy. apply leb_iff. exact Hy.
Qed.
Lemma order_unique : forall l1 l2, in_script_order l1 -> in_script_order l2 -> Permutation l1 l2 -> NoDup (map sort_key l1) -> l1 = l2.
Proof.
  induction l1 as [|x l1 IH]; intros l2 S1 S2 P N.
  - apply Permutation_nil in P. congruence.
  - destruct l2 as [|y l2]; [apply Permutation_sym, Permutation_nil in P; discriminate|].
    inversion S1 as [|? ? S1' F1]; subst. inversion S2 as [|? ? S2' F2]; subst. cbn in N. inversion N as [|? ? N1 N2]; subst.
    assert (x = y).
    { assert (Hx : In x (y :: l2)) by (apply (Permutation_in _ P); left; reflexivity).
      assert (Hy : In y (x :: l1)) by (apply (Permutation_in _ (Permutation_sym P)); left; reflexivity).
      destruct Hx as [Hx|Hx]; [auto|]. destruct Hy as [Hy|Hy]; [auto|]. rewrite Forall_forall in F1, F2.
      specialize (F1 y Hy). specialize (F2 x Hx). cbn in F1, F2. rewrite String.compare_antisym in F2.
      exfalso. apply N1. replace (sort_key x) with (sort_key y); [apply in_map; exact Hy|].
      symmetry. apply String.compare_eq_iff. destruct (String.compare (sort_key x) (sort_key y)); [reflexivity| |congruence]. cbn in F2. congruence. }
    subst y. f_equal. apply IH; auto. apply (Permutation_cons_inv P).
Qed.
Theorem merge_any_order : forall ord_names ord_variants l1 l2, Permutation l1 l2 -> NoDup (map sort_key l1) ->
  merge_lgr_set ord_names ord_variants l1 = merge_lgr_set ord_names ord_variants l2.
Proof.
  intros on ov l1 l2 P N. unfold merge_lgr_set. f_equal. apply order_unique; try apply sorted_order.
  - eapply perm_trans; [apply Permutation_sym, sorted_perm|]. eapply perm_trans; [exact P|apply sorted_perm].
  - apply (Permutation_NoDup (Permutation_map _ (sorted_perm l1)) N).
Qed.

Lemma asking_app : forall f a b c, asking f (a ++ b) c = asking f a c ++ asking f b c.
Proof. intros f a b c. unfold asking. apply filter_app. Qed.
Lemma asking_rev : forall f l c, asking f (rev l) c = rev (asking f l c).
Proof.
  intros f l c. induction l as [|m l IH]; [reflexivity|]. cbn [rev]. rewrite asking_app, IH. cbn [asking filter]. fold (asking f l c).
  destruct (truthy (f m c)); cbn [rev]; [reflexivity|apply app_nil_r].
Qed.
Lemma asking_In : forall f l c m, In m (asking f l c) <-> In m l /\ truthy (f m c) = true.
Proof. intros f l c m. unfold asking. apply filter_In. Qed.

Section Field.
  Variable ord_names : list string -> list string.
  Variable ord_variants : list variant -> list variant.
  Hypothesis Pv : any_order ord_variants.
  Notation took := (took ord_names).
  Notation merged_ind := (merged_ind ord_names ord_variants Pv).

  Variable fld : char -> option string.
  Hypothesis fld_same : forall x y, same_entry x y -> fld y = fld x.
  Hypothesis fld_new : forall script ext mp ch, fld (new_head ord_names script ext mp ch) = prefixed script (fld ch).
  Hypothesis fld_old : forall script previous ext mp ex ch ch', head_step ord_names script previous ext mp (Some ex) ch ch' ->
    exists j, join_context script previous (fld ex) (fld ch) (ch_cp ch) = Ok j /\ fld ch' = fst j.
  Hypothesis fld_pairs : forall script previous ex ch o x, join_context script previous (fld ex) (fld ch) (ch_cp ch) = Ok (o, Some x) ->
    rule_pairs script previous (Some ex) ch x.

  Definition fof (m : member) (c : cps) : option string := match lookup (lg_rep (mb_lgr m)) c with Some ch => fld ch | None => None end.
  Definition known (m : member) : Prop := forall c n, fof m c = Some n -> n <> "" -> In n (mb_rules m) /\ ~ In n msr_rules.

  Definition Q_ctx (D : list member) (st : merged) : Prop := Q_entries D st /\ forall c ch', lk (lg_rep (mg_lgr st)) c = Some ch' -> asked_as fof D c (fld ch').
  Lemma truthy_some : forall o, truthy o = true -> exists n, o = Some n /\ n <> "".
  Proof. intros [n|] H; [|discriminate]. exists n. split; [reflexivity|]. intros ->. discriminate. Qed.
  Lemma asking_one : forall m c, asking fof [m] c = if truthy (fof m c) then [m] else [].
  Proof. intros m c. cbn. destruct (truthy (fof m c)); reflexivity. Qed.
  Lemma asked_none : forall D m c o, asked_as fof D c o -> truthy (fof m c) = false -> asked_as fof (D ++ [m]) c o.
  Proof. intros D m c o H T. unfold asked_as in *. rewrite asking_app, asking_one, T, app_nil_r. exact H. Qed.
  Lemma asked_first : forall D m c n, asking fof D c = [] -> fof m c = Some n -> n <> "" -> asked_as fof (D ++ [m]) c (Some (with_script (get_script m) n)).
  Proof.
    intros D m c n H E N. assert (T : truthy (fof m c) = true) by (rewrite E; destruct n; [congruence|reflexivity]).
    right. exists n. rewrite asking_app, asking_one, T, H. cbn. split; [discriminate|]. split; [|reflexivity]. intros x [<-|[]]. exact E.
  Qed.

  (** What [join_context] gives when the names are unambiguous. *)
  Lemma join_spec : forall D m c ex n e, apart D -> (forall x, In x D -> ~ starts (get_script x) n) ->
    asking fof D c <> [] -> (forall x, In x (asking fof D c) -> fof x c = Some n) -> fld ex = Some e -> e = chain (map get_script (rev (asking fof D c))) n -> n <> "" ->
    forall ch, ch_cp ch = c -> forall mine, fld ch = Some mine -> mine <> "" ->
    join_context (get_script m) (map get_script D) (fld ex) (fld ch) c =
      if String.eqb n mine then Ok (Some (with_script (get_script m) e), Some (strip_suffix ("-" ++ n) (with_script (get_script m) e), n)) else Raise (CharInvalidContextRule c).
  Proof.
    intros D m c ex n e A S Hne Hall Hex He Hn ch Hc mine Hm Hmn. unfold join_context. rewrite Hex, Hm.
    assert (T : truthy (Some mine) = true) by (destruct mine; [congruence|reflexivity]). rewrite T.
    assert (Te : truthy (Some e) = true).
    { destruct (rev (asking fof D c)) as [|x r] eqn:Er; [exfalso; apply Hne; rewrite <- (rev_involutive (asking fof D c)), Er; reflexivity|].
      cbn in He. rewrite He. destruct (get_script x); reflexivity. }
    unfold plain_name. rewrite Te, <- map_rev, He, <- asking_rev, strip_all.
    - assert (En : String.eqb n "" = false) by (destruct (String.eqb_spec n ""); [congruence|reflexivity]). rewrite En. reflexivity.
    - eapply apart_perm; [apply Permutation_rev|exact A].
    - intros x Hx. apply S. apply in_rev. exact Hx.
  Qed.

  Lemma ctx_step : forall D st m st' P, Q_ctx D st -> took (map get_script D) st st' m P -> unambiguous fof (D ++ [m]) -> Q_ctx (D ++ [m]) st'.
  Proof.
    intros D st m st' P [HE HF] T [U1 U2]. split; [eapply entries_step; eauto|]. intros c ch' Hc.
    destruct (lk (lg_rep (mb_lgr m)) c) as [ch|] eqn:Em.
    - assert (Ef : fof m c = fld ch) by (unfold fof; rewrite lookup_lk, Em; reflexivity).
      destruct (tk_here _ _ _ _ _ _ T c ch Em) as [y [Y1 Y2]]. rewrite Y1 in Hc. injection Hc as ->. pose proof (lk_cp _ _ _ Em) as Ecp.
      destruct (lk (lg_rep (mg_lgr st)) c) as [ex|] eqn:Ee.
      + destruct (fld_old _ _ _ _ _ _ _ Y2) as [j [J1 J2]]. rewrite J2. rewrite Ecp in J1. specialize (HF c ex Ee).
        destruct (truthy (fof m c)) eqn:Tm.
        * destruct (truthy_some _ Tm) as [mine [M1 M2]]. rewrite Ef in M1. destruct HF as [[F1 F2]|[n [F1 [F2 F3]]]].
          -- rewrite F2, M1 in J1. unfold join_context in J1. rewrite Ef, M1 in Tm. rewrite Tm in J1. injection J1 as <-. cbn [fst].
             apply asked_first; [exact F1|congruence|exact M2].
          -- assert (Hn : n <> "" /\ exists x, In x D /\ fof x c = Some n).
             { destruct (asking fof D c) as [|x r] eqn:Ea; [congruence|]. assert (Hx : In x (asking fof D c)) by (rewrite Ea; left; reflexivity).
               specialize (F2 x (or_introl eq_refl)). apply asking_In in Hx. destruct Hx as [Hx1 Hx2]. rewrite F2 in Hx2. destruct (truthy_some _ Hx2) as [k [K1 K2]].
               split; [congruence|]. exists x. auto. }
             destruct Hn as [Hn [x0 [X1 X2]]].
             assert (Ad : apart D) by (intros a b rest R; apply (U2 a b (rest ++ [m])); apply (Permutation_app_tail [m]) in R; exact R).
             assert (Sd : forall x, In x D -> ~ starts (get_script x) n) by (intros x Hx; apply (U1 x x0 c); [apply in_app_iff; auto|apply in_app_iff; auto|exact X2]).
             rewrite (join_spec D m c ex n _ Ad Sd F1 F2 F3 eq_refl Hn ch Ecp mine M1 M2) in J1.
             destruct (String.eqb_spec n mine) as [Qm|]; [|discriminate]. rewrite <- Qm in M1. injection J1 as <-. cbn [fst].
                right. exists n. rewrite asking_app, asking_one, Tm. split; [destruct (asking fof D c); discriminate|]. split.
             ++ intros x Hx. apply in_app_iff in Hx. destruct Hx as [Hx|[<-|[]]]; [auto|congruence].
             ++ rewrite rev_app_distr. reflexivity.
        * apply asked_none; [|exact Tm]. unfold join_context in J1. rewrite Ef in Tm. destruct (fld ch) as [k|]; [rewrite Tm in J1|]; injection J1 as <-; exact HF.
      + rewrite (fld_same _ _ Y2), fld_new.
        assert (Hno : asking fof D c = []).
        { destruct (asking fof D c) as [|x r] eqn:Ea; [reflexivity|]. exfalso. assert (Hx : In x (asking fof D c)) by (rewrite Ea; left; reflexivity).
          apply asking_In in Hx. destruct Hx as [X1 X2]. assert (X : lk (lg_rep (mg_lgr st)) c <> None); [|congruence].
          apply HE. exists x. split; [exact X1|]. unfold has_cp. unfold fof in X2. destruct (lookup (lg_rep (mb_lgr x)) c); [discriminate|discriminate X2]. }
        destruct (truthy (fld ch)) eqn:Tm.
        * destruct (truthy_some _ Tm) as [n [N1 N2]]. rewrite N1 in *. cbn [prefixed]. rewrite Tm. apply asked_first; auto.
        * left. rewrite asking_app, asking_one, Ef, Tm, Hno. split; [reflexivity|]. unfold prefixed. destruct (fld ch) as [k|]; [rewrite Tm|]; reflexivity.
    - apply asked_none; [|unfold fof; rewrite lookup_lk, Em; reflexivity].
      assert (Hs : lk (lg_rep (mg_lgr st)) c <> None).
      { assert (X : lk (lg_rep (mg_lgr st')) c <> None) by congruence. apply (tk_entries _ _ _ _ _ _ T) in X. destruct X; [exact H|congruence]. }
      destruct (lk (lg_rep (mg_lgr st)) c) as [ex|] eqn:Ee; [|congruence]. destruct (tk_old _ _ _ _ _ _ T c ex Em Ee) as [y [Y1 Y2]]. rewrite Y1 in Hc. injection Hc as ->.
      rewrite (fld_same _ _ Y2). apply HF. exact Ee.
  Qed.
  Lemma unambiguous_front : forall D m, unambiguous fof (D ++ [m]) -> unambiguous fof D.
  Proof.
    intros D m [U1 U2]. split.
    - intros a x c n Ha Hx. apply (U1 a x c n); apply in_app_iff; auto.
    - intros a b rest R. apply (U2 a b (rest ++ [m])). apply (Permutation_app_tail [m]) in R. exact R.
  Qed.
  Lemma unambiguous_perm : forall D D', Permutation D D' -> unambiguous fof D -> unambiguous fof D'.
  Proof.
    intros D D' P [U1 U2]. split.
    - intros a x c n Ha Hx. apply (U1 a x c n); apply (Permutation_in _ (Permutation_sym P)); assumption.
    - intros a b rest R. apply (U2 a b rest). eapply perm_trans; eauto.
  Qed.
  Lemma ctx_merged : forall l st, (forall m, In m l -> tidy (mb_lgr m)) -> merge_lgr_set ord_names ord_variants l = Ok st -> unambiguous fof l ->
    forall c ch', lookup (lg_rep (mg_lgr st)) c = Some ch' -> asked_as fof (isort script_leb l) c (fld ch').
  Proof.
    intros l st T E U c ch' Hc.
    destruct (merged_ind (fun D st => unambiguous fof D -> Q_ctx D st) l st) as [H _]; [|exact T| |exact E|].
    - intros D s m s' P _ H _ K U'. eapply ctx_step; eauto. apply H. eapply unambiguous_front; eauto.
    - intros _. split; [apply entries_start|]. intros x y. rewrite start_lk. discriminate.
    - destruct (H (unambiguous_perm _ _ (sorted_perm l) U)) as [_ G]. apply G. rewrite <- lookup_lk. exact Hc.
  Qed.

  (** ** The rules asked for are there *)
  Definition Q_def (D : list member) (st : merged) : Prop := Q_ctx D st /\ forall c ch' w, lk (lg_rep (mg_lgr st)) c = Some ch' -> fld ch' = Some w -> In w (mg_rules st).
  Lemma rename_own : forall script n, ~ In n msr_rules -> rename_rule script n = with_script script n.
  Proof. intros script n H. unfold rename_rule. destruct (memb String.eqb n msr_rules) eqn:E; [|reflexivity]. apply (memb_In _ _ string_eqb_iff) in E. contradiction. Qed.
  Lemma def_step : forall D st m st' P, Q_def D st -> took (map get_script D) st st' m P -> unambiguous fof (D ++ [m]) -> known m -> Q_def (D ++ [m]) st'.
  Proof.
    intros D st m st' P [HQ HD] T U Kn. split; [eapply ctx_step; eauto|]. intros c ch' w Hc Hw. destruct HQ as [HE HF].
    assert (Hmine : forall n, fof m c = Some n -> n <> "" -> In (with_script (get_script m) n) (mg_rules st')).
    { intros n Hn Hne. destruct (Kn c n Hn Hne) as [K1 K2]. apply (tk_rules _ _ _ _ _ _ T). right. left. exists n. split; [exact K1|]. symmetry. apply rename_own. exact K2. }
    destruct (lk (lg_rep (mb_lgr m)) c) as [ch|] eqn:Em.
    - assert (Ef : fof m c = fld ch) by (unfold fof; rewrite lookup_lk, Em; reflexivity).
      destruct (tk_here _ _ _ _ _ _ T c ch Em) as [y [Y1 Y2]]. rewrite Y1 in Hc. injection Hc as ->. pose proof (lk_cp _ _ _ Em) as Ecp.
      destruct (lk (lg_rep (mg_lgr st)) c) as [ex|] eqn:Ee.
      + destruct (fld_old _ _ _ _ _ _ _ Y2) as [j [J1 J2]]. rewrite J2 in Hw. rewrite Ecp in J1. specialize (HF c ex Ee).
        destruct (truthy (fof m c)) eqn:Tm.
        * destruct (truthy_some _ Tm) as [mine [M1 M2]]. destruct HF as [[F1 F2]|[n [F1 [F2 F3]]]].
          -- rewrite Ef in *. rewrite F2, M1 in J1. unfold join_context in J1. rewrite M1 in Tm. rewrite Tm in J1. injection J1 as <-. cbn [fst] in Hw. injection Hw as <-.
             apply Hmine; auto.
          -- assert (Hn : n <> "" /\ exists x, In x D /\ fof x c = Some n).
             { destruct (asking fof D c) as [|x r] eqn:Ea; [congruence|]. assert (Hx : In x (asking fof D c)) by (rewrite Ea; left; reflexivity).
               specialize (F2 x (or_introl eq_refl)). apply asking_In in Hx. destruct Hx as [Hx1 Hx2]. rewrite F2 in Hx2. destruct (truthy_some _ Hx2) as [k [K1 K2]].
               split; [congruence|]. exists x. auto. }
             destruct Hn as [Hn [x0 [X1 X2]]]. destruct U as [U1 U2]. rewrite Ef in M1.
             pose proof J1 as J3.
             assert (Ad : apart D) by (intros a b rest R; apply (U2 a b (rest ++ [m])); apply (Permutation_app_tail [m]) in R; exact R).
             assert (Sd : forall x, In x D -> ~ starts (get_script x) n) by (intros x Hx; apply (U1 x x0 c); [apply in_app_iff; auto|apply in_app_iff; auto|exact X2]).
             rewrite (join_spec D m c ex n _ Ad Sd F1 F2 F3 eq_refl Hn ch Ecp mine M1 M2) in J1.
             destruct (String.eqb_spec n mine) as [Qm|]; [|discriminate]. rewrite <- Qm in M1. injection J1 as J1. rewrite <- J1 in Hw, J3. cbn [fst] in Hw. injection Hw as <-.
                rewrite <- Ecp in J3. apply fld_pairs in J3. destruct (Kn c n) as [K1 K2]; [congruence|exact Hn|].
                destruct (rev (asking fof D c)) as [|z r] eqn:Er; [exfalso; apply F1; rewrite <- (rev_involutive (asking fof D c)), Er; reflexivity|].
                apply (tk_rules _ _ _ _ _ _ T). right. right. exists c, ch. eexists. exists n, n. split; [exact Em|]. rewrite Ee. split; [exact J3|]. split; [exact K1|]. split; [reflexivity|].
                rewrite (rename_own _ _ K2), Ecp, Er. cbn [map]. destruct (chain_last (get_script m) (get_script z :: map get_script r) n) as [q Q].
                change (with_script (get_script m) (chain (get_script z :: map get_script r) n)) with (chain (get_script m :: get_script z :: map get_script r) n).
                rewrite Q. match goal with |- context [strip_suffix ?a ?b] => replace (strip_suffix a b) with q by (symmetry; apply (strip_suffix_app q ("-" ++ n)%string)) end. reflexivity.
        * unfold join_context in J1. rewrite Ef in Tm.
          assert (J4 : fst j = fld ex) by (destruct (fld ch) as [k|]; [rewrite Tm in J1|]; injection J1 as <-; reflexivity).
          apply (tk_rules _ _ _ _ _ _ T). left. apply (HD c ex); [exact Ee|congruence].
      + rewrite (fld_same _ _ Y2), fld_new in Hw. destruct (fld ch) as [n|]; [|discriminate]. unfold prefixed in Hw. destruct (truthy (Some n)) eqn:Tn; [|discriminate]. injection Hw as <-.
        apply Hmine; [exact Ef|]. intros ->. discriminate.
    - assert (Hs : lk (lg_rep (mg_lgr st)) c <> None).
      { assert (X : lk (lg_rep (mg_lgr st')) c <> None) by congruence. apply (tk_entries _ _ _ _ _ _ T) in X. destruct X; [exact H|congruence]. }
      destruct (lk (lg_rep (mg_lgr st)) c) as [ex|] eqn:Ee; [|congruence]. destruct (tk_old _ _ _ _ _ _ T c ex Em Ee) as [y [Y1 Y2]]. rewrite Y1 in Hc. injection Hc as ->.
      rewrite (fld_same _ _ Y2) in Hw. apply (tk_rules _ _ _ _ _ _ T). left. apply (HD c ex); auto.
  Qed.
  Lemma def_merged : forall l st, (forall m, In m l -> tidy (mb_lgr m)) -> merge_lgr_set ord_names ord_variants l = Ok st -> unambiguous fof l -> (forall m, In m l -> known m) ->
    forall c ch' w, lookup (lg_rep (mg_lgr st)) c = Some ch' -> fld ch' = Some w -> In w (mg_rules st).
  Proof.
    intros l st T E U Kn c ch' w Hc Hw.
    destruct (merged_ind (fun D st => unambiguous fof D -> Q_def D st) l st) as [H _]; [|exact T| |exact E|].
    - intros D s m s' P Hm H _ K U'. eapply def_step; eauto. apply H. eapply unambiguous_front; eauto.
    - intros _. split; [split; [apply entries_start|]|]; intros x y; rewrite start_lk; discriminate.
    - destruct (H (unambiguous_perm _ _ (sorted_perm l) U)) as [_ G]. apply (G c ch'); [|exact Hw]. rewrite <- lookup_lk. exact Hc.
  Qed.
End Field.

Section Both.
  Variable ord_names : list string -> list string.
  Variable ord_variants : list variant -> list variant.
  Hypothesis Pv : any_order ord_variants.
  Notation merged_ind := (merged_ind ord_names ord_variants Pv).

  Lemma old_when : forall script previous ext mp ex ch ch', head_step ord_names script previous ext mp (Some ex) ch ch' ->
    exists j, join_context script previous (ch_when ex) (ch_when ch) (ch_cp ch) = Ok j /\ ch_when ch' = fst j.
  Proof. intros script previous ext mp ex ch ch' [jw [jn [H1 [H2 [_ [_ [_ [_ [_ [H3 H4]]]]]]]]]]. exists jw. auto. Qed.
  Lemma old_not_when : forall script previous ext mp ex ch ch', head_step ord_names script previous ext mp (Some ex) ch ch' ->
    exists j, join_context script previous (ch_not_when ex) (ch_not_when ch) (ch_cp ch) = Ok j /\ ch_not_when ch' = fst j.
  Proof. intros script previous ext mp ex ch ch' [jw [jn [H1 [H2 [_ [_ [_ [_ [_ [H3 H4]]]]]]]]]]. exists jn. auto. Qed.
  Lemma same_when : forall x y, same_entry x y -> ch_when y = ch_when x. Proof. intros x y H. apply H. Qed.
  Lemma same_not_when : forall x y, same_entry x y -> ch_not_when y = ch_not_when x. Proof. intros x y H. apply H. Qed.

  Theorem contexts_merged : forall l st, (forall m, In m l -> tidy (mb_lgr m)) -> merge_lgr_set ord_names ord_variants l = Ok st ->
    exists l', Permutation l l' /\ in_script_order l' /\ forall c ch', lookup (lg_rep (mg_lgr st)) c = Some ch' ->
      (unambiguous when_of l -> asked_as when_of l' c (ch_when ch')) /\ (unambiguous not_when_of l -> asked_as not_when_of l' c (ch_not_when ch')).
  Proof.
    intros l st T E. exists (isort script_leb l). split; [apply sorted_perm|]. split; [apply sorted_order|]. intros c ch' Hc. split; intro U.
    - apply (ctx_merged ord_names ord_variants Pv ch_when same_when (fun _ _ _ _ => eq_refl) old_when l st T E U c ch' Hc).
    - apply (ctx_merged ord_names ord_variants Pv ch_not_when same_not_when (fun _ _ _ _ => eq_refl) old_not_when l st T E U c ch' Hc).
  Qed.
  Theorem different_rules_stop : forall l, (forall m, In m l -> tidy (mb_lgr m)) ->
    forall f, f = when_of \/ f = not_when_of -> unambiguous f l ->
    forall m1 m2 c n1 n2, In m1 l -> In m2 l -> f m1 c = Some n1 -> f m2 c = Some n2 -> n1 <> "" -> n2 <> "" -> n1 <> n2 ->
    forall st, merge_lgr_set ord_names ord_variants l <> Ok st.
  Proof.
    intros l T f Hf U m1 m2 c n1 n2 H1 H2 F1 F2 E1 E2 Hne st E. destruct (contexts_merged l st T E) as [l' [P [_ H]]].
    assert (Hc : lookup (lg_rep (mg_lgr st)) c <> None).
    { apply (code_points_merged ord_names ord_variants Pv l st T E). exists m1. split; [exact H1|]. unfold has_cp.
      destruct Hf as [-> | ->]; unfold when_of, not_when_of in F1; destruct (lookup (lg_rep (mb_lgr m1)) c); congruence. }
    destruct (lookup (lg_rep (mg_lgr st)) c) as [ch'|] eqn:Ec; [|congruence]. destruct (H c ch' Ec) as [Ha Hb].
    assert (X : exists o, asked_as f l' c o) by (destruct Hf as [-> | ->]; eauto). destruct X as [o X].
    assert (I1 : In m1 (asking f l' c)) by (apply asking_In; split; [apply (Permutation_in _ P H1)|rewrite F1; destruct n1; [congruence|reflexivity]]).
    assert (I2 : In m2 (asking f l' c)) by (apply asking_In; split; [apply (Permutation_in _ P H2)|rewrite F2; destruct n2; [congruence|reflexivity]]).
    destruct X as [[X _]|[n [_ [X _]]]]; [rewrite X in I1; destruct I1|]. apply X in I1. apply X in I2. congruence.
  Qed.
  Theorem contexts_defined : forall l st, (forall m, In m l -> tidy (mb_lgr m)) -> merge_lgr_set ord_names ord_variants l = Ok st ->
    unambiguous when_of l -> unambiguous not_when_of l -> (forall m, In m l -> rules_known m) ->
    (forall c ch' w, lookup (lg_rep (mg_lgr st)) c = Some ch' -> ch_when ch' = Some w \/ ch_not_when ch' = Some w -> In w (mg_rules st)) /\
    (forall a b v w, mapping (lg_rep (mg_lgr st)) a b v -> v_when v = Some w \/ v_not_when v = Some w -> In w (mg_rules st)).
  Proof.
    intros l st T E U1 U2 Kn. split.
    - intros c ch' w Hc [Hw|Hw].
      + apply (def_merged ord_names ord_variants Pv ch_when same_when (fun _ _ _ _ => eq_refl) old_when) with (l := l) (c := c) (ch' := ch'); auto.
        * intros script previous ex ch o x H. cbn. exists o. left. exact H.
        * intros m Hm c0 n Hn. apply (proj1 (Kn m Hm) c0 n). left. exact Hn.
      + apply (def_merged ord_names ord_variants Pv ch_not_when same_not_when (fun _ _ _ _ => eq_refl) old_not_when) with (l := l) (c := c) (ch' := ch'); auto.
        * intros script previous ex ch o x H. cbn. exists o. right. exact H.
        * intros m Hm c0 n Hn. apply (proj1 (Kn m Hm) c0 n). right. exact Hn.
    - assert (G : forall m r, In m l -> In r (mb_rules m) -> In (rename_rule (get_script m) r) (mg_rules st)).
      { intros m r Hm. assert (H : (fun D st => forall m r, In m D -> In r (mb_rules m) -> In (rename_rule (get_script m) r) (mg_rules st)) (isort script_leb l) st).
        { refine (proj1 (merged_ind (fun D st => forall m r, In m D -> In r (mb_rules m) -> In (rename_rule (get_script m) r) (mg_rules st)) l st _ T _ E)).
          - intros D s x s' P _ H _ K y q Hy Hq. apply (tk_rules _ _ _ _ _ _ K). apply in_app_iff in Hy. destruct Hy as [Hy|[<-|[]]]; [left; auto|right; left; exists q; auto].
          - intros y q []. }
        apply H. apply sorted_in. exact Hm. }
      intros a b v w Hv Hw. destruct (variants_from ord_names ord_variants Pv l st T E a b v Hv) as [[m [u [M1 [M2 [_ [_ [M3 [M4 _]]]]]]]]|[[_ [J1 [J2 _]]] _]]; [|destruct Hw; congruence].
      assert (X : exists n, (v_when u = Some n \/ v_not_when u = Some n) /\ n <> "" /\ w = with_script (get_script m) n).
      { destruct Hw as [Hw|Hw]; rewrite Hw in *; [destruct (v_when u) as [n|]|destruct (v_not_when u) as [n|]]; try discriminate; cbn in M3, M4.
        - destruct (String.eqb_spec n ""); [discriminate|]. injection M3 as ->. exists n. auto.
        - destruct (String.eqb_spec n ""); [discriminate|]. injection M4 as ->. exists n. auto. }
      destruct X as [n [X1 [X2 ->]]]. destruct (proj2 (Kn m M1) a b u n M2 X1 X2) as [X3 X4]. rewrite <- (rename_own _ _ X4). apply G; auto.
  Qed.
  Theorem actions_merged : forall l st, (forall m, In m l -> tidy (mb_lgr m)) -> merge_lgr_set ord_names ord_variants l = Ok st ->
    exists l', Permutation l l' /\ in_script_order l' /\
      mg_actions st = flat_map (fun m => map (rename_action (get_script m)) (filter (fun a => negb (memb action_eqb a default_actions)) (mb_actions m))) l' /\
      mg_classes st = flat_map (fun m => map (fun c => (get_script m ++ "-" ++ c)%string) (mb_classes m)) l'.
  Proof.
    intros l st T E. exists (isort script_leb l). split; [apply sorted_perm|]. split; [apply sorted_order|].
    refine (proj1 (merged_ind (fun D st => mg_actions st = flat_map (fun m => map (rename_action (get_script m)) (filter (fun a => negb (memb action_eqb a default_actions)) (mb_actions m))) D /\
      mg_classes st = flat_map (fun m => map (fun c => (get_script m ++ "-" ++ c)%string) (mb_classes m)) D) l st _ T _ E)).
    - intros D s m s' P _ [H1 H2] _ K. rewrite (tk_actions _ _ _ _ _ _ K), (tk_classes _ _ _ _ _ _ K), H1, H2, !flat_map_app. cbn [flat_map]. rewrite !app_nil_r. split; reflexivity.
    - split; reflexivity.
  Qed.
End Both.
