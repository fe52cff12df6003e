From Coq Require Import Permutation.
From Verif Require Import Base BaseFacts CollisionModel CollisionSpec.
Open Scope string_scope.
Open Scope list_scope.

(** ** Grouping by index *)
Definition item := (cps * category * cps)%type.
Definition it_label (x : item) := fst (fst x).
Definition it_cat (x : item) := snd (fst x).
Definition it_index (x : item) := snd x.
Definition fresh (x : item) : centry := mkCe (it_label x) (it_cat x) [(it_label x, Some "-")].
Definition group (xs : list item) (i : cps) : list centry := map fresh (filter (fun x => cps_eqb (it_index x) i) xs).
Definition some_if (es : list centry) : option (list centry) := match es with [] => None | _ => Some es end.
Definition grouped (t : ctable) (xs : list item) : Prop :=
  NoDup (dkeys t) /\ forall i, dget cps_eqb i t = some_if (group xs i).

Lemma group_app : forall xs ys i, group (xs ++ ys) i = group xs i ++ group ys i.
Proof. intros. unfold group. rewrite filter_app, map_app. reflexivity. Qed.
Lemma grouped_nil : grouped [] [].
Proof. split; [constructor|]. reflexivity. Qed.
Lemma add_entry_grouped : forall t xs i l cat, grouped t xs -> grouped (add_entry t i l cat) (xs ++ [(l, cat, i)]).
Proof.
  intros t xs i l cat [H1 H2]. unfold add_entry. split; [apply (dset_NoDup _ cps_eqb_eq); exact H1|].
  intro j. rewrite (dget_dset _ cps_eqb_eq), group_app, H2. unfold group at 3. cbn [filter it_index snd].
  destruct (cps_eqb j i) eqn:E.
  - apply cps_eqb_eq in E. subst j. rewrite cps_eqb_refl. cbn [map]. change (fresh (l, cat, i)) with (mkCe l cat [(l, Some "-")]).
    destruct (group xs i); reflexivity.
  - assert (E' : cps_eqb i j = false) by (rewrite cps_eqb_sym; exact E). rewrite E'. cbn [map]. rewrite app_nil_r. apply H2.
Qed.

Section Phase.
  Variable index : cps -> res cps.

  Definition indexed (cat : category) (labels : list cps) : list item :=
    flat_map (fun l => match index l with Ok i => [(l, cat, i)] | Raise _ => [] end) labels.
  Definition absent (labels : list cps) : list cps :=
    filter (fun l => match index l with Raise (NotInLGR _) => true | _ => false end) labels.

  Lemma indexed_In : forall cat labels l c i, In (l, c, i) (indexed cat labels) <-> In l labels /\ c = cat /\ index l = Ok i.
  Proof.
    intros cat labels l c i. unfold indexed. rewrite in_flat_map. split.
    - intros [x [Hx H]]. destruct (index x) as [j|e] eqn:E; [|contradiction]. destruct H as [H|[]]. injection H as H1 H2 H3. subst. auto.
    - intros [H1 [H2 H3]]. exists l. split; [exact H1|]. rewrite H3. subst. left. reflexivity.
  Qed.
  Lemma absent_In : forall labels l, In l (absent labels) <-> In l labels /\ not_in_lgr index l.
  Proof.
    intros labels l. unfold absent, not_in_lgr. rewrite filter_In. split; intros [H1 H2]; (split; [exact H1|]).
    - destruct (index l) as [i|e]; [discriminate|]. destruct e; try discriminate. eauto.
    - destruct H2 as [x H2]. rewrite H2. reflexivity.
  Qed.

  Lemma add_labels_ok : forall tld labels t m xs, grouped t xs -> (forall l, In l labels -> settled index l) ->
    exists t', add_labels index tld t m labels = (t', m ++ (if tld then [] else absent labels), Ok tt) /\
      grouped t' (xs ++ indexed (if tld then CTld else CPrimary) labels).
  Proof.
    intro tld. induction labels as [|l labels IH]; intros t m xs Hg Hs.
    - exists t. cbn. rewrite app_nil_r. split; [destruct tld; rewrite app_nil_r; reflexivity|exact Hg].
    - assert (Hs' : forall x, In x labels -> settled index x) by (intros x Hx; apply Hs; right; exact Hx).
      cbn [add_labels]. unfold indexed, absent. cbn [flat_map filter]. fold (indexed (if tld then CTld else CPrimary) labels). fold (absent labels).
      destruct (Hs l (or_introl eq_refl)) as [[i Hi]|[y Hi]]; rewrite Hi.
      + destruct (IH _ m _ (add_entry_grouped t xs i l (if tld then CTld else CPrimary) Hg) Hs') as [t' [E1 E2]].
        exists t'. split; [exact E1|]. rewrite <- app_assoc in E2. exact E2.
      + destruct (IH t (if tld then m else m ++ [l]) xs Hg Hs') as [t' [E1 E2]]. exists t'. split; [|exact E2].
        rewrite E1. destruct tld; [reflexivity|]. rewrite <- app_assoc. reflexivity.
  Qed.
  Lemma add_labels_settled : forall tld labels t m t' m', add_labels index tld t m labels = (t', m', Ok tt) ->
    forall l, In l labels -> settled index l.
  Proof.
    intro tld. induction labels as [|x labels IH]; intros t m t' m' H l Hl; [contradiction|]. cbn [add_labels] in H.
    destruct (index x) as [i|e] eqn:E.
    - destruct Hl as [Hl|Hl]; [subst; left; eauto|eapply IH; eauto].
    - destruct e; try discriminate. destruct Hl as [Hl|Hl]; [subst; right; eexists; eauto|eapply IH; eauto].
  Qed.
  Lemma add_labels_raise : forall tld labels t m, snd (add_labels index tld t m labels) = Ok tt \/ exists e, snd (add_labels index tld t m labels) = Raise e.
  Proof. intros. destruct (snd _) as [[]|e]; eauto. Qed.

End Phase.

Section Expand.
  Variable listing : cps -> list cps -> list (cps * option string) * res unit.

  (** ** Variants *)
  Lemma entry_for_cp : forall es x e, entry_for es x = Some e -> In e es /\ ce_cp e = x.
  Proof. intros es x e H. apply find_some in H. destruct H as [H1 H2]. apply cps_eqb_eq in H2. auto. Qed.
  Lemma entry_for_In : forall es e, NoDup (map ce_cp es) -> In e es -> entry_for es (ce_cp e) = Some e.
  Proof.
    induction es as [|a es IH]; intros e Hn He; [contradiction|]. cbn [map] in Hn. inversion Hn as [|? ? N1 N2]; subst.
    unfold entry_for. cbn [find]. destruct He as [He|He].
    - subst. rewrite cps_eqb_refl. reflexivity.
    - destruct (cps_eqb (ce_cp a) (ce_cp e)) eqn:E; [|apply IH; auto]. apply cps_eqb_eq in E. exfalso. apply N1. rewrite E. apply in_map. exact He.
  Qed.
  Lemma entry_for_none : forall es x, entry_for es x = None <-> ~ In x (map ce_cp es).
  Proof.
    intros es x. split.
    - intros H Hi. apply in_map_iff in Hi. destruct Hi as [e [E He]]. pose proof (find_none _ _ H e He) as F. cbn in F. rewrite E, cps_eqb_refl in F. discriminate.
    - intro H. destruct (entry_for es x) as [e|] eqn:E; [|reflexivity]. apply entry_for_cp in E. destruct E as [E1 E2]. exfalso. apply H. subst. apply in_map. exact E1.
  Qed.
  Lemma entry_for_some : forall es x, entry_for es x <> None <-> In x (map ce_cp es).
  Proof.
    intros es x. destruct (in_dec cps_eq_dec x (map ce_cp es)) as [H|H].
    - split; [auto|]. intros _ E. apply entry_for_none in E. contradiction.
    - split; [|contradiction]. intro E. exfalso. apply E. apply entry_for_none. exact H.
  Qed.
  Lemma entry_for_app : forall a b x, entry_for (a ++ b) x = match entry_for a x with Some e => Some e | None => entry_for b x end.
  Proof. induction a as [|e a IH]; intros b x; [reflexivity|]. unfold entry_for in *. cbn. destruct (cps_eqb (ce_cp e) x); [reflexivity|apply IH]. Qed.

  Definition upd (p v : cps) (d : option string) (o : option centry) : centry :=
    match o with Some e => mkCe v (ce_cat e) (dset cps_eqb p d (ce_disp e)) | None => mkCe v CVariant [(p, d)] end.
  Lemma filter_one : forall es v, NoDup (map ce_cp es) -> filter (fun e => cps_eqb (ce_cp e) v) es = match entry_for es v with Some e => [e] | None => [] end.
  Proof.
    induction es as [|a es IH]; intros v Hn; [reflexivity|]. cbn [map] in Hn. inversion Hn as [|? ? N1 N2]; subst. unfold entry_for. cbn [filter find].
    destruct (cps_eqb (ce_cp a) v) eqn:E; [|apply IH; exact N2]. rewrite (IH v N2). apply cps_eqb_eq in E. subst v.
    assert (entry_for es (ce_cp a) = None) as -> by (apply entry_for_none; exact N1). reflexivity.
  Qed.
  Lemma find_update : forall es (f : centry -> centry) v x, (forall e, ce_cp (f e) = ce_cp e) ->
    entry_for (map (fun e => if cps_eqb (ce_cp e) v then f e else e) es) x =
    match entry_for es x with Some e => Some (if cps_eqb x v then f e else e) | None => None end.
  Proof.
    intros es f v x Hf. induction es as [|a es IH]; [reflexivity|]. unfold entry_for in *. cbn [map find].
    destruct (cps_eqb (ce_cp a) v) eqn:E.
    - rewrite Hf. destruct (cps_eqb (ce_cp a) x) eqn:E2; [|exact IH]. apply cps_eqb_eq in E2. subst x. rewrite E. reflexivity.
    - destruct (cps_eqb (ce_cp a) x) eqn:E2; [|exact IH]. apply cps_eqb_eq in E2. subst x. rewrite E. reflexivity.
  Qed.
  Lemma record_variant_ok : forall p v d es, NoDup (map ce_cp es) ->
    exists es', record_variant p v d es = Ok es' /\ NoDup (map ce_cp es') /\
      forall x, entry_for es' x = if cps_eqb x v then Some (upd p v d (entry_for es v)) else entry_for es x.
  Proof.
    intros p v d es Hn. unfold record_variant. rewrite filter_one by exact Hn. destruct (entry_for es v) as [e|] eqn:E.
    - eexists. split; [reflexivity|]. split.
      + rewrite map_map. erewrite map_ext; [exact Hn|]. intro a. cbn. destruct (cps_eqb (ce_cp a) v); reflexivity.
      + intro x. rewrite (find_update es (fun e => mkCe (ce_cp e) (ce_cat e) (dset cps_eqb p d (ce_disp e)))) by reflexivity.
        destruct (cps_eqb x v) eqn:E2.
        * apply cps_eqb_eq in E2. subst x. rewrite E. cbn. apply entry_for_cp in E. destruct E as [_ E]. subst v. reflexivity.
        * destruct (entry_for es x); reflexivity.
    - eexists. split; [reflexivity|]. split.
      + rewrite map_app. apply NoDup_app_iff. split; [exact Hn|]. split; [constructor; [intros []|constructor]|].
        intros x Hx [H|[]]. cbn in H. subst x. apply entry_for_none in E. contradiction.
      + intro x. rewrite entry_for_app. unfold entry_for at 2. cbn [find ce_cp upd]. rewrite (cps_eqb_sym v x). destruct (cps_eqb x v) eqn:E2.
        * apply cps_eqb_eq in E2. subst x. rewrite E. reflexivity.
        * destruct (entry_for es x); reflexivity.
  Qed.
  Lemma record_variants_ok : forall p vs es, NoDup (map ce_cp es) -> NoDup (map fst vs) ->
    exists es', record_variants p vs es = (es', Ok tt) /\ NoDup (map ce_cp es') /\
      forall x, entry_for es' x = match dget cps_eqb x vs with Some d => Some (upd p x d (entry_for es x)) | None => entry_for es x end.
  Proof.
    intros p. induction vs as [|[v d] vs IH]; intros es Hn Hv.
    - exists es. split; [reflexivity|]. split; [exact Hn|]. reflexivity.
    - cbn [map fst] in Hv. inversion Hv as [|? ? V1 V2]; subst. destruct (record_variant_ok p v d es Hn) as [es1 [E1 [N1 F1]]].
      destruct (IH es1 N1 V2) as [es' [E2 [N2 F2]]]. exists es'. split; [cbn; rewrite E1; exact E2|]. split; [exact N2|].
      intro x. rewrite F2, F1. cbn [dget]. destruct (cps_eqb x v) eqn:E; [|reflexivity].
      apply cps_eqb_eq in E. subst x. destruct (dget cps_eqb v vs) as [d'|] eqn:E; [|reflexivity].
      exfalso. apply V1. apply (dget_In _ cps_eqb_eq) in E. change v with (fst (v, d')). apply in_map. exact E.
  Qed.

  (** Disposition of [x] with respect to the primary [q]. *)
  Definition disp_in (es : list centry) (x q : cps) : option (option string) :=
    match entry_for es x with Some e => dget cps_eqb q (ce_disp e) | None => None end.
  Definition cat_in (es : list centry) (x : cps) : category := match entry_for es x with Some e => ce_cat e | None => CVariant end.

  Lemma expand_primaries_ok : forall ws ps es, NoDup (map ce_cp es) -> (forall p, In p ps -> well_listed listing ws (ce_cp p)) ->
    exists es', expand_primaries listing ws ps es = (es', Ok tt) /\ NoDup (map ce_cp es') /\
      (forall x, In x (map ce_cp es') <-> In x (map ce_cp es) \/ exists p, In p ps /\ In x (map fst (fst (listing (ce_cp p) ws)))) /\
      (forall x, cat_in es' x = cat_in es x) /\
      (forall x q, ~ In q (map ce_cp ps) -> disp_in es' x q = disp_in es x q) /\
      (forall x q, In q (map ce_cp ps) -> disp_in es' x q = match dget cps_eqb x (fst (listing q ws)) with Some d => Some d | None => disp_in es x q end).
  Proof.
    intros ws. induction ps as [|p ps IH]; intros es Hn Hw.
    - exists es. split; [reflexivity|]. split; [exact Hn|]. split; [intro x; split; [auto|intros [H|[p [[] _]]]; exact H]|].
      split; [reflexivity|]. split; [reflexivity|]. intros x q [].
    - cbn [expand_primaries]. destruct (Hw p (or_introl eq_refl)) as [W1 W2]. destruct (listing (ce_cp p) ws) as [vs o] eqn:El. cbn [fst snd] in *. subst o.
      destruct (record_variants_ok (ce_cp p) vs es Hn W2) as [es1 [E1 [N1 F1]]]. rewrite E1.
      destruct (IH es1 N1) as [es' [E2 [N2 [A1 [A2 [A3 A4]]]]]]; [intros q Hq; apply Hw; right; exact Hq|].
      exists es'. split; [exact E2|]. split; [exact N2|].
      assert (Hc1 : forall x, In x (map ce_cp es1) <-> In x (map ce_cp es) \/ In x (map fst vs)).
      { intro x. rewrite <- !entry_for_some, F1. destruct (dget cps_eqb x vs) as [d|] eqn:E.
        - split; [intros _; right|discriminate]. apply (dget_In _ cps_eqb_eq) in E. change x with (fst (x, d)). apply in_map. exact E.
        - apply (dget_None _ cps_eqb_eq) in E. unfold dkeys in E. tauto. }
      assert (Hd1 : forall x q, disp_in es1 x q = if cps_eqb q (ce_cp p) then match dget cps_eqb x vs with Some d => Some d | None => disp_in es x q end else disp_in es x q).
      { intros x q. unfold disp_in. rewrite F1. destruct (dget cps_eqb x vs) as [d|]; [|destruct (cps_eqb q (ce_cp p)); reflexivity].
        destruct (entry_for es x) as [e|]; cbn [upd ce_disp].
        - rewrite (dget_dset _ cps_eqb_eq). destruct (cps_eqb q (ce_cp p)); reflexivity.
        - cbn [dget]. destruct (cps_eqb q (ce_cp p)); reflexivity. }
      split; [|split; [|split]].
      + intro x. rewrite A1, Hc1. split.
        * intros [[H|H]|[q [H1 H2]]]; [auto|right; exists p; split; [left; reflexivity|rewrite El; exact H]|right; exists q; split; [right; exact H1|exact H2]].
        * intros [H|[q [[H1|H1] H2]]]; [auto|subst q; rewrite El in H2; auto|right; exists q; auto].
      + intro x. rewrite A2. unfold cat_in. rewrite F1. destruct (dget cps_eqb x vs); [|reflexivity]. destruct (entry_for es x); reflexivity.
      + intros x q Hq. cbn [map] in Hq. rewrite A3 by (intro H; apply Hq; right; exact H). rewrite Hd1.
        destruct (cps_eqb q (ce_cp p)) eqn:E; [|reflexivity]. apply cps_eqb_eq in E. exfalso. apply Hq. left. congruence.
      + intros x q Hq. cbn [map] in Hq. destruct (in_dec cps_eq_dec q (map ce_cp ps)) as [Hi|Hi].
        * rewrite A4 by exact Hi. destruct (dget cps_eqb x (fst (listing q ws))) as [d|] eqn:E; [reflexivity|]. rewrite Hd1.
          destruct (cps_eqb q (ce_cp p)) eqn:Eq2; [|reflexivity]. apply cps_eqb_eq in Eq2. subst q. rewrite El in E. cbn [fst] in E. rewrite E. reflexivity.
        * rewrite A3 by exact Hi. destruct Hq as [Hq|Hq]; [|contradiction]. subst q. rewrite Hd1, cps_eqb_refl, El. reflexivity.
  Qed.
  Lemma expand_primaries_listed : forall ws ps es es', expand_primaries listing ws ps es = (es', Ok tt) ->
    forall p, In p ps -> snd (listing (ce_cp p) ws) = Ok tt.
  Proof.
    intros ws. induction ps as [|q ps IH]; intros es es' H p Hp; [contradiction|]. cbn [expand_primaries] in H.
    destruct (listing (ce_cp q) ws) as [vs o] eqn:El. destruct (record_variants (ce_cp q) vs es) as [es1 [[]|e]]; [|discriminate].
    destruct o as [[]|e]; [|discriminate]. destruct Hp as [Hp|Hp]; [subst; rewrite El; reflexivity|eapply IH; eauto].
  Qed.

  (** ** Each index *)
  Definition wl (keep : bool) (ps : list centry) : list cps := if keep then [] else map ce_cp ps.
  Definition outcome_for (keep quiet : bool) (ps : list centry) (o : option (list centry)) : Prop :=
    if Nat.ltb (length ps) 2 && negb keep then o = None
    else if negb keep && quiet then o = Some ps
    else exists es, expand_primaries listing (wl keep ps) ps ps = (es, Ok tt) /\ o = Some es.
  Lemma expand_indexes_ok : forall keep quiet l t, NoDup (dkeys l) -> NoDup (dkeys t) ->
    (forall i ps, In (i, ps) l -> dget cps_eqb i t = Some ps) ->
    (forall i ps, In (i, ps) l -> keep || (negb quiet && Nat.leb 2 (length ps)) = true -> NoDup (map ce_cp ps) /\ forall p, In p ps -> well_listed listing (wl keep ps) (ce_cp p)) ->
    exists t', expand_indexes listing keep quiet l t = (t', Ok tt) /\ NoDup (dkeys t') /\
      (forall i, ~ In i (dkeys l) -> dget cps_eqb i t' = dget cps_eqb i t) /\
      (forall i ps, In (i, ps) l -> outcome_for keep quiet ps (dget cps_eqb i t')).
  Proof.
    intros keep quiet. induction l as [|[i ps] l IH]; intros t Hl Ht Hin Hw.
    - exists t. split; [reflexivity|]. split; [exact Ht|]. split; [reflexivity|]. intros i ps [].
    - cbn [dkeys map fst] in Hl. inversion Hl as [|? ? L1 L2]; subst.
      assert (Hne : forall j qs, In (j, qs) l -> j <> i).
      { intros j qs Hj E. subst. apply L1. change i with (fst (i, qs)). apply in_map. exact Hj. }
      assert (Hw' : forall j qs, In (j, qs) l -> keep || (negb quiet && Nat.leb 2 (length qs)) = true -> NoDup (map ce_cp qs) /\ forall p, In p qs -> well_listed listing (wl keep qs) (ce_cp p)).
      { intros j qs Hj. apply (Hw j qs). right. exact Hj. }
      assert (Hstep : exists t1, expand_indexes listing keep quiet ((i, ps) :: l) t = expand_indexes listing keep quiet l t1 /\
        NoDup (dkeys t1) /\ (forall j, j <> i -> dget cps_eqb j t1 = dget cps_eqb j t) /\ outcome_for keep quiet ps (dget cps_eqb i t1)).
      { pose proof (Hin i ps (or_introl eq_refl)) as Hi. pose proof (Hw i ps (or_introl eq_refl)) as Hwi. cbn [expand_indexes]. unfold outcome_for.
        destruct (Nat.ltb (length ps) 2 && negb keep) eqn:E1.
        - exists (ddel cps_eqb i t). split; [reflexivity|]. split; [apply ddel_NoDup; exact Ht|]. split.
          + intros j Hj. rewrite (dget_ddel _ cps_eqb_eq) by exact Ht. destruct (cps_eqb j i) eqn:E; [apply cps_eqb_eq in E; contradiction|reflexivity].
          + rewrite (dget_ddel _ cps_eqb_eq) by exact Ht. rewrite cps_eqb_refl. reflexivity.
        - destruct (negb keep && quiet) eqn:E2.
          + exists t. auto.
          + rewrite Hi. assert (Hc : keep || (negb quiet && Nat.leb 2 (length ps)) = true).
            { destruct keep; [reflexivity|]. cbn in E2. rewrite E2. cbn [negb andb orb]. cbn [negb] in E1. rewrite andb_true_r in E1. apply Nat.ltb_ge in E1. apply Nat.leb_le. exact E1. }
            destruct (Hwi Hc) as [N1 N2]. destruct (expand_primaries_ok (wl keep ps) ps ps N1 N2) as [es [E3 _]]. unfold wl in E3. rewrite E3.
            exists (dset cps_eqb i es t). split; [reflexivity|]. split; [apply (dset_NoDup _ cps_eqb_eq); exact Ht|]. split.
            * intros j Hj. rewrite (dget_dset _ cps_eqb_eq). destruct (cps_eqb j i) eqn:E; [apply cps_eqb_eq in E; contradiction|reflexivity].
            * exists es. split; [exact E3|]. rewrite (dget_dset _ cps_eqb_eq), cps_eqb_refl. reflexivity. }
      destruct Hstep as [t1 [S1 [S2 [S3 S4]]]].
      destruct (IH t1 L2 S2) as [t' [T1 [T2 [T3 T4]]]].
      + intros j qs Hj. rewrite S3 by (eapply Hne; eauto). apply Hin. right. exact Hj.
      + exact Hw'.
      + exists t'. split; [rewrite S1; exact T1|]. split; [exact T2|]. split.
        * intros j Hj. cbn [dkeys map fst] in Hj. rewrite T3 by (intro H; apply Hj; right; exact H). apply S3. intro E. apply Hj. left. congruence.
        * intros j qs [Hj|Hj].
          -- injection Hj as Hj1 Hj2. subst. rewrite T3 by exact L1. exact S4.
          -- apply T4. exact Hj.
  Qed.
  (** Success tells that every listing succeeded. *)
  Lemma expand_indexes_listed : forall keep quiet l t t', NoDup (dkeys l) -> NoDup (dkeys t) -> (forall i ps, In (i, ps) l -> dget cps_eqb i t = Some ps) ->
    expand_indexes listing keep quiet l t = (t', Ok tt) -> forall i ps p, In (i, ps) l -> keep || (negb quiet && Nat.leb 2 (length ps)) = true ->
    In p ps -> snd (listing (ce_cp p) (wl keep ps)) = Ok tt.
  Proof.
    intros keep quiet. induction l as [|[j qs] l IH]; intros t t' Hl Ht Hin H i ps p Hi Hc Hp; [contradiction|].
    cbn [dkeys map fst] in Hl. inversion Hl as [|? ? L1 L2]; subst.
    assert (Hne : forall k rs, In (k, rs) l -> k <> j).
    { intros k rs Hk E. subst. apply L1. change j with (fst (j, rs)). apply in_map. exact Hk. }
    cbn [expand_indexes] in H. destruct (Nat.ltb (length qs) 2 && negb keep) eqn:E1.
    - destruct Hi as [Hi|Hi].
      + injection Hi as Hi1 Hi2. subst. exfalso. apply andb_prop in E1. destruct E1 as [E1 E2]. apply negb_true_iff in E2. subst keep.
        cbn [orb] in Hc. apply andb_prop in Hc. destruct Hc as [_ Hc]. apply Nat.leb_le in Hc. apply Nat.ltb_lt in E1. lia.
      + eapply (IH (ddel cps_eqb j t)); eauto; [apply ddel_NoDup; exact Ht|]. intros k rs Hk. rewrite (dget_ddel _ cps_eqb_eq) by exact Ht.
        destruct (cps_eqb k j) eqn:E; [apply cps_eqb_eq in E; exfalso; eapply Hne; eauto|]. apply Hin. right. exact Hk.
    - destruct (negb keep && quiet) eqn:E2.
      + destruct Hi as [Hi|Hi].
        * exfalso. apply andb_prop in E2. destruct E2 as [E2 E3]. apply negb_true_iff in E2. subst keep quiet. discriminate.
        * eapply (IH t); eauto. intros k rs Hk. apply Hin. right. exact Hk.
      + rewrite (Hin j qs (or_introl eq_refl)) in H. destruct (expand_primaries listing (if keep then [] else map ce_cp qs) qs qs) as [es [[]|e]] eqn:E3; [|discriminate].
        destruct Hi as [Hi|Hi].
        * injection Hi as Hi1 Hi2. subst. eapply expand_primaries_listed; [exact E3|exact Hp].
        * eapply (IH (dset cps_eqb j es t)); eauto; [apply (dset_NoDup _ cps_eqb_eq); exact Ht|]. intros k rs Hk. rewrite (dget_dset _ cps_eqb_eq).
          destruct (cps_eqb k j) eqn:E; [apply cps_eqb_eq in E; exfalso; eapply Hne; eauto|]. apply Hin. right. exact Hk.
  Qed.
End Expand.
