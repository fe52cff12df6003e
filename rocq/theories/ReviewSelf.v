(** An LGR reviewed against itself; the rows on variants. *)
From Coq Require Import Permutation Sorted Lia.
From Verif Require Import Base BaseFacts CharModel RepSpec RepProofs VariantProofs VarSetSpec VarSetProofs IterProofs ActionModel LgrModel CompareModel CompareProofs ReviewModel ReviewSpec
  ReviewRepertoire ReviewSets ReviewVariants.
Open Scope string_scope.
Open Scope list_scope.

(** ** Repertoire and classes *)
Lemma compare_self : forall order c, any_order order -> fst (compare_both order c c) = RMatch.
Proof. intros order c Ho. apply match_iff; [exact Ho|]. split; [intros; reflexivity | reflexivity]. Qed.
Lemma repertoire_self : forall order r, any_order order -> wf_rep r -> forall l, In l (repertoire_report order r r) ->
  cl_result l = RMatch /\ cl_idn l = true /\ cl_ref l = true.
Proof.
  intros order r Ho Hr l Hl. destruct (repertoire_line _ _ _ _ Hr Hr Hl) as (A & B & C).
  assert (K : In (cl_cp l) (map cl_cp (repertoire_report order r r))) by (apply in_map, Hl).
  apply (proj2 (proj2 (repertoire_lines order r r Hr Hr))) in K. destruct (lookup r (cl_cp l)) as [c|] eqn:E; [|destruct K; congruence].
  cbn [compare_char is_some] in *. split; [|auto]. rewrite <- (compare_self order c Ho), <- C. reflexivity.
Qed.
Lemma class_self : forall m r, incl m r -> class_report m m r r = Ok None /\ m = [] \/ exists x, class_report m m r r = Ok (Some (RMatch, x)) /\ m <> [].
Proof.
  intros m r H. destruct m as [|a m].
  - left. split; reflexivity.
  - right. eexists. split; [|discriminate]. unfold class_report. cbn [nonempty negb andb]. unfold class_result.
    rewrite (proj2 (same_set_dec (a :: m) (a :: m))); [reflexivity | intros x; reflexivity].
Qed.

(** ** Variants *)
Lemma kinds_eqb_refl : forall l, kinds_eqb l l = true.
Proof. induction l as [|x l IH]; [reflexivity|]. cbn. rewrite ostring_eqb_refl'. exact IH. Qed.
Lemma self_result : forall order d x b, vd_fwd x <> [] ->
  variant_result order false false x x d b = Ok (RMatch, "Exact match (including type, conditional variant rule)").
Proof.
  intros order d x b H. unfold variant_result. destruct (vd_fwd x) as [|v l] eqn:E; [contradiction|]. cbn [nonempty negb].
  unfold check_rules, check_type. rewrite !ostring_eqb_refl', kinds_eqb_refl. reflexivity.
Qed.

Definition full_data (d : dict cps vdata) : Prop := forall k x, dget cps_eqb k d = Some x -> vd_fwd x <> [].
Lemma vset_add_nonempty : forall l v, vset_add l v <> [].
Proof. intros l v. unfold vset_add. destruct (memb variant_eqb v l) eqn:E; [destruct l; [discriminate E | discriminate] | destruct l; discriminate]. Qed.
Lemma variant_data_ok : forall r c vs seen d, c <> [] -> (forall v, In v vs -> v_cp v <> []) -> full_data d ->
  exists seen' d', variant_data r c vs seen d = Ok (seen', d') /\ full_data d'.
Proof.
  intros r c vs. induction vs as [|v vs IH]; intros seen d Hc Hv Hd; [do 2 eexists; split; [reflexivity | exact Hd]|].
  assert (Hv' : forall w, In w vs -> v_cp w <> []) by (intros w Hw; apply Hv; right; exact Hw).
  cbn [variant_data]. destruct (memb cps_eqb (v_cp v) (seen_of seen c)); [apply IH; assumption|]. cbv zeta.
  assert (F : forall b l, full_data (dset cps_eqb (v_cp v) (vdata_add (match dget cps_eqb (v_cp v) d with Some x => x | None => mkVdata [] [] b end) v l) d)).
  { intros b l k x H. rewrite (dget_dset _ cps_eqb_eq) in H. destruct (cps_eqb k (v_cp v)); [|apply (Hd _ _ H)].
    injection H as <-. apply vset_add_nonempty. }
  unfold rep_get_variant. rewrite get_char_lk by (apply Hv; left; reflexivity).
  destruct (lk r (v_cp v)) as [ch|]; cbn [bind]; apply IH; auto.
Qed.
Lemma char_data_ok : forall r c seen, wf_rep r -> c <> [] -> exists seen' d', char_data r c seen = Ok (seen', d') /\ full_data d'.
Proof.
  intros r c seen Hr Hc. unfold char_data. rewrite get_char_lk by exact Hc. destruct (lk r c) as [ch|] eqn:L.
  - apply variant_data_ok; [exact Hc | | intros k x H; discriminate H].
    intros v Hv. apply (variant_cp_nonempty ch); [apply (lk_wf _ _ _ Hr L) | exact Hv].
  - do 2 eexists. split; [reflexivity | intros k x H; discriminate H].
Qed.
Section Rows.
  Variable order : list variant -> list variant.
  Variable oc : list cps -> list cps.
  Lemma variant_row_ok : forall c d i r im rm ir, exists x, variant_row order c d i r im rm ir = Ok x /\ vr_src x = c /\ vr_dst x = d.
  Proof.
    intros c d i r im rm ir. unfold variant_row.
    destruct (variant_result_ok order im rm i r Forward (both_in r ir)) as (a & m & ->). cbn [bind].
    destruct (variant_result_ok order im rm i r Reverse (both_in r ir)) as (a' & m' & ->). cbn [bind]. eexists. split; [reflexivity|]. auto.
  Qed.
  Lemma rows_at_ok : forall c ks i r im rm ir, exists l, rows_at order c ks i r im rm ir = Ok l /\ map vr_dst l = ks /\ forall x, In x l -> vr_src x = c.
  Proof.
    intros c. induction ks as [|k ks IH]; intros i r im rm ir; [exists []; split; [reflexivity | split; [reflexivity | intros ? []]]|].
    cbn [rows_at]. destruct (variant_row_ok c k (data_at i k) (data_at r k) im rm ir) as (x & -> & Ex & Ed). cbn [bind].
    destruct (IH i r im rm ir) as (l & -> & El & Hl). cbn [bind]. exists (x :: l). split; [reflexivity|]. split; [cbn; congruence|].
    intros y [<- | Hy]; [exact Ex | exact (Hl _ Hy)].
  Qed.
  Lemma set_rows_ok : forall cs im rm ir rr s1 s2, wf_rep ir -> wf_rep rr -> (forall c, In c cs -> c <> []) -> exists l, set_rows order oc cs im rm ir rr s1 s2 = Ok l.
  Proof.
    induction cs as [|c cs IH]; intros im rm ir rr s1 s2 Hi Hr Hc; [exists []; reflexivity|]. cbn [set_rows].
    destruct (char_data_ok ir c s1 Hi (Hc c (or_introl eq_refl))) as (s1' & d1 & -> & _).
    destruct (char_data_ok rr c s2 Hr (Hc c (or_introl eq_refl))) as (s2' & d2 & -> & _). cbn [bind fst snd].
    destruct (rows_at_ok c (oc (set_union cps_eqb (dkeys d1) (dkeys d2))) d1 d2 im rm ir) as (l & -> & _). cbn [bind].
    destruct (IH im rm ir rr s1' s2' Hi Hr (fun x Hx => Hc x (or_intror Hx))) as (l' & ->). cbn [bind]. eexists. reflexivity.
  Qed.
  Lemma rows_self : forall c ks d ir l, full_data d -> (forall k, In k ks -> In k (dkeys d)) -> rows_at order c ks d d false false ir = Ok l -> forall x, In x l -> row_match x.
  Proof.
    intros c. induction ks as [|k ks IH]; intros d ir l Hd Hk H x Hx; cbn [rows_at] in H; [injection H as <-; destruct Hx|].
    assert (F : vd_fwd (data_at d k) <> []).
    { unfold data_at. destruct (dget cps_eqb k d) as [y|] eqn:E; [apply (Hd _ _ E)|]. apply (dget_None _ cps_eqb_eq) in E. destruct E. apply Hk. left. reflexivity. }
    unfold variant_row in H. rewrite !self_result in H by exact F. cbn [bind] in H.
    destruct (rows_at order c ks d d false false ir) as [l'|e] eqn:E; cbn [bind] in H; [|discriminate H]. injection H as <-.
    destruct Hx as [<- | Hx]; [split; reflexivity|]. apply (IH d ir l' Hd (fun y Hy => Hk y (or_intror Hy)) E x Hx).
  Qed.
  Lemma set_rows_self : forall cs r s l, any_order oc -> wf_rep r -> (forall c, In c cs -> c <> []) ->
    set_rows order oc cs false false r r s s = Ok l -> forall x, In x l -> row_match x.
  Proof.
    induction cs as [|c cs IH]; intros r s l Ho Hr Hc H x Hx; cbn [set_rows] in H; [injection H as <-; destruct Hx|].
    destruct (char_data_ok r c s Hr (Hc c (or_introl eq_refl))) as (s' & d & E & Fd). rewrite E in H. cbn [bind fst snd] in H.
    destruct (rows_at order c (oc (set_union cps_eqb (dkeys d) (dkeys d))) d d false false r) as [l1|e] eqn:E1; cbn [bind] in H; [|discriminate H].
    destruct (set_rows order oc cs false false r r s' s') as [l2|e] eqn:E2; cbn [bind] in H; [|discriminate H]. injection H as <-.
    apply in_app_or in Hx. destruct Hx as [Hx | Hx].
    - apply (rows_self c _ d r l1 Fd) with (2 := E1); [|exact Hx]. intros k Hk. apply (Permutation_in _ (Ho _)) in Hk. apply (set_union_In _ cps_eqb_eq) in Hk. tauto.
    - apply (IH r s' l2 Ho Hr (fun y Hy => Hc y (or_intror Hy)) E2 x Hx).
  Qed.
End Rows.

(** Pairing a list of sets with itself. *)
Lemma by_first_nonempty : forall sets k s, dget cps_eqb k (by_first sets) = Some s -> s <> [] /\ In s sets.
Proof.
  intros sets. unfold by_first.
  assert (G : forall l d k s, dget cps_eqb k (fold_left (fun d s => match s with [] => d | x :: _ => dset cps_eqb x s d end) l d) = Some s -> (s <> [] /\ In s l) \/ dget cps_eqb k d = Some s).
  { induction l as [|t l IH]; intros d k s H; [right; exact H|]. cbn [fold_left] in H. apply IH in H. destruct H as [[H1 H2] | H]; [left; split; [exact H1 | right; exact H2]|].
    destruct t as [|x t]; [right; exact H|]. rewrite (dget_dset _ cps_eqb_eq) in H. destruct (cps_eqb k x); [|right; exact H].
    left. injection H as <-. split; [discriminate | left; reflexivity]. }
  intros k s H. destruct (G sets [] k s H) as [K | K]; [exact K | discriminate K].
Qed.
Lemma filter_own : forall {V} (d : dict cps V), filter (fun k => negb (dmem cps_eqb k d)) (dkeys d) = [].
Proof.
  intros V d. assert (G : forall l, incl l (dkeys d) -> filter (fun k => negb (dmem cps_eqb k d)) l = []).
  { induction l as [|k l IH]; intros H; [reflexivity|]. cbn [filter]. rewrite (proj2 (dmem_In _ cps_eqb_eq k d)) by (apply H; left; reflexivity). cbn [negb].
    apply IH. intros x Hx. apply H. right. exact Hx. }
  apply G. intros x Hx. exact Hx.
Qed.
Lemma pair_self : forall sets, exists ps, pair_sets sets sets = Ok ps /\ forall k i r, In (k, (i, r)) ps -> i = r /\ i <> [] /\ In i sets.
Proof.
  intros sets. unfold pair_sets. rewrite filter_own. cbn [pair_idns bind pr_updated dedup dedup_aux pop_updated pr_idn pr_ref].
  change (dedup cps_eqb []) with (@nil cps). cbn [pop_updated bind]. eexists. split; [reflexivity|].
  intros k i r H. apply in_map_iff in H. destruct H as (k' & E & Hk). injection E as -> Ei Er. apply isort_In in Hk. apply (set_union_In _ cps_eqb_eq) in Hk.
  assert (Hin : In k (dkeys (by_first sets))) by tauto. destruct (dget cps_eqb k (by_first sets)) as [s|] eqn:E; [|apply (dget_None _ cps_eqb_eq) in E; contradiction].
  subst i r. split; [reflexivity|]. apply (by_first_nonempty sets k s E).
Qed.
Lemma sets_members : forall r sets s c, wf_rep r -> get_variant_sets r true = Some sets -> In s sets -> In c s -> c <> [].
Proof.
  intros r sets s c Hr Hs Hin Hc. destruct (variant_sets_spec r true Hr) as (sets' & E & _ & H). rewrite Hs in E. injection E as <-.
  apply H in Hin. destruct Hin as (_ & _ & a & Ha & Hreach). apply Hreach in Hc.
  assert (Na : a <> []) by (intros ->; apply Ha; reflexivity). clear - Hc Na Hr. induction Hc as [a|a b c He Hc IH]; [exact Na|]. apply IH.
  destruct He as (ch & v & L & Hv & <- & _). rewrite lookup_lk in L. apply (variant_cp_nonempty ch); [apply (lk_wf _ _ _ Hr L) | exact Hv].
Qed.
Lemma reports_self : forall order oc r ps, any_order oc -> wf_rep r -> (forall k i s, In (k, (i, s)) ps -> i = s /\ i <> [] /\ forall c, In c i -> c <> []) ->
  exists l, reports_for order oc ps r r = Ok l /\ forall i s rows x, In (i, s, rows) l -> In x rows -> row_match x.
Proof.
  intros order oc r. induction ps as [|[k [i s]] ps IH]; intros Ho Hr H; [exists []; split; [reflexivity | intros ? ? ? ? []]|].
  destruct (H k i s (or_introl eq_refl)) as (<- & Hi & Hc).
  destruct (IH Ho Hr (fun k' i' s' Hin => H k' i' s' (or_intror Hin))) as (l & E & Hl). cbn [reports_for]. unfold set_report.
  assert (El : look_sequence i i r r = Ok None) by (destruct i; [contradiction | reflexivity]). rewrite El. cbn [bind]. clear El.
  assert (Hc' : forall c, In c (isort cps_leb (set_union cps_eqb i i)) -> c <> []).
  { intros c Hin. apply isort_In in Hin. apply (set_union_In _ cps_eqb_eq) in Hin. apply Hc. tauto. }
  match goal with |- context [negb ?b] => assert (En : negb b = false) by (destruct i; [contradiction | reflexivity]); rewrite En; clear En end.
  destruct (set_rows_ok order oc (isort cps_leb (set_union cps_eqb i i)) false false r r [] [] Hr Hr Hc') as (rows & Er). rewrite Er. cbn [bind]. rewrite E. cbn [bind].
  eexists. split; [reflexivity|]. intros i' s' rows' x Hin Hx. destruct (nonempty (relevant i i r)); [|apply (Hl _ _ _ _ Hin Hx)].
  destruct Hin as [Hin | Hin]; [|apply (Hl _ _ _ _ Hin Hx)]. injection Hin as <- <- <-. apply isort_In in Hx.
  apply (set_rows_self order oc _ r [] rows Ho Hr Hc' Er x Hx).
Qed.
Lemma variants_self : forall order oc r, any_order oc -> wf_rep r ->
  exists l, variant_sets_report order oc r r = Ok l /\ forall i s rows x, In (i, s, rows) l -> In x rows -> row_match x.
Proof.
  intros order oc r Ho Hr. unfold variant_sets_report. destruct (variant_sets_spec r true Hr) as (sets & E & _ & _). rewrite E.
  destruct (pair_self sets) as (ps & -> & Hp). cbn [bind]. apply reports_self; [exact Ho | exact Hr|].
  intros k i s Hin. destruct (Hp k i s Hin) as (-> & Hi & Hs). split; [reflexivity|]. split; [exact Hi|]. intros c Hc. apply (sets_members r sets s c Hr E Hs Hc).
Qed.
