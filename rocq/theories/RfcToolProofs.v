(** Proofs about the RFC 7940 tool. *)
From Verif Require Import Base BaseFacts UtilsModel CharModel RepSpec RepProofs VariantProofs RangeProofs RefModel LgrModel LgrSpec LgrProofs LgrReach LgrRange LgrInv LgrTags LgrFinal.
From Verif Require Import Rfc7940Model Rfc7940Spec Rfc7940Proofs ValidateModel ValidateSpec ValidateProofs MetaModel MetaSpec MetaFinal SerialModel SerialSpec SerialProofs SerialTolerant ReportSpec ReportProofs.
From Verif Require Import ActionModel ClassModel RuleModel RulesXmlModel RulesXmlSpec RulesXmlDoc CompareModel ChecksModel ChecksSpec ChecksProofs RebuildModel RebuildSpec RebuildProofs DocModel DocFinal ReadySpec RfcToolModel RfcToolSpec RfcToolData.
Open Scope string_scope.
Open Scope list_scope.
Open Scope N_scope.

(** ** Rebuilding raises exceptions of the package only *)
Definition tame {A} (x : res A) : Prop := forall e, x = Raise e -> is_lgr_exception e = true.
Lemma tame_ok : forall A (a : A), tame (Ok a).
Proof. intros A a e H. discriminate. Qed.
Lemma add_cp_tame : forall g c cm rf tg w nw ov fo, lgr_reachable g ->
  lgr_reachable (fst (lgr_add_cp g c cm rf tg w nw None ov fo)) /\ tame (snd (lgr_add_cp g c cm rf tg w nw None ov fo)).
Proof.
  intros g c cm rf tg w nw ov fo Hre.
  pose proof (lgr_reachable_step g (LAddCp c cm rf tg w nw None ov fo) Hre) as Hs. unfold lgr_step in Hs.
  destruct (add_cp_spec g c cm rf tg w nw None ov fo) as [r [A1 A2]].
  destruct (lgr_add_cp g c cm rf tg w nw None ov fo) as [g' x]. cbn [fst snd] in *. split; [exact Hs|]. destruct r as [e|]; [|destruct A2 as [-> _]; apply tame_ok].
  destruct A2 as [-> _]. intros e' E. injection E as <-. unfold add_cp_checks in A1. cbn [first_failing] in A1.
  destruct A1 as [[e0 [[_ H2] E]]|[_ A1]]; [injection E as ->; rewrite H2; reflexivity|].
  destruct A1 as [[e0 [[_ [y [_ H3]]] E]]|[_ A1]]; [injection E as ->; rewrite H3; reflexivity|].
  destruct A1 as [[e0 [[_ [_ [_ H3]]] E]]|[_ A1]]; [injection E as ->; rewrite H3; reflexivity|].
  destruct A1 as [[e0 [[v [y [H _]]] _]]|[_ A1]]; [discriminate|].
  destruct A1 as [[e0 [[_ [y [_ H3]]] E]]|[_ A1]]; [injection E as ->; rewrite H3; reflexivity|].
  destruct A1 as [[e0 [[_ [_ H3]] E]]|[_ A1]]; [injection E as ->; rewrite H3; reflexivity|].
  destruct A1 as [[e0 [[_ [_ [_ H3]]] E]]|[_ A1]]; [injection E as ->; rewrite H3; reflexivity|].
  destruct A1 as [[e0 [[_ [_ H3]] E]]|[_ A1]]; [injection E as ->; rewrite H3; reflexivity|].
  destruct A1 as [[e0 [[_ H3] E]]|[_ A1]]; [injection E as ->; rewrite H3; reflexivity|discriminate].
Qed.
Lemma add_variant_tame : forall g c v ty w nw cm rf ov fo, lgr_reachable g ->
  lgr_reachable (fst (lgr_add_variant g c v ty w nw cm rf None ov fo)) /\ tame (snd (lgr_add_variant g c v ty w nw cm rf None ov fo)).
Proof.
  intros g c v ty w nw cm rf ov fo Hre.
  pose proof (lgr_reachable_step g (LAddVariant c v ty w nw cm rf None ov fo) Hre) as Hs. unfold lgr_step in Hs.
  destruct (lgr_add_variant g c v ty w nw cm rf None ov fo) as [g' x] eqn:E. cbn [fst snd] in *. split; [exact Hs|]. unfold lgr_add_variant in E.
  assert (Hconv : forall u e, check_convert g u = Raise e -> is_lgr_exception e = true).
  { intros u e H. destruct (check_convert_cases g u) as [[e0 [H0 [[_ H1]|[_ [_ [y [_ H1]]]]]]]|[H0 _]]; rewrite H in H0; try discriminate;
      injection H0 as H0; subst; reflexivity. }
  assert (Hsame : forall g0 e, is_lgr_exception e = true -> (g0, Raise e) = (g', x) -> tame x).
  { intros g0 e He H. injection H as _ <-. intros e0 K. injection K as <-. exact He. }
  destruct (check_convert g c) as [c1|e] eqn:Ec; [|eapply Hsame; [eapply Hconv; eauto|exact E]].
  destruct (check_convert g v) as [v1|e] eqn:Ev; [|eapply Hsame; [eapply Hconv; eauto|exact E]].
  assert (Hv1 : v1 <> []).
  { destruct (check_convert_cases g v) as [[e0 [H0 _]]|[H0 [H1 _]]]; rewrite H0 in Ev; [discriminate|]. injection Ev as Ev. subst. exact H1. }
  assert (Hc1 : c1 <> []).
  { destruct (check_convert_cases g c) as [[e0 [H0 _]]|[H0 [H1 _]]]; rewrite H0 in Ec; [discriminate|]. injection Ec as Ec. subst. exact H1. }
  cbn [bind check_validating] in E. destruct (_ && _)%bool; [eapply Hsame; [|exact E]; reflexivity|].
  destruct (collect_refs_cases g fo rf) as [[e [H1 [H2 [y [_ H3]]]]]|[H1 _]]; rewrite H1 in E; [eapply Hsame; [|exact E]; rewrite H3; reflexivity|].
  destruct (_ && _)%bool; [eapply Hsame; [|exact E]; reflexivity|]. unfold rep_add_variant in E. rewrite get_char_lk in E by exact Hc1.
  destruct (lk (lg_rep g) c1) as [ch|] eqn:El; [|eapply Hsame; [|exact E]; reflexivity].
  destruct (char_add_variant ch _) as [ch'|e] eqn:Ea; [injection E as _ <-; apply tame_ok|].
  eapply Hsame; [|exact E]. unfold char_add_variant in Ea. destruct (is_range ch); [injection Ea as Ea; subst; reflexivity|].
  cbn [v_cp] in Ea. destruct v1 as [|a v1]; [congruence|]. destruct (dget _ _ _); [|discriminate]. destruct (memb _ _ _); [|discriminate].
  injection Ea as Ea. subst. reflexivity.
Qed.
Lemma add_range_tame : forall g f l cm rf tg w nw, lgr_reachable g ->
  lgr_reachable (fst (lgr_add_range g f l cm rf tg w nw None false false)) /\ tame (snd (lgr_add_range g f l cm rf tg w nw None false false)).
Proof.
  intros g f l cm rf tg w nw Hre.
  pose proof (lgr_reachable_step g (LAddRange f l cm rf tg w nw None false false) Hre) as Hs. unfold lgr_step in Hs.
  destruct (add_range_spec_reach g f l cm rf tg w nw None false false Hre) as [r [A1 A2]]. cbv zeta in A2.
  destruct (lgr_add_range g f l cm rf tg w nw None false false) as [g' x]. cbn [fst snd] in *. split; [exact Hs|]. destruct r as [e|].
  2:{ destruct A2 as [[-> _]|[z [-> _]]]; [apply tame_ok|]. intros e E. injection E as <-. reflexivity. }
  destruct A2 as [-> _]. intros e' E'. injection E' as <-. unfold add_range_checks in A1. cbn [first_failing] in A1.
  destruct A1 as [[e0 [[_ H2] E]]|[N0 A1]]; [injection E as ->; rewrite H2; reflexivity|].
  destruct A1 as [[e0 [[_ [_ [_ H3]]] E]]|[_ A1]]; [injection E as ->; rewrite H3; reflexivity|].
  destruct A1 as [[e0 [[y [_ H3]] E]]|[_ A1]]; [injection E as ->; rewrite H3; reflexivity|].
  destruct A1 as [[e0 [[y [_ H3]] E]]|[N3 A1]]; [injection E as ->; inversion H3; reflexivity|].
  destruct A1 as [[e0 [[_ [y [_ H3]]] E]]|[_ A1]]; [injection E as ->; rewrite H3; reflexivity|].
  destruct A1 as [[e0 [[_ [_ H3]] E]]|[_ A1]]; [injection E as ->; rewrite H3; reflexivity|].
  destruct A1 as [[e0 [[_ [_ H3]] E]]|[_ A1]]; [injection E as ->; rewrite H3; reflexivity|].
  destruct A1 as [[e0 [[H1 H2] E]]|[_ A1]]; [|discriminate]. exfalso.
  assert (Hfl : f <= l) by (destruct (N.le_gt_cases f l) as [K|K]; [exact K|exfalso; exact (N0 _ (conj K eq_refl))]).
  assert (Dec : forall P : N -> Prop, (forall y, P y \/ ~ P y) -> (exists z, first_such P (nrange f l) z) \/ forall y, In y (nrange f l) -> ~ P y).
  { intros P HP. generalize (nrange f l). induction l0 as [|y l0 IH]; [right; intros y []|]. destruct (HP y) as [D|D].
    - left. exists y, [], l0. split; [reflexivity|]. split; [exact D|intros ? []].
    - destruct IH as [[z [p [q [-> [Z1 Z2]]]]]|IH]; [left|right].
      + exists z, (y :: p), q. split; [reflexivity|]. split; [exact Z1|]. intros k [<-|K]; auto.
      + intros k [<-|K]; auto. }
  assert (Hb : forall y, (exists e', blocks g None false false y e') \/ ~ exists e', blocks g None false false y e').
  { intro y. destruct (cp_status_cases g None y) as [[_ [H _]]|[_ [s [_ H]]]].
    - destruct H as [v [H _]]. discriminate.
    - inversion H as [I1|v I1 I2 I3|I1 I2 I3|I1 I2 I3].
      + destruct (lg_raise g) eqn:F; [left; eexists; apply Bl_idna; auto|right]. intros [e' Q]. inversion Q as [Q1 _ _|Q1 Q2 _|Q1 _]; [inversion Q1; discriminate|congruence|inversion Q1; contradiction].
      + discriminate.
      + left. eexists. apply Bl_exists; [apply RSt_exists; auto|reflexivity].
      + right. intros [e' Q]. inversion Q as [Q1 _ _|Q1 Q2 _|Q1 _]; [inversion Q1; discriminate|contradiction|inversion Q1; contradiction]. }
  assert (Hfin : In f (nrange f l)) by (apply nrange_In; lia).
  destruct (Dec _ Hb) as [[z Hz]|Hno].
  - pose proof (proj2 (first_such_In _ _ _ _ Hz)) as [e' Q]. exact (N3 e' (ex_intro _ z (conj Hz Q))).
  - apply (H1 f); [lia|]. unfold to_insert. destruct (cp_status_cases g None f) as [[_ [H _]]|[_ [s [_ H]]]].
    + destruct H as [v [H _]]. discriminate.
    + inversion H as [I1|v I1 I2 I3|I1 I2 I3|I1 I2 I3]; subst.
      * destruct (lg_raise g) eqn:F; [|right; right; auto]. exfalso. apply (Hno f Hfin). eexists. apply Bl_idna; auto.
      * discriminate.
      * exfalso. apply (Hno f Hfin). eexists. apply Bl_exists; [apply RSt_exists; auto|reflexivity].
      * left. exact H.
Qed.
Lemma status_none : forall g x e, cp_status g None x <> Raise e.
Proof.
  intros g x e H. destruct (cp_status_cases g None x) as [[_ [[v [K _]] _]]|[_ [s [K _]]]]; [discriminate|congruence].
Qed.
Lemma check_range_tame : forall g f l, tame (check_range g f l None).
Proof.
  intros g f l. unfold check_range. destruct (N.ltb l f); [intros e E; injection E as <-; reflexivity|].
  assert (G : forall xs, exists r, mapM_res (fun x => bind (cp_status g None x) (fun s => Ok (x, s))) xs = Ok r).
  { intro xs. induction xs as [|y ys IH]; [eexists; reflexivity|]. destruct IH as [r IH]. cbn [mapM_res]. destruct (cp_status g None y) as [s|e] eqn:E; [|exfalso; exact (status_none _ _ _ E)].
    cbn [bind]. rewrite IH. cbn [bind]. eauto. }
  destruct (G (nrange f l)) as [r ->]. apply tame_ok.
Qed.
Section Rebuilding.
  Variable get_script : LgrModel.unidb -> N -> option string.
  Variable scripts : list string.
  Variable q : LgrModel.unidb.

  Lemma rebuild_variants_tame : forall l t c, lgr_reachable t ->
    lgr_reachable (fst (rebuild_variants t None c l)) /\ tame (snd (rebuild_variants t None c l)).
  Proof.
    induction l as [|v l IH]; intros t c R; cbn [rebuild_variants]; [split; [exact R|apply tame_ok]|].
    pose proof (add_variant_tame t c (v_cp v) (v_type v) (v_when v) (v_not_when v) (v_comment v) (v_refs v) true false R) as A.
    assert (G : forall t1 mine, lgr_reachable t1 ->
      lgr_reachable (fst (let '(t2, o) := rebuild_variants t1 None c l in (t2, bind o (fun is => Ok (mine ++ is))))) /\
      tame (snd (let '(t2, o) := rebuild_variants t1 None c l in (t2, bind o (fun is => Ok (mine ++ is)))))).
    { intros t1 mine R1. specialize (IH t1 c R1). destruct (rebuild_variants t1 None c l) as [t2 [o|e]]; cbn [fst snd bind] in *; [split; [apply IH|apply tame_ok]|].
      split; [apply IH|]. intros e' E. injection E as <-. apply (proj2 IH). reflexivity. }
    destruct (lgr_add_variant t c _ _ _ _ _ _ None true false) as [t1 [[]|e]]; cbn [fst snd] in A; [apply G; apply A|].
    rewrite (proj2 A e eq_refl). cbn [negb]. destruct (is_idna_error e); [apply G; apply A|].
    pose proof (add_variant_tame t1 c (v_cp v) (v_type v) (v_when v) (v_not_when v) (v_comment v) (v_refs v) false true (proj1 A)) as B.
    destruct (lgr_add_variant t1 c _ _ _ _ _ _ None false true) as [t2 [[]|e2]]; cbn [fst snd] in *; [apply G; apply B|].
    split; [apply B|]. intros e' E. injection E as <-. apply (proj2 B). reflexivity.
  Qed.
  Lemma rebuild_cp_tame : forall t ch, lgr_reachable t -> lgr_reachable (fst (rebuild_cp None t ch)) /\ tame (snd (rebuild_cp None t ch)).
  Proof.
    intros t ch R. unfold rebuild_cp.
    pose proof (add_cp_tame t (ch_cp ch) (ch_comment ch) (ch_refs ch) (ch_tags ch) (ch_when ch) (ch_not_when ch) false false R) as A.
    destruct (lgr_add_cp t _ _ _ _ _ _ None false false) as [t1 [[]|e]]; cbn [fst snd] in *; [split; [apply A|apply tame_ok]|].
    rewrite (proj2 A e eq_refl). cbn [negb]. destruct (is_idna_error e); [split; [apply A|apply tame_ok]|].
    pose proof (add_cp_tame t1 (ch_cp ch) (ch_comment ch) (ch_refs ch) (ch_tags ch) (ch_when ch) (ch_not_when ch) false true (proj1 A)) as B.
    destruct (lgr_add_cp t1 _ _ _ _ _ _ None false true) as [t2 [[]|e2]]; cbn [fst snd] in *; [split; [apply B|apply tame_ok]|].
    split; [apply B|]. intros e' E. injection E as <-. apply (proj2 B). reflexivity.
  Qed.
  Lemma in_script_ok : forall c, exists b, cp_in_script get_script scripts (Some q) c = Ok b.
  Proof. intros [|x c]; eexists; reflexivity. Qed.
  Lemma rebuild_char_tame : forall t ch, lgr_reachable t ->
    lgr_reachable (fst (rebuild_char get_script scripts (Some q) None t ch)) /\ tame (snd (rebuild_char get_script scripts (Some q) None t ch)).
  Proof.
    intros t ch R. unfold rebuild_char.
    assert (G : lgr_reachable (fst (match cp_in_script get_script scripts (Some q) (ch_cp ch) with
        | Raise e => (t, Raise e)
        | Ok b => let warnings := if b then [] else [ch_cp ch] in let '(t1, o) := rebuild_cp None t ch in
            match o with Raise e => (t1, Raise e) | Ok errors => let '(t2, vs) := rebuild_variants t1 None (ch_cp ch) (get_variants ch) in (t2, bind vs (fun vs => Ok (mkRI ch errors warnings vs))) end
        end)) /\ tame (snd (match cp_in_script get_script scripts (Some q) (ch_cp ch) with
        | Raise e => (t, Raise e)
        | Ok b => let warnings := if b then [] else [ch_cp ch] in let '(t1, o) := rebuild_cp None t ch in
            match o with Raise e => (t1, Raise e) | Ok errors => let '(t2, vs) := rebuild_variants t1 None (ch_cp ch) (get_variants ch) in (t2, bind vs (fun vs => Ok (mkRI ch errors warnings vs))) end
        end))).
    { destruct (in_script_ok (ch_cp ch)) as [b ->]. cbv zeta. pose proof (rebuild_cp_tame t ch R) as A. destruct (rebuild_cp None t ch) as [t1 [o|e]]; cbn [fst snd] in *.
      - pose proof (rebuild_variants_tame (get_variants ch) t1 (ch_cp ch) (proj1 A)) as B. destruct (rebuild_variants t1 None _ _) as [t2 [vs|e]]; cbn [fst snd bind] in *; [split; [apply B|apply tame_ok]|].
        split; [apply B|]. intros e' E. injection E as <-. apply (proj2 B). reflexivity.
      - split; [apply A|]. intros e' E. injection E as <-. apply (proj2 A). reflexivity. }
    destruct (ch_kind ch) as [| |f l]; [exact G|exact G|]. unfold rebuild_range. pose proof (check_range_tame t f l) as A.
    destruct (check_range t f l None) as [st|e]; [|split; [exact R|intros e' E; injection E as <-; apply A; reflexivity]].
    assert (M : forall l : list (N * option exn), exists ws, mapM_res (fun s : N * option exn => bind (cp_in_script get_script scripts (Some q) [fst s]) (fun b => Ok (if b then [] else [[fst s]]))) l = Ok ws).
    { intro l0. induction l0 as [|s l0 IH]; [eexists; reflexivity|]. destruct IH as [ws IH]. cbn [mapM_res]. destruct (in_script_ok [fst s]) as [b ->]. cbn [bind]. rewrite IH. cbn [bind]. eauto. }
    destruct (M st) as [ws ->]. destruct (flat_map _ st) as [|e0 es]; [|split; [exact R|apply tame_ok]]. destruct (List.concat ws) as [|w0 ws']; [|split; [exact R|apply tame_ok]].
    pose proof (add_range_tame t f l (ch_comment ch) (ch_refs ch) (ch_tags ch) (ch_when ch) (ch_not_when ch) R) as B.
    destruct (lgr_add_range t f l _ _ _ _ _ None false false) as [t' [[]|e]]; cbn [fst snd] in *; [split; [apply B|apply tame_ok]|]. rewrite (proj2 B e eq_refl). split; [apply B|apply tame_ok].
  Qed.
  Lemma rebuild_loop_tame : forall l t, lgr_reachable t -> tame (snd (rebuild_loop get_script scripts (Some q) None t l)).
  Proof.
    induction l as [|ch l IH]; intros t R; cbn [rebuild_loop]; [apply tame_ok|]. pose proof (rebuild_char_tame t ch R) as A.
    destruct (rebuild_char get_script scripts (Some q) None t ch) as [t' [i|e]]; cbn [fst snd] in *; [|intros e' E; injection E as <-; apply (proj2 A); reflexivity].
    specialize (IH t' (proj1 A)). destruct (rebuild_loop _ _ _ _ t' l) as [t2 [o|e]]; cbn [snd bind] in *; [apply tame_ok|]. intros e' E. injection E as <-. apply IH. reflexivity.
  Qed.
  Lemma rebuild_tame : forall g db, lgr_reachable g -> lg_db g = Some q -> tame (rebuild_lgr get_script scripts g db None).
  Proof.
    intros g db R D. unfold rebuild_lgr. rewrite D.
    assert (R0 : lgr_reachable (set_refs (new_lgr db false) (lg_refs g))) by (apply (RebuildProofs.target_starts g db R)).
    pose proof (rebuild_loop_tame (rep_iter (lg_rep g)) _ R0) as T. destruct (snd _) as [is|e]; cbn [bind]; [apply tame_ok|]. intros e' E. injection E as <-. apply T. reflexivity.
  Qed.
End Rebuilding.

(** ** Labels of the checks *)
Lemma loop_labels : forall A I (f : A -> res (bool * list I * list report)) (P : report -> Prop) l,
  (forall x ok is rs, f x = Ok (ok, is, rs) -> Forall P rs) -> Forall P (fst (check_loop f l)).
Proof.
  intros A I f P l H. induction l as [|x l IH]; cbn [check_loop]; [constructor|]. destruct (f x) as [[[ok is] rs]|e] eqn:E; [|constructor].
  destruct (check_loop f l) as [rs' o]. cbn [fst] in *. apply Forall_app. split; [exact (H _ _ _ _ E)|exact IH].
Qed.
Lemma symmetry_labels : forall g ign t b, In (t, b) (fst (check_symmetry g ign)) -> t = "basic_symmetry" \/ t = "strict_symmetry".
Proof.
  intros g ign t b H. set (P := fun p : report => fst p = "basic_symmetry" \/ fst p = "strict_symmetry").
  assert (K : Forall P (fst (check_loop (sym_pair g ign) (variant_pairs g)))).
  { apply loop_labels. intros [a v] ok is rs E. unfold sym_pair in E. destruct (rep_contains _ _) as [p|]; [|discriminate]. cbn [bind] in E.
    destruct (negb p); [injection E as _ _ <-; constructor; [left; reflexivity|constructor]|]. destruct (lgr_get_variants _ _) as [vs|]; [|discriminate]. cbn [bind] in E.
    destruct (filter _ vs); [injection E as _ _ <-; constructor; [left; reflexivity|constructor]|]. destruct ign; [injection E as _ _ <-; constructor|].
    destruct (_ && _)%bool; [injection E as _ _ <-; constructor; [right; reflexivity|constructor]|]. destruct (_ && _)%bool; [injection E as _ _ <-; constructor; [right; reflexivity|constructor]|].
    injection E as _ _ <-. constructor. }
  unfold check_symmetry in H. destruct (check_loop _ _) as [rs o]. cbn [fst] in K. rewrite Forall_forall in K. destruct o; cbn [fst] in H; [|exact (K _ H)].
  apply in_app_or in H. destruct H as [H|[H|[H|[]]]]; [exact (K _ H)| |]; injection H as <- _; auto.
Qed.
Lemma transitivity_labels : forall g t b, In (t, b) (fst (check_transitivity g)) -> t = "basic_transitivity".
Proof.
  intros g t b H. set (P := fun p : report => fst p = "basic_transitivity").
  assert (K : Forall P (fst (check_loop (trans_pair g) (variant_pairs g)))).
  { apply loop_labels. intros [a v] ok is rs E. unfold trans_pair in E. destruct (lgr_get_variants _ _) as [vs|e].
    - injection E as _ _ <-. apply Forall_forall. intros p Hp. apply in_map_iff in Hp. destruct Hp as [x [<- _]]. reflexivity.
    - destruct e; try discriminate. injection E as _ _ <-. constructor. }
  unfold check_transitivity in H. destruct (check_loop _ _) as [rs o]. cbn [fst] in K. rewrite Forall_forall in K. destruct o; cbn [fst] in H; [|exact (K _ H)].
  apply in_app_or in H. destruct H as [H|[H|[]]]; [exact (K _ H)|]. injection H as <- _. reflexivity.
Qed.

(** ** The checks of the metadata as reports *)
Definition told (t : string) (bad : bool) : list report := (if bad then [(t, false)] else []) ++ [(t, true)].
Lemma outcome_told : forall t bad r, outcome t bad r = apply_reports r (told t bad).
Proof. intros t [|] r; reflexivity. Qed.
Lemma told_in : forall t bad t' b, In (t', b) (told t bad) <-> t' = t /\ (b = true \/ bad = true /\ b = false).
Proof. intros t [|] t' b; unfold told; cbn [app In]; intuition (try congruence). Qed.
Definition metadata_reports (today : cps) (mime : cps -> bool) (dig : N -> bool) (m : metadata) : list report :=
  told "validity_end_expiry" (bad_end today m) ++ told "validity_start_end" (bad_interval m) ++ told "validity_started" (bad_start today m) ++
  told "metadata_description_type" (bad_description mime m) ++ told "metadata_scope_type" (existsb bad_scope (md_scopes m)) ++ told "metadata_version_integer" (bad_version dig m).
Lemma metadata_told : forall today mime dig m r, snd (check_metadata today mime dig m r) = apply_reports r (metadata_reports today mime dig m).
Proof. intros. unfold check_metadata, metadata_reports. cbv zeta. cbn [snd]. rewrite !outcome_told, !apply_app. reflexivity. Qed.
