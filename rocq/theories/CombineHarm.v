(** Harmonized LGRs give labels the same index. *)
From Verif Require Import Base BaseFacts CharModel RepSpec RepProofs VariantProofs ActionModel LabelModel LabelSpec LabelProofs LabelIndex RefModel LgrModel LgrSpec LgrProofs LgrInv LgrTags LgrRefs LgrReach
  CompareModel CompareFinal PopulateModel PopulateSpec PopulateProofs PopulateFinal ValidateModel ValidateSpec ValidateProofs HarmonizeModel HarmonizeSpec HarmonizeProofs HarmonizeFinal HarmonizeCopy PopToolProofs CombineSpec.
Open Scope N_scope.
Open Scope list_scope.

(** ** Without context rules *)
Definition free_variant (v : variant) : Prop := v_when v = None /\ v_not_when v = None.
Definition no_context (w nw : option string) : Prop := w = None /\ nw = None.
Section Kind.
(** What is known of the contexts of code points. *)
Variable Kd : option string -> option string -> Prop.
Hypothesis Kd0 : Kd None None.
Definition free (ch : char) : Prop := Kd (ch_when ch) (ch_not_when ch) /\ forall v, In v (get_variants ch) -> free_variant v.
Definition freed (g : lgr) : Prop := wf_rep (lg_rep g) /\ allch free (lg_rep g).

Lemma free_delv : forall ch ch' v w nw b, wf_char ch -> free ch -> char_del_variant ch v w nw = Ok (ch', b) -> free ch'.
Proof.
  intros ch ch' v w nw b Hwf Hp H. destruct (char_del_variant_rest _ _ _ _ _ _ H) as [_ [_ [_ [Hr Hne]]]].
  pose proof (del_variant_same _ _ _ _ _ _ H) as [_ [_ [_ [_ [_ [E1 E2]]]]]]. destruct Hp as [P1 P3].
  destruct (del_variant_cases ch v w nw Hwf Hr Hne) as [c2 [b2 [X2 [_ [_ X3]]]]]. rewrite H in X2. injection X2 as X2 X4. subst c2 b2.
  split; [rewrite E1, E2; exact P1|]. intros u Hu. apply X3 in Hu. apply P3. tauto.
Qed.
Lemma free_addv : forall ch ch' v, wf_char ch -> free ch -> free_variant v -> char_add_variant ch v = Ok ch' -> free ch'.
Proof.
  intros ch ch' v Hwf Hp Hv H. destruct (char_add_variant_rest _ _ _ H) as [_ [_ [_ [Hr Hne]]]].
  pose proof (add_variant_same _ _ _ H) as [_ [_ [_ [_ [_ [E1 E2]]]]]]. destruct Hp as [P1 P3].
  destruct (add_variant_cases ch v Hwf Hr Hne) as [[_ X]|[_ [c2 [X2 X3]]]]; [congruence|]. rewrite H in X2. injection X2 as X2. subst c2.
  split; [rewrite E1, E2; exact P1|]. intros u Hu. apply X3 in Hu. destruct Hu as [->|Hu]; [exact Hv|apply P3; exact Hu].
Qed.
Lemma free_copy : forall ch y k, free ch -> free (mkChar [y] k (ch_comment ch) (ch_refs ch) (ch_tags ch) (ch_when ch) (ch_not_when ch) []).
Proof. intros ch y k [H1 _]. split; [exact H1|]. intros v []. Qed.

Lemma freed_wf : forall g o, wf_rep (lg_rep g) -> wf_rep (lg_rep (fst (lgr_step g o))).
Proof. intros g o H. eapply rsteps_wf; [exact H|]. apply lgr_step_rsteps. Qed.
Lemma freed_step : forall g o, freed g -> op_ok (fun c rf tg => False) (fun v => free_variant v) g o -> freed (fst (lgr_step g o)).
Proof.
  intros g o [W A] H. split; [apply freed_wf; exact W|]. apply (allch_step free free_copy free_delv (fun _ _ _ => False)) with (okv := free_variant); auto.
  - intros; contradiction.
  - intros ch ch' v Hw Hp Hv E. exact (free_addv ch ch' v Hw Hp Hv E).
Qed.
Lemma freed_cp : forall g c cm, freed g -> freed (fst (lgr_add_cp g c cm [] [] None None None false false)).
Proof.
  intros g c cm [W A]. split.
  - pose proof (freed_wf g (LAddCp c cm [] [] None None None false false) W) as K. unfold lgr_step in K. destruct (lgr_add_cp _ _ _ _ _ _ _ _ _ _). exact K.
  - apply allch_lgr_add_cp; [exact A|]. intros _ k. split; [exact Kd0|]. intros v [].
Qed.
Lemma freed_put : forall g c v ty cm rf, freed g -> freed (fst (put_variant g c v ty None None cm rf)).
Proof.
  intros g c v ty cm rf Hg. pose proof (freed_step g (LAddVariant c v ty None None cm rf None false false) Hg) as K. unfold lgr_step in K. unfold put_variant.
  destruct (lgr_add_variant _ _ _ _ _ _ _ _ _ _ _). apply K. intros _. split; reflexivity.
Qed.
Lemma freed_expand : forall g, freed g -> freed (fst (lgr_expand_ranges g)).
Proof. intros g Hg. pose proof (freed_step g LExpandRanges Hg I) as K. unfold lgr_step in K. destruct (lgr_expand_ranges g). exact K. Qed.
Lemma freed_variants : forall g c vs v, freed g -> rep_get_char (lg_rep g) c = Ok vs -> In v (get_variants vs) -> free_variant v.
Proof.
  intros g c ch v [W A] E Hv. destruct c as [|x c]; [discriminate|]. rewrite get_char_lk in E by discriminate. destruct (lk (lg_rep g) (x :: c)) as [ch'|] eqn:L; [|discriminate].
  injection E as ->. apply (A _ _ L). exact Hv.
Qed.
Lemma freed_then : forall x f, freed (fst x) -> (forall g, freed g -> freed (fst (f g))) -> freed (fst (andthen x f)).
Proof. intros [g [u|e]] f H1 H2; cbn [andthen fst] in *; auto. Qed.

(** ** Completing adds no context rules *)
Section Each.
  Variable f : lgr -> cps -> variant -> lgr * res unit.
  Hypothesis Hf : forall g a b, freed g -> free_variant b -> freed (fst (f g a b)).
  Lemma free_each_variant : forall l g a, freed g -> (forall b, In b l -> free_variant b) -> freed (fst (each_variant f g a l)).
  Proof.
    induction l as [|b l IH]; intros g a Hg Hl; [exact Hg|]. cbn [each_variant]. pose proof (Hf g a b Hg (Hl b (or_introl eq_refl))) as K. destruct (f g a b) as [g' [u|e]]; cbn [fst] in *; auto.
    apply IH; [exact K|]. intros c Hc. apply Hl. right. exact Hc.
  Qed.
  Lemma free_each_char : forall l g, freed g -> freed (fst (each_char f g l)).
  Proof.
    induction l as [|a l IH]; intros g Hg; [exact Hg|]. cbn [each_char]. destruct (rep_get_char (lg_rep g) (ch_cp a)) as [cur|e] eqn:E; [|exact Hg].
    pose proof (free_each_variant (get_variants cur) g (ch_cp a) Hg (fun b => freed_variants g _ cur b Hg E)) as K.
    destruct (each_variant f g (ch_cp a) (get_variants cur)) as [g' [u|e]]; cbn [fst] in *; auto.
  Qed.
  Lemma free_each_key : forall ks g last, freed g -> freed (fst (each_key f g last ks)).
  Proof.
    induction ks as [|k ks IH]; intros g last Hg; [exact Hg|]. cbn [each_key]. destruct (iter_bucket _ _) as [last' out].
    pose proof (free_each_char out g Hg) as K. destruct (each_char f g out) as [g' [u|e]]; cbn [fst] in *; auto.
  Qed.
  Lemma free_each : forall g, freed g -> freed (fst (each_mapping f g)).
  Proof. intros g Hg. apply free_each_key. exact Hg. Qed.
End Each.
Lemma free_missing : forall g a b, freed g -> free_variant b -> freed (fst (add_missing g a b)).
Proof.
  intros g a b Hg _. unfold add_missing. destruct (lgr_get_variants g (v_cp b)) as [vs|e]; [exact Hg|]. destruct e; try exact Hg.
  apply freed_then; [apply freed_cp; exact Hg|]. intros g1 H1. apply freed_put. exact H1.
Qed.
Lemma free_symmetry : forall g a b, freed g -> free_variant b -> freed (fst (symmetry_step g a b)).
Proof.
  intros g a b Hg [B1 B2]. unfold symmetry_step. destruct (lgr_get_variants g (v_cp b)) as [vs|e]; [|exact Hg].
  destruct (filter (fun v => cps_eqb a (v_cp v)) vs) as [|r rs]; [rewrite B1, B2; apply freed_put; exact Hg|]. apply freed_then.
  - unfold symmetry_when. rewrite B1. exact Hg.
  - intros g1 H1. unfold symmetry_not_when. rewrite B2. exact H1.
Qed.
Lemma free_targets : forall cs g a, freed g -> freed (fst (transitivity_targets g a cs)).
Proof.
  induction cs as [|c cs IH]; intros g a Hg; [exact Hg|]. cbn [transitivity_targets]. destruct (rep_get_char (lg_rep g) a) as [cur|e]; [|exact Hg].
  destruct (memb _ _ _); [apply IH; exact Hg|]. apply freed_then; [apply freed_put; exact Hg|]. intros g1 H1. apply IH. exact H1.
Qed.
Lemma free_transitivity : forall g a b, freed g -> free_variant b -> freed (fst (transitivity_step g a b)).
Proof. intros g a b Hg _. unfold transitivity_step. destruct (lgr_get_variants g (v_cp b)) as [vs|e]; [|exact Hg]. apply free_targets. exact Hg. Qed.
Lemma free_balance : forall n g, freed g -> freed (fst (balance n g)).
Proof.
  induction n as [|n IH]; intros g Hg; cbn [balance]; destruct (balanced g) as [[]|e]; try exact Hg.
  apply freed_then; [apply free_each; [exact free_symmetry|exact Hg]|]. intros g1 H1. apply freed_then; [apply free_each; [exact free_transitivity|exact H1]|exact IH].
Qed.
Lemma free_populate : forall g, freed g -> freed (fst (populate g)).
Proof.
  intros g Hg. unfold populate. apply freed_then; [apply free_each; [exact free_missing|exact Hg]|]. intros g1 H1. apply freed_then; [apply free_balance; exact H1|].
  intros g2 H2. destruct (passed (check_symmetry g2 false)) as [[]|e]; try exact H2. apply free_each; [exact free_symmetry|exact H2].
Qed.

(** ** Nor does harmonizing *)
Lemma free_carry : forall g c v, freed g -> freed (fst (carry g c v)).
Proof.
  intros g c v Hg. unfold carry. destruct (rep_contains (lg_rep g) v) as [[]|e]; [destruct (cps_eqb v c)| |]; try exact Hg; [apply freed_put; exact Hg|].
  apply freed_then; [|intros g1 H1; apply freed_put; exact H1]. unfold add_outside. apply freed_then; [apply freed_cp; exact Hg|]. intros g1 H1. apply freed_put. exact H1.
Qed.
Lemma free_carry_all : forall vs g c, freed g -> freed (fst (carry_all g c vs)).
Proof. induction vs as [|v vs IH]; intros g c Hg; [exact Hg|]. cbn [carry_all]. apply freed_then; [apply free_carry; exact Hg|]. intros g1 H1. apply IH. exact H1. Qed.
Lemma free_finished : forall x g, finished x = Ok g -> freed (fst x) -> freed g.
Proof. intros [g0 [u|e]] g E K; [injection E as <-; exact K|discriminate]. Qed.
Lemma free_share : forall order g1 g2 c h1 h2, share order g1 g2 c = Ok (h1, h2) -> freed g1 -> freed g2 -> freed h1 /\ freed h2.
Proof.
  intros order g1 g2 c h1 h2 E K1 K2. unfold share in E. destruct (lgr_get_char g1 c); [|discriminate]. destruct (lgr_get_char g2 c); [|discriminate]. cbn [bind] in E. cbv zeta in E.
  match type of E with context[finished ?x] => pose proof (free_finished x) as F1; destruct (finished x) as [k2|] eqn:E1; [|discriminate]; cbn [bind] in E end.
  match type of E with context[finished ?x] => pose proof (free_finished x) as F2; destruct (finished x) as [k1|] eqn:E2; [|discriminate]; cbn [bind] in E end.
  injection E as <- <-. split; [apply (F2 k1 eq_refl)|apply (F1 k2 eq_refl)]; apply free_carry_all; assumption.
Qed.
Lemma free_share_all : forall order cs g1 g2 h1 h2, share_all order g1 g2 cs = Ok (h1, h2) -> freed g1 -> freed g2 -> freed h1 /\ freed h2.
Proof.
  intros order cs. induction cs as [|c cs IH]; intros g1 g2 h1 h2 E K1 K2; cbn [share_all] in E; [injection E as <- <-; auto|].
  destruct (share order g1 g2 c) as [[k1 k2]|] eqn:S; [|discriminate]. cbn [bind fst snd] in E. destruct (free_share _ _ _ _ _ _ S K1 K2) as [L1 L2]. exact (IH _ _ _ _ E L1 L2).
Qed.
Lemma free_expanded : forall order g1 g2 h1 h2 rs, harmonize_expanded order g1 g2 = Ok (h1, h2, rs) -> freed g1 -> freed g2 -> freed h1 /\ freed h2.
Proof.
  intros order g1 g2 h1 h2 rs E K1 K2. unfold harmonize_expanded in E. cbv zeta in E. destruct (share_all _ _ _ _) as [[k1 k2]|] eqn:S; [|discriminate]. cbn [bind fst snd] in E.
  destruct (free_share_all _ _ _ _ _ _ S K1 K2) as [L1 L2].
  destruct (finished (populate k1)) as [m1|] eqn:E1; [|discriminate]. cbn [bind] in E. destruct (finished (populate k2)) as [m2|] eqn:E2; [|discriminate]. cbn [bind] in E. injection E as <- <- _.
  split; [apply (free_finished _ _ E1)|apply (free_finished _ _ E2)]; apply free_populate; assumption.
Qed.
Lemma free_spell : forall g e, finished (lgr_expand_ranges g) = Ok e -> freed g -> freed e.
Proof. intros g e E K. apply (free_finished _ _ E). apply freed_expand. exact K. Qed.
Lemma free_two : forall order g1 g2 h1 h2 rs, harmonize_two order g1 g2 = Ok (h1, h2, rs) -> freed g1 -> freed g2 -> freed h1 /\ freed h2.
Proof.
  intros order g1 g2 h1 h2 rs E K1 K2. unfold harmonize_two in E. destruct (finished (lgr_expand_ranges g1)) as [e1|] eqn:E1; [|discriminate]. cbn [bind] in E.
  destruct (finished (lgr_expand_ranges g2)) as [e2|] eqn:E2; [|discriminate]. cbn [bind] in E. apply (free_expanded _ _ _ _ _ _ E); eapply free_spell; eassumption.
Qed.
Lemma free_harmonize : forall order g1 g2 root h1 h2 rs, harmonize order g1 g2 root = Ok (h1, h2, rs) -> freed g1 -> freed g2 -> (forall z, root = Some z -> freed z) -> freed h1 /\ freed h2.
Proof.
  intros order g1 g2 root h1 h2 rs E K1 K2 K3. unfold harmonize, harmonize_copies in E.
  destruct (finished (lgr_expand_ranges (lgr_copy g1))) as [e1|] eqn:E1; [|discriminate]. cbn [bind] in E.
  destruct (finished (lgr_expand_ranges (lgr_copy g2))) as [e2|] eqn:E2; [|discriminate]. cbn [bind] in E.
  assert (L1 : freed e1) by (eapply free_spell; [exact E1|exact K1]). assert (L2 : freed e2) by (eapply free_spell; [exact E2|exact K2]).
  destruct root as [z|]; cbn [option_map] in E; [|exact (free_expanded _ _ _ _ _ _ E L1 L2)].
  assert (Kz : freed (lgr_copy z)) by exact (K3 z eq_refl).
  destruct (harmonize_two order e1 (lgr_copy z)) as [[[a1 b1] r1]|] eqn:T1; [|discriminate]. cbn [bind fst snd] in E.
  destruct (harmonize_two order e2 (lgr_copy z)) as [[[a2 b2] r2]|] eqn:T2; [|discriminate]. cbn [bind fst snd] in E.
  apply (free_expanded _ _ _ _ _ _ E); [apply (free_two _ _ _ _ _ _ T1 L1 Kz)|apply (free_two _ _ _ _ _ _ T2 L2 Kz)].
Qed.
End Kind.
