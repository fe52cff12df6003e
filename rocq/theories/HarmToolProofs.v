(** What harmonizing keeps of what a reader guarantees, and the names of the files. *)
From Coq Require Import Ascii Permutation.
From Verif Require Import Base BaseFacts UtilsModel CharModel RepSpec RepProofs VariantProofs MetaModel MetaSpec RefModel LgrModel LgrSpec LgrProofs LgrInv LgrTags LgrRefs LgrMirror LgrReach
  CompareSpec PopulateModel PopulateSpec Rfc7940Model ValidateModel ValidateSpec LabelModel ClassModel RuleModel SerialModel SerialSpec SerialProofs SerialFinal
  RulesXmlModel RulesXmlSpec DocModel ReadySpec DocFinal AgainSpec AgainRead ForceProofs HarmonizeModel HarmonizeSpec HarmonizeProofs HarmonizeFinal HarmonizeCopy PopToolModel PopToolProofs HarmToolModel HarmToolSpec.
Open Scope string_scope.
Open Scope list_scope.

(** ** What every edit keeps, harmonizing keeps *)
Definition kept_by_all (P : lgr -> Prop) : Prop :=
  (forall g c cm, P g -> P (fst (lgr_add_cp g c cm [] [] None None None false false))) /\
  (forall g c v ty w nw cm rf, P g -> P (fst (lgr_add_variant g c v ty w nw cm rf None false false))) /\
  (forall g c v, P g -> P (fst (lgr_del_variant g c v None None))) /\
  (forall g, P g -> P (fst (lgr_expand_ranges g))) /\ (forall g, P g -> P (lgr_copy g)).
Section Kept.
  Variable P : lgr -> Prop.
  Hypothesis H : kept_by_all P.
  Lemma all_edits : kept_by_edits P.
  Proof. destruct H as [H1 [H2 [H3 _]]]. split; [intros; apply H1; assumption|]. split; assumption. Qed.
  Lemma outside_kept : forall g v, P g -> P (fst (add_outside g v)).
  Proof. intros g v Hg. unfold add_outside. apply andthen_kept; [apply (proj1 H); exact Hg|]. intros g1 H1. apply (put_kept P all_edits). exact H1. Qed.
  Lemma carry_kept : forall g c v, P g -> P (fst (carry g c v)).
  Proof.
    intros g c v Hg. unfold carry. destruct (rep_contains (lg_rep g) v) as [[]|e]; [destruct (cps_eqb v c)| |]; try exact Hg; [apply (put_kept P all_edits); exact Hg|].
    apply andthen_kept; [apply outside_kept; exact Hg|]. intros g1 H1. apply (put_kept P all_edits). exact H1.
  Qed.
  Lemma carry_all_kept : forall vs g c, P g -> P (fst (carry_all g c vs)).
  Proof. induction vs as [|v vs IH]; intros g c Hg; [exact Hg|]. cbn [carry_all]. apply andthen_kept; [apply carry_kept; exact Hg|]. intros g1 H1. apply IH. exact H1. Qed.
  Lemma finished_kept : forall x g, finished x = Ok g -> P (fst x) -> P g.
  Proof. intros [g0 [u|e]] g E K; [injection E as <-; exact K|discriminate]. Qed.
  Lemma share_kept : forall order g1 g2 c h1 h2, share order g1 g2 c = Ok (h1, h2) -> P g1 -> P g2 -> P h1 /\ P h2.
  Proof.
    intros order g1 g2 c h1 h2 E K1 K2. unfold share in E. destruct (lgr_get_char g1 c); [|discriminate]. destruct (lgr_get_char g2 c); [|discriminate]. cbn [bind] in E.
    cbv zeta in E.
    match type of E with context[finished ?x] => pose proof (finished_kept x) as F1; destruct (finished x) as [k2|] eqn:E1; [|discriminate]; cbn [bind] in E end.
    match type of E with context[finished ?x] => pose proof (finished_kept x) as F2; destruct (finished x) as [k1|] eqn:E2; [|discriminate]; cbn [bind] in E end.
    injection E as <- <-. split; [apply (F2 k1 eq_refl)|apply (F1 k2 eq_refl)]; apply carry_all_kept; assumption.
  Qed.
  Lemma share_all_kept : forall order cs g1 g2 h1 h2, share_all order g1 g2 cs = Ok (h1, h2) -> P g1 -> P g2 -> P h1 /\ P h2.
  Proof.
    intros order cs. induction cs as [|c cs IH]; intros g1 g2 h1 h2 E K1 K2; cbn [share_all] in E; [injection E as <- <-; auto|].
    destruct (share order g1 g2 c) as [[k1 k2]|] eqn:S; [|discriminate]. cbn [bind fst snd] in E. destruct (share_kept _ _ _ _ _ _ S K1 K2) as [L1 L2]. exact (IH _ _ _ _ E L1 L2).
  Qed.
  Lemma expanded_kept : forall order g1 g2 h1 h2 rs, harmonize_expanded order g1 g2 = Ok (h1, h2, rs) -> P g1 -> P g2 -> P h1 /\ P h2.
  Proof.
    intros order g1 g2 h1 h2 rs E K1 K2. unfold harmonize_expanded in E. cbv zeta in E. destruct (share_all _ _ _ _) as [[k1 k2]|] eqn:S; [|discriminate]. cbn [bind fst snd] in E.
    destruct (share_all_kept _ _ _ _ _ _ S K1 K2) as [L1 L2].
    destruct (finished (populate k1)) as [m1|] eqn:E1; [|discriminate]. cbn [bind] in E. destruct (finished (populate k2)) as [m2|] eqn:E2; [|discriminate]. cbn [bind] in E. injection E as <- <- _.
    split; [apply (finished_kept _ _ E1)|apply (finished_kept _ _ E2)]; apply (populate_kept P all_edits); assumption.
  Qed.
  Lemma spell_kept : forall g e, finished (lgr_expand_ranges g) = Ok e -> P g -> P e.
  Proof. intros g e E K. apply (finished_kept _ _ E). apply (proj1 (proj2 (proj2 (proj2 H)))). exact K. Qed.
  Lemma two_kept : forall order g1 g2 h1 h2 rs, harmonize_two order g1 g2 = Ok (h1, h2, rs) -> P g1 -> P g2 -> P h1 /\ P h2.
  Proof.
    intros order g1 g2 h1 h2 rs E K1 K2. unfold harmonize_two in E. destruct (finished (lgr_expand_ranges g1)) as [e1|] eqn:E1; [|discriminate]. cbn [bind] in E.
    destruct (finished (lgr_expand_ranges g2)) as [e2|] eqn:E2; [|discriminate]. cbn [bind] in E. apply (expanded_kept _ _ _ _ _ _ E); eapply spell_kept; eassumption.
  Qed.
  Lemma harmonize_kept : forall order g1 g2 root h1 h2 rs, harmonize order g1 g2 root = Ok (h1, h2, rs) -> P g1 -> P g2 -> (forall z, root = Some z -> P z) -> P h1 /\ P h2.
  Proof.
    intros order g1 g2 root h1 h2 rs E K1 K2 K3. unfold harmonize, harmonize_copies in E. pose proof (proj2 (proj2 (proj2 (proj2 H)))) as HC.
    destruct (finished (lgr_expand_ranges (lgr_copy g1))) as [e1|] eqn:E1; [|discriminate]. cbn [bind] in E.
    destruct (finished (lgr_expand_ranges (lgr_copy g2))) as [e2|] eqn:E2; [|discriminate]. cbn [bind] in E.
    assert (L1 : P e1) by (eapply spell_kept; [exact E1|apply HC; exact K1]). assert (L2 : P e2) by (eapply spell_kept; [exact E2|apply HC; exact K2]).
    destruct root as [z|]; cbn [option_map] in E; [|exact (expanded_kept _ _ _ _ _ _ E L1 L2)].
    pose proof (HC z (K3 z eq_refl)) as Kz.
    destruct (harmonize_two order e1 (lgr_copy z)) as [[[a1 b1] r1]|] eqn:T1; [|discriminate]. cbn [bind fst snd] in E.
    destruct (harmonize_two order e2 (lgr_copy z)) as [[[a2 b2] r2]|] eqn:T2; [|discriminate]. cbn [bind fst snd] in E.
    apply (expanded_kept _ _ _ _ _ _ E); [apply (two_kept _ _ _ _ _ _ T1 L1 Kz)|apply (two_kept _ _ _ _ _ _ T2 L2 Kz)].
  Qed.
End Kept.

(** A reader's guarantees. *)
Definition tags_ok (ch : char) : Prop := writable_words (ch_tags ch).
Definition guaranteed (g : lgr) : Prop := proper g /\ tag_tidy g /\ allch tags_ok (lg_rep g).
Lemma guaranteed_step : forall g o, guaranteed g -> tidy_op g o -> unforced o ->
  match o with LAddCp _ _ _ tg _ _ _ _ fo => tg = [] /\ fo = false | LAddVariant _ _ _ _ _ _ _ _ _ _ | LDelVariant _ _ _ _ | LExpandRanges | LCopy => True | _ => False end ->
  guaranteed (fst (lgr_step g o)).
Proof.
  intros g o [P [T A]] D U K. split; [apply pr_step; assumption|]. split.
  - apply tt_step; [exact T|]. split; [exact D|]. destruct o; try contradiction; try exact I. destruct K as [_ ->]. discriminate.
  - apply (allch_step tags_ok) with (okfresh := fun _ _ tg => writable_words tg) (okv := fun _ => True).
    + intros ch y k E. exact E.
    + intros ch ch' v w nw b Hwf E R. unfold tags_ok. destruct (char_del_variant_rest _ _ _ _ _ _ R) as [_ [-> _]]. exact E.
    + intros. assumption.
    + intros ch ch' v Hwf E _ R. unfold tags_ok. destruct (char_add_variant_rest _ _ _ R) as [_ [-> _]]. exact E.
    + apply lgr_reachable_wf, tidy_reachable, proper_tidy. exact P.
    + exact A.
    + destruct o; try contradiction; cbn [op_ok]; auto. destruct K as [-> _]. intros _. split; [discriminate|intros w []].
Qed.
Lemma guaranteed_kept : kept_by_all guaranteed.
Proof.
  unfold kept_by_all. split; [|split; [|split; [|split]]].
  - intros g c cm G. pose proof (guaranteed_step g (LAddCp c cm [] [] None None None false false) G I eq_refl (conj eq_refl eq_refl)) as K. cbn [lgr_step] in K. destruct (lgr_add_cp _ _ _ _ _ _ _ _ _ _). exact K.
  - intros g c v ty w nw cm rf G. pose proof (guaranteed_step g (LAddVariant c v ty w nw cm rf None false false) G I eq_refl I) as K. cbn [lgr_step] in K. destruct (lgr_add_variant _ _ _ _ _ _ _ _ _ _ _). exact K.
  - intros g c v G. pose proof (guaranteed_step g (LDelVariant c v None None) G I I I) as K. cbn [lgr_step] in K. destruct (lgr_del_variant _ _ _ _ _). exact K.
  - intros g G. pose proof (guaranteed_step g LExpandRanges G I I I) as K. cbn [lgr_step] in K. destruct (lgr_expand_ranges g). exact K.
  - intros g G. exact (guaranteed_step g LCopy G I I I).
Qed.
Lemma guaranteed_tidy : forall g, guaranteed g -> tidy g.
Proof. intros g [P _]. apply proper_tidy. exact P. Qed.

(** ** Code points that may occur *)
Definition covers (D : N -> Prop) (r : repertoire) : Prop := forall a x, lookup r a <> None \/ (exists c, has_target r c a) -> In x a -> D x.
Lemma completed_covers : forall D r s t, completed r s t -> covers D r -> covers D s -> covers D t.
Proof.
  intros D r s t C Hr Hs a x Ha Hx. assert (L : lookup t a <> None) by (destruct Ha as [Ha|[c Ha]]; [exact Ha|apply (co_symmetric _ _ _ C) in Ha; apply Ha]).
  apply (co_entries _ _ _ C) in L. destruct L as [L|[y [L|[_ L]]]]; [apply (Hr a x)|apply (Hr a x)|apply (Hs a x)]; auto; right; exists y; exact L.
Qed.
Definition fits (db : option LgrModel.unidb) (x : N) : Prop := forall d, db = Some d -> db_idna_valid d x = true.
Lemma admits_covers : forall db g, admits db false g <-> covers (fits db) (lg_rep g).
Proof.
  intros db g. split.
  - intros [A|A]; [discriminate|]. intros a x [L|[c T]] Hx d Hd.
    + destruct (lookup (lg_rep g) a) as [ch|] eqn:E; [|congruence]. apply (A x d); [|exact Hd]. exists a, ch. auto.
    + exact (A x d (target_occurs g c a x T Hx) Hd).
  - intro C. right. intros x d [c [ch [L K]]] Hd. destruct K as [K|[v [K1 K2]]]; [apply (C c x); [left; congruence|exact K|exact Hd]|].
    apply (C (v_cp v) x); [|exact K2|exact Hd]. right. exists c, v, ch. auto.
Qed.
Lemma harmonize_covers : forall order D g1 g2 root h1 h2 rs, rearranges order -> tidy g1 -> tidy g2 -> (forall z, root = Some z -> tidy z /\ covers D (lg_rep z)) ->
  harmonize order g1 g2 root = Ok (h1, h2, rs) -> covers D (lg_rep g1) -> covers D (lg_rep g2) -> covers D (lg_rep h1) /\ covers D (lg_rep h2).
Proof.
  intros order D g1 g2 root h1 h2 [r1 r2] Po T1 T2 Tz E C1 C2. destruct root as [z|].
  - destruct (Tz z eq_refl) as [T3 C3]. destruct (harmonize_root_ok order g1 g2 z h1 h2 r1 r2 Po T1 T2 T3 E) as [m1 [m2 [K1 [K2 [K3 [K4 _]]]]]].
    pose proof (completed_covers D _ _ _ K1 C1 C3) as M1. pose proof (completed_covers D _ _ _ K2 C2 C3) as M2. split; eapply completed_covers; eassumption.
  - destruct (harmonize_ok order g1 g2 h1 h2 r1 r2 Po T1 T2 E) as [_ [_ [K1 [K2 _]]]]. split; eapply completed_covers; eassumption.
Qed.

(** ** Proper LGRs can be harmonized *)
Lemma proper_plain : forall g, proper g -> plain_variants g.
Proof.
  intros g P a b v [ch [L [Hv _]]]. pose proof (ref_tidy_inv g (proper_ref_tidy g P)) as [_ R]. rewrite lookup_lk in L. destruct (R _ _ L) as [_ R2].
  split; [apply (proper_orderly g P _ _ L); exact Hv|]. destruct (R2 v Hv) as [N D]. split; [exact N|]. intros x Hx. exact (D x Hx).
Qed.

(** ** Names of files *)
Lemma chars_app : forall a b, list_ascii_of_string (a ++ b) = list_ascii_of_string a ++ list_ascii_of_string b.
Proof. induction a as [|c a IH]; intro b; [reflexivity|]. cbn. rewrite IH. reflexivity. Qed.
Lemma chars_inj : forall a b, list_ascii_of_string a = list_ascii_of_string b -> a = b.
Proof. intros a b E. rewrite <- (string_of_list_ascii_of_string a), <- (string_of_list_ascii_of_string b), E. reflexivity. Qed.
Lemma tail_inj : forall a b c : string, (a ++ c)%string = (b ++ c)%string -> a = b.
Proof. intros a b c E. apply chars_inj. apply (f_equal list_ascii_of_string) in E. rewrite !chars_app in E. apply app_inv_tail in E. exact E. Qed.
Lemma len_app : forall a b, String.length (a ++ b) = (String.length a + String.length b)%nat.
Proof. induction a as [|c a IH]; intro b; [reflexivity|]. cbn. rewrite IH. reflexivity. Qed.
Lemma without_xml_some : forall n p, without_xml n = Some p -> n = (p ++ ".xml")%string.
Proof.
  induction n as [|c n IH]; intros p E; cbn [without_xml] in E; [discriminate|]. destruct (String.eqb_spec (String c n) ".xml") as [Q|_]; [injection E as <-; exact Q|].
  destruct (without_xml n) as [q|]; [|discriminate]. injection E as <-. cbn. f_equal. apply IH. reflexivity.
Qed.
Lemma without_xml_ext : forall p, without_xml (p ++ ".xml") = Some p.
Proof.
  induction p as [|c p IH]; [reflexivity|]. cbn [append without_xml]. rewrite IH. destruct (String.eqb_spec (String c (p ++ ".xml")) ".xml") as [Q|_]; [|reflexivity].
  exfalso. apply (f_equal String.length) in Q. cbn in Q. destruct p as [|d p]; [discriminate|]. cbn in Q. rewrite len_app in Q. cbn in Q. lia.
Qed.
Lemma output_result : forall n, result_name n (output_name n).
Proof.
  intro n. unfold output_name. destruct (without_xml n) as [p|] eqn:E; [rewrite (without_xml_some _ _ E); constructor|]. apply result_other. intros p ->. rewrite without_xml_ext in E. discriminate.
Qed.
Lemma result_output : forall n o, result_name n o -> o = output_name n.
Proof.
  intros n o R. unfold output_name. destruct R as [p|n N]; [rewrite without_xml_ext; reflexivity|]. destruct (without_xml n) as [p|] eqn:E; [|reflexivity]. exfalso. apply (N p). apply without_xml_some. exact E.
Qed.
Lemma output_inj : forall a b, output_name a = output_name b -> a = b.
Proof.
  intros a b E. unfold output_name in E. destruct (without_xml a) as [p|] eqn:A, (without_xml b) as [q|] eqn:B.
  - apply tail_inj in E. subst q. rewrite (without_xml_some _ _ A), (without_xml_some _ _ B). reflexivity.
  - exfalso. apply (f_equal (fun s => rev (list_ascii_of_string s))) in E. rewrite !chars_app, !rev_app_distr in E. cbn in E. discriminate.
  - exfalso. apply (f_equal (fun s => rev (list_ascii_of_string s))) in E. rewrite !chars_app, !rev_app_distr in E. cbn in E. discriminate.
  - exact (tail_inj _ _ _ E).
Qed.
Lemma base_plain : forall n, (forall a b, n <> (a ++ "/" ++ b)%string) -> base_name n = n.
Proof.
  induction n as [|c n IH]; intro N; [reflexivity|]. cbn [base_name]. rewrite IH by (intros a b ->; apply (N (String c a) b); reflexivity). rewrite String.eqb_refl.
  destruct (Ascii.eqb_spec c "/"%char) as [->|_]; [|reflexivity]. exfalso. apply (N "" n). reflexivity.
Qed.
Lemma base_short : forall n, base_name n = n \/ (String.length (base_name n) < String.length n)%nat.
Proof.
  induction n as [|c n IH]; [left; reflexivity|]. cbn [base_name]. destruct (String.eqb_spec (base_name n) n) as [E|E].
  - rewrite E. destruct (Ascii.eqb c "/"); [right; cbn; lia|left; reflexivity].
  - right. destruct IH as [IH|IH]; [congruence|]. cbn [String.length]. lia.
Qed.
Lemma base_after : forall d n, (forall a b, n <> (a ++ "/" ++ b)%string) -> base_name (d ++ "/" ++ n) = n.
Proof.
  induction d as [|c d IH]; intros n N; cbn [append base_name].
  - rewrite (base_plain n N), String.eqb_refl. reflexivity.
  - cbn [append] in IH. rewrite (IH n N). destruct (String.eqb_spec n (d ++ String "/" n)) as [E|_]; [|reflexivity].
    exfalso. apply (f_equal String.length) in E. rewrite len_app in E. cbn in E. lia.
Qed.
Lemma base_noslash : forall path a b, base_name path <> (a ++ "/" ++ b)%string.
Proof.
  induction path as [|c path IH]; intros a b E; cbn [base_name] in E; [destruct a; discriminate|].
  destruct (String.eqb (base_name path) path); [destruct (Ascii.eqb_spec c "/"%char) as [_|Nc]|]; try (exact (IH a b E)).
  destruct a as [|x a]; cbn [append] in E; injection E as E1 E2; [congruence|exact (IH a b E2)].
Qed.
Lemma base_split : forall path, base_name path = path \/ exists d, path = (d ++ "/" ++ base_name path)%string.
Proof.
  induction path as [|c path IH]; [left; reflexivity|]. cbn [base_name]. destruct (String.eqb_spec (base_name path) path) as [E|E].
  - rewrite E. destruct (Ascii.eqb_spec c "/"%char) as [->|_]; [|left; reflexivity]. right. exists "". reflexivity.
  - right. destruct IH as [IH|[d IH]]; [congruence|]. exists (String c d). cbn [append]. f_equal. exact IH.
Qed.
Lemma base_file : forall path n, file_name path n <-> n = base_name path.
Proof.
  intros path n. split.
  - intros [N [->|[d ->]]]; symmetry; [apply base_plain|apply base_after]; exact N.
  - intros ->. split; [apply base_noslash|]. destruct (base_split path) as [E|E]; [left; symmetry; exact E|right; exact E].
Qed.
Theorem names_unique : (forall path, exists n, file_name path n /\ forall m, file_name path m -> m = n) /\
  (forall n, exists o, result_name n o /\ forall p, result_name n p -> p = o) /\ (forall n m o, result_name n o -> result_name m o -> n = m).
Proof.
  split; [|split].
  - intro path. exists (base_name path). split; [apply base_file; reflexivity|]. intros m F. apply base_file. exact F.
  - intro n. exists (output_name n). split; [apply output_result|apply result_output].
  - intros n m o R S. apply result_output in R, S. apply output_inj. congruence.
Qed.
