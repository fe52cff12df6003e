(** The harmonization tool: the files it writes. *)
From Coq Require Import Ascii Permutation.
From Verif Require Import Base BaseFacts UtilsModel CharModel RepSpec RepProofs VariantProofs MetaModel MetaSpec RefModel LgrModel LgrSpec LgrProofs LgrInv LgrTags LgrRefs LgrMirror LgrReach
  CompareSpec PopulateModel PopulateSpec Rfc7940Model ValidateModel ValidateSpec LabelModel ClassModel RuleModel SerialModel SerialSpec SerialProofs SerialFinal SerialWitness
  RulesXmlModel RulesXmlSpec DocModel ReadySpec DocFinal AgainSpec AgainRead ForceProofs HarmonizeModel HarmonizeSpec HarmonizeProofs HarmonizeFinal HarmonizeCopy PopToolModel PopToolProofs HarmToolModel HarmToolSpec HarmToolProofs.
Open Scope string_scope.
Open Scope list_scope.

Section Tool.
  Variable lang : cps -> option bool.
  Variable dig : N -> bool.
  Hypothesis Hdig : dig 46%N = false.
  Hypothesis Hascii : forall c, ascii_digit c = true -> dig c = true.
  Variable fuel : nat.
  Variable order : list cps -> list cps.
  Hypothesis Po : rearranges order.
  Variable library : string -> document.
  Variable schema : option (document -> bool).
  Variable db : option database.
  Notation tool := (harmonize_tool lang dig fuel order library schema db).
  Notation sound := (sound_document lang dig db fuel).
  Notation reads d x := (read_document lang dig db fuel false false d = Ok (Some x)).

  Lemma sound_guaranteed : forall d x, sound d x -> guaranteed (ld_lgr x) /\ covers (fits (option_map fst db)) (lg_rep (ld_lgr x)).
  Proof.
    intros d x [R [P _]]. destruct (read_writable lang dig Hdig Hascii db fuel false d x R P) as [_ [_ [W3 [W4 [W5 [_ [W7 _]]]]]]].
    split; [|apply admits_covers; exact W7]. split; [exact W3|]. split; [exact W4|]. intros c ch L. apply (W5 c ch). rewrite lookup_lk. exact L.
  Qed.
  Lemma marked_metadata : forall m m', same_metadata (harmonized_metadata m) m' -> marked m m'.
  Proof.
    intros m m' [M1 [M2 [M3 [M4 [M5 [M6 [M7 M8]]]]]]]. cbn in M1, M2, M3, M4, M5, M6, M7, M8. split; [|split; [intro E; rewrite M1, E; reflexivity|auto 10]].
    intros v E. rewrite E in M1. exists (harmonized_version v). split; [exact M1|]. split; [reflexivity|]. unfold harmonized_version. cbn [ver_comment]. split.
    - intros [|c t] Ec Nc; [congruence|]. rewrite Ec. reflexivity.
    - intros [->| ->]; reflexivity.
  Qed.
  Lemma harmonized_writable : forall m, meta_writable lang dig m -> meta_writable lang dig (harmonized_metadata m).
  Proof. intros m H. exact H. Qed.

  (** One of the files. *)
  Lemma file_read : forall d x h, sound d x -> guaranteed h -> covers (fits (option_map fst db)) (lg_rep h) -> nothing_removed (ld_lgr x) h ->
    exists x', reads (write_document (harmonized_loaded x h)) x' /\ carried_over x x' /\ same_repertoire h (ld_lgr x').
  Proof.
    intros d x h [R [P [Q O]]] [G1 [G2 G3]] C [N1 [N2 [N3 N4]]].
    pose proof (proj1 (read_writable lang dig Hdig Hascii db fuel false d x R P)) as W1.
    assert (W5 : tags_writable h) by (intros c ch L; rewrite lookup_lk in L; exact (G3 c ch L)).
    destruct (again_meta lang dig Hdig Hascii db fuel false d x h (harmonized_metadata (ld_meta x)) R P Q O (harmonized_writable _ W1) G1 G2 W5 N1 N2 (proj2 (admits_covers _ _) C) (write_document (harmonized_loaded x h)) eq_refl) as [x' [X1 [X2 [X3 [X4 [X5 _]]]]]].
    exists x'. split; [exact X1|]. split; [|exact X3]. split.
    - apply marked_metadata. exact X2.
    - exact X4.
    - exact X5.
    - intros a ch L. destruct (N3 a ch L) as [c [L1 S1]]. pose proof (X3 a) as S2. rewrite L1 in S2. destruct (lookup (lg_rep (ld_lgr x')) a) as [c'|]; [|contradiction]. exists c'. split; [reflexivity|].
        destruct S2 as [S2 _]. unfold same_but_range in *. clear - S1 S2. destruct S1 as [? [? [? [? [? [? ?]]]]]], S2 as [? [? [? [? [? [? ?]]]]]]. repeat split; congruence.
    - intros a b T. apply (sr_target _ _ X3). apply N4. exact T.
  Qed.
  Lemma completed_same : forall r s t t', completed r s (lg_rep t) -> same_repertoire t t' -> completed r s (lg_rep t').
  Proof.
    intros r s t t' C S. split.
    - intro a. rewrite (sr_lookup _ _ S). apply (co_entries _ _ _ C).
    - exact (sr_symmetric _ _ S (co_symmetric _ _ _ C)).
    - exact (sr_transitive _ _ S (co_transitive _ _ _ C)).
    - intros a b N. rewrite (sr_target _ _ S). apply (co_related _ _ _ C). exact N.
    - intro a. rewrite (sr_target _ _ S). apply (co_itself _ _ _ C).
  Qed.
  Lemma accepted_parse : forall f x, accepted schema (library f) -> sound (library f) x -> parse lang dig fuel library schema db f = Ok (Some x).
  Proof.
    intros f x A [R _]. apply strict_is_tolerant in R. unfold parse, parse_lgr. destruct schema as [valid|]; cbn [option_map]; [rewrite (A valid eq_refl)|]; exact R.
  Qed.
  Definition said (l1 l2 : list cps) : list cps :=
    [txt "Manual review needed for code points from first LGR:"] ++ l1 ++ [txt "Manual review needed for code points from second LGR:"] ++ l2.

  (** The root zone, when one is used. *)
  Definition root_sound (root : option string) (z : option loaded) : Prop :=
    match root with None => z = None | Some f => f <> "" /\ accepted schema (library f) /\ exists x, z = Some x /\ sound (library f) x end.
  Lemma root_parse : forall root z, root_sound root z -> parse_root lang dig fuel library schema db root = Ok z /\
    (forall g, option_map ld_lgr z = Some g -> guaranteed g /\ covers (fits (option_map fst db)) (lg_rep g)).
  Proof.
    intros [f|] z K; cbn [root_sound parse_root] in *; [|subst z; split; [reflexivity|discriminate]]. destruct K as [N [A [x [-> S]]]].
    destruct (String.eqb_spec f "") as [E|_]; [congruence|]. split; [apply accepted_parse; assumption|]. intros g E. injection E as <-. exact (sound_guaranteed _ _ S).
  Qed.
  Theorem tool_runs : forall first second root dir x1 x2 z, accepted schema (library first) -> accepted schema (library second) -> sound (library first) x1 -> sound (library second) x2 -> root_sound root z ->
    exists h1 h2 r1 r2 k1 k2, harmonize order (ld_lgr x1) (ld_lgr x2) (option_map ld_lgr z) = Ok (h1, h2, (r1, r2)) /\ lines_for r1 k1 /\ lines_for r2 k2 /\
      tool first second root dir = (dset String.eqb (output_name (base_name second)) (write_document (harmonized_loaded x2 h2))
        (dset String.eqb (output_name (base_name first)) (write_document (harmonized_loaded x1 h1)) dir), Ok (said k1 k2)) /\
      (exists x', reads (write_document (harmonized_loaded x1 h1)) x' /\ carried_over x1 x' /\ same_repertoire h1 (ld_lgr x')) /\
      (exists x', reads (write_document (harmonized_loaded x2 h2)) x' /\ carried_over x2 x' /\ same_repertoire h2 (ld_lgr x')).
  Proof.
    intros first second root dir x1 x2 z A1 A2 S1 S2 Sz. destruct (sound_guaranteed _ _ S1) as [G1 C1]. destruct (sound_guaranteed _ _ S2) as [G2 C2]. destruct (root_parse _ _ Sz) as [Pz Gz].
    pose proof (guaranteed_tidy _ G1) as T1. pose proof (guaranteed_tidy _ G2) as T2.
    destruct (harmonize_succeeds order (ld_lgr x1) (ld_lgr x2) (option_map ld_lgr z) Po T1 T2) as [[[h1 h2] [r1 r2]] E].
    { intros g Eg. destruct (Gz g Eg) as [G _]. split; [apply guaranteed_tidy; exact G|apply proper_plain; apply G]. }
    { apply proper_plain. apply G1. }
    { apply proper_plain. apply G2. }
    destruct (harmonize_kept guaranteed guaranteed_kept _ _ _ _ _ _ _ E G1 G2 (fun g Eg => proj1 (Gz g Eg))) as [K1 K2].
    destruct (harmonize_covers order (fits (option_map fst db)) _ _ _ _ _ _ Po T1 T2 (fun g Eg => conj (guaranteed_tidy _ (proj1 (Gz g Eg))) (proj2 (Gz g Eg))) E C1 C2) as [V1 V2].
    destruct (harmonize_removes_nothing order _ _ _ _ _ _ Po T1 T2 (fun g Eg => guaranteed_tidy _ (proj1 (Gz g Eg))) E) as [N1 N2].
    exists h1, h2, r1, r2, (map review_line (order r1)), (map review_line (order r2)). split; [exact E|]. split; [exists (order r1); split; [apply Po|reflexivity]|]. split; [exists (order r2); split; [apply Po|reflexivity]|].
    split; [|split; eapply file_read; eassumption].
    unfold harmonize_tool. rewrite (accepted_parse _ _ A1 S1), (accepted_parse _ _ A2 S2), Pz. cbn [bind harmonize_parsed]. rewrite E. reflexivity.
  Qed.
  Lemma two_files : forall (a b : string) (d e : document) dir, a <> b ->
    dget String.eqb a (dset String.eqb b e (dset String.eqb a d dir)) = Some d /\ dget String.eqb b (dset String.eqb b e (dset String.eqb a d dir)) = Some e /\
    forall n, n <> a -> n <> b -> dget String.eqb n (dset String.eqb b e (dset String.eqb a d dir)) = dget String.eqb n dir.
  Proof.
    intros a b d e dir N. repeat split; [| |intros n Na Nb]; rewrite ?(dget_dset _ string_eqb_iff).
    - destruct (String.eqb_spec a b); [congruence|]. rewrite String.eqb_refl. reflexivity.
    - rewrite String.eqb_refl. reflexivity.
    - destruct (String.eqb_spec n b); [congruence|]. destruct (String.eqb_spec n a); [congruence|]. reflexivity.
  Qed.
  Theorem tool_writes : forall first second n1 n2 o1 o2 dir x1 x2, accepted schema (library first) -> accepted schema (library second) -> sound (library first) x1 -> sound (library second) x2 ->
    file_name first n1 -> file_name second n2 -> n1 <> n2 -> result_name n1 o1 -> result_name n2 o2 ->
    exists dir' d1 d2 x1' x2' r1 r2 k1 k2, tool first second None dir = (dir', Ok (said k1 k2)) /\
      dget String.eqb o1 dir' = Some d1 /\ dget String.eqb o2 dir' = Some d2 /\ (forall n, n <> o1 -> n <> o2 -> dget String.eqb n dir' = dget String.eqb n dir) /\
      reads d1 x1' /\ carried_over x1 x1' /\ completed (lg_rep (ld_lgr x1)) (lg_rep (ld_lgr x2)) (lg_rep (ld_lgr x1')) /\
      reads d2 x2' /\ carried_over x2 x2' /\ completed (lg_rep (ld_lgr x2)) (lg_rep (ld_lgr x1)) (lg_rep (ld_lgr x2')) /\
      only_in (lg_rep (ld_lgr x1)) (lg_rep (ld_lgr x2)) r1 /\ lines_for r1 k1 /\ only_in (lg_rep (ld_lgr x2)) (lg_rep (ld_lgr x1)) r2 /\ lines_for r2 k2.
  Proof.
    intros first second n1 n2 o1 o2 dir x1 x2 A1 A2 S1 S2 F1 F2 NE R1 R2. apply base_file in F1, F2. apply result_output in R1, R2. subst n1 n2.
    destruct (tool_runs first second None dir x1 x2 None A1 A2 S1 S2 eq_refl) as [h1 [h2 [r1 [r2 [k1 [k2 [E [L1 [L2 [T [[x1' [X1 [X2 X3]]] [x2' [Y1 [Y2 Y3]]]]]]]]]]]]]].
    destruct (harmonize_ok order _ _ h1 h2 r1 r2 Po (guaranteed_tidy _ (proj1 (sound_guaranteed _ _ S1))) (guaranteed_tidy _ (proj1 (sound_guaranteed _ _ S2))) E) as [_ [_ [K1 [K2 [O1 O2]]]]].
    assert (NO : o1 <> o2) by (subst o1 o2; intro Q; apply NE; apply output_inj; exact Q). rewrite <- R1, <- R2 in T.
    destruct (two_files o1 o2 (write_document (harmonized_loaded x1 h1)) (write_document (harmonized_loaded x2 h2)) dir NO) as [D1 [D2 D3]].
    eexists _, _, _, x1', x2', r1, r2, k1, k2. split; [exact T|]. split; [exact D1|]. split; [exact D2|]. split; [exact D3|].
    split; [exact X1|]. split; [exact X2|]. split; [exact (completed_same _ _ _ _ K1 X3)|]. split; [exact Y1|]. split; [exact Y2|]. split; [exact (completed_same _ _ _ _ K2 Y3)|]. auto.
  Qed.
  (** With the root zone: both results agree. *)
  Theorem tool_agrees : forall first second root zx n1 n2 o1 o2 dir x1 x2, accepted schema (library first) -> accepted schema (library second) -> accepted schema (library root) -> root <> "" ->
    sound (library first) x1 -> sound (library second) x2 -> sound (library root) zx ->
    file_name first n1 -> file_name second n2 -> n1 <> n2 -> result_name n1 o1 -> result_name n2 o2 ->
    exists dir' d1 d2 x1' x2' m1 m2 k1 k2, tool first second (Some root) dir = (dir', Ok (said k1 k2)) /\
      dget String.eqb o1 dir' = Some d1 /\ dget String.eqb o2 dir' = Some d2 /\ (forall n, n <> o1 -> n <> o2 -> dget String.eqb n dir' = dget String.eqb n dir) /\
      reads d1 x1' /\ carried_over x1 x1' /\ reads d2 x2' /\ carried_over x2 x2' /\
      completed (lg_rep (ld_lgr x1)) (lg_rep (ld_lgr zx)) m1 /\ completed (lg_rep (ld_lgr x2)) (lg_rep (ld_lgr zx)) m2 /\
      completed m1 m2 (lg_rep (ld_lgr x1')) /\ completed m2 m1 (lg_rep (ld_lgr x2')) /\
      (exists r1 r2, only_in m1 m2 r1 /\ lines_for r1 k1 /\ only_in m2 m1 r2 /\ lines_for r2 k2) /\
      (forall a b, a <> b -> lookup (lg_rep (ld_lgr x1')) a <> None -> lookup (lg_rep (ld_lgr x2')) a <> None ->
         (has_target (lg_rep (ld_lgr x1')) a b <-> has_target (lg_rep (ld_lgr x2')) a b)).
  Proof.
    intros first second root zx n1 n2 o1 o2 dir x1 x2 A1 A2 Az NR S1 S2 Sz F1 F2 NE R1 R2. apply base_file in F1, F2. apply result_output in R1, R2. subst n1 n2.
    assert (RS : root_sound (Some root) (Some zx)) by (split; [exact NR|split; [exact Az|exists zx; auto]]).
    destruct (tool_runs first second (Some root) dir x1 x2 (Some zx) A1 A2 S1 S2 RS) as [h1 [h2 [r1 [r2 [k1 [k2 [E [L1 [L2 [T [[x1' [X1 [X2 X3]]] [x2' [Y1 [Y2 Y3]]]]]]]]]]]]]].
    pose proof (guaranteed_tidy _ (proj1 (sound_guaranteed _ _ S1))) as T1. pose proof (guaranteed_tidy _ (proj1 (sound_guaranteed _ _ S2))) as T2. pose proof (guaranteed_tidy _ (proj1 (sound_guaranteed _ _ Sz))) as T3.
    destruct (harmonize_root_ok order _ _ _ h1 h2 r1 r2 Po T1 T2 T3 E) as [m1 [m2 [K1 [K2 [K3 [K4 [O1 O2]]]]]]].
    pose proof (harmonize_root_agree order _ _ _ h1 h2 _ Po T1 T2 T3 E) as AG.
    assert (NO : o1 <> o2) by (subst o1 o2; intro Q; apply NE; apply output_inj; exact Q). rewrite <- R1, <- R2 in T.
    destruct (two_files o1 o2 (write_document (harmonized_loaded x1 h1)) (write_document (harmonized_loaded x2 h2)) dir NO) as [D1 [D2 D3]].
    eexists _, _, _, x1', x2', (lg_rep m1), (lg_rep m2), k1, k2. split; [exact T|]. split; [exact D1|]. split; [exact D2|]. split; [exact D3|].
    split; [exact X1|]. split; [exact X2|]. split; [exact Y1|]. split; [exact Y2|]. split; [exact K1|]. split; [exact K2|].
    split; [exact (completed_same _ _ _ _ K3 X3)|]. split; [exact (completed_same _ _ _ _ K4 Y3)|]. split; [exists r1, r2; auto|].
    intros a b N Ha Hb. rewrite (sr_target _ _ X3), (sr_target _ _ Y3). apply AG; [exact N|apply (sr_lookup _ _ X3); exact Ha|apply (sr_lookup _ _ Y3); exact Hb].
  Qed.
End Tool.

Section Fails.
  Variable lang : cps -> option bool.
  Variable dig : N -> bool.
  Variable fuel : nat.
  Variable order : list cps -> list cps.
  Variable library : string -> document.
  Variable schema : option (document -> bool).
  Variable db : option database.
  Notation tool := (harmonize_tool lang dig fuel order library schema db).
  (** A failure leaves the directory alone. *)
  Theorem tool_fails : forall first second root dir dir' e, tool first second root dir = (dir', Raise e) -> dir' = dir.
  Proof.
    intros first second root dir dir' e E. unfold harmonize_tool in E. destruct (bind _ _) as [[[h1 h2] [l1 l2]]|e']; [discriminate|]. injection E as <- _. reflexivity.
  Qed.
  Lemma refused_parse : forall valid f, schema = Some valid -> valid (library f) = false -> parse lang dig fuel library schema db f = Ok None.
  Proof. intros valid f S V. unfold parse, parse_lgr. rewrite S. cbn [option_map]. rewrite V. reflexivity. Qed.
  (** An LGR the schema refuses makes the tool fail with an error of its own... *)
  Theorem tool_refused : forall valid first second dir, schema = Some valid -> valid (library first) = false ->
    (exists p, parse lang dig fuel library schema db second = Ok p) -> tool first second None dir = (dir, Raise TypeError).
  Proof. intros valid first second dir S V [p P]. unfold harmonize_tool. rewrite (refused_parse valid first S V), P. reflexivity. Qed.
  (** ... but a root zone it refuses is left out, without a word. *)
  Theorem tool_root_ignored : forall valid first second root dir, schema = Some valid -> valid (library root) = false -> tool first second (Some root) dir = tool first second None dir.
  Proof.
    intros valid first second root dir S V. unfold harmonize_tool, parse_root at 1. pose proof (refused_parse valid root S V) as P. destruct (String.eqb root ""); [reflexivity|]. rewrite P. reflexivity.
  Qed.
  (** Files with the same name: one result is lost. *)
  Theorem tool_same_name : forall first second root dir dir' n o lines, file_name first n -> file_name second n -> result_name n o -> tool first second root dir = (dir', Ok lines) ->
    forall m, m <> o -> dget String.eqb m dir' = dget String.eqb m dir.
  Proof.
    intros first second root dir dir' n o lines F1 F2 R E m N. apply base_file in F1, F2. apply result_output in R. unfold harmonize_tool in E. destruct (bind _ _) as [[[h1 h2] [l1 l2]]|e']; [|discriminate]. injection E as <- _.
    rewrite !(dget_dset _ string_eqb_iff), <- F1, <- F2, <- R. destruct (String.eqb_spec m o); [congruence|reflexivity].
  Qed.
End Fails.
