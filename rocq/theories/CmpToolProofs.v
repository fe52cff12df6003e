From Coq Require Import Permutation.
From Verif Require Import Base BaseFacts CharModel RepSpec RepProofs UtilsModel RefModel RefSpec RefProofs ActionModel LgrModel LgrSpec LgrProofs LgrReach LgrRefs
  PopulateModel PopulateSpec PopulateProofs MetaModel MetaSpec CompareModel CompareSpec CompareProofs CompareFinal SerialModel SerialSpec SerialFinal AgainRead
  CmpToolModel CmpToolSpec.
Open Scope string_scope.
Open Scope list_scope.

(** ** What the combination builds *)
Definition making (R : refman) (g : lgr) : Prop := proper g /\ lg_refs g = R.
Lemma making_add_cp : forall R g c cm rf tg w nw vr, making R g -> making R (fst (lgr_add_cp g c cm rf tg w nw vr false false)).
Proof.
  intros R g c cm rf tg w nw vr [H HR]. pose proof (pr_step g (LAddCp c cm rf tg w nw vr false false) H I eq_refl) as K. pose proof (step_refs g (LAddCp c cm rf tg w nw vr false false)) as S.
  cbn [lgr_step] in K, S. destruct (lgr_add_cp _ _ _ _ _ _ _ _ _ _). cbn [fst] in *. split; [exact K|congruence].
Qed.
Lemma making_put : forall R g c v t w nw cm rf, making R g -> making R (fst (put_variant g c v t w nw cm rf)).
Proof.
  intros R g c v t w nw cm rf [H HR]. pose proof (pr_step g (LAddVariant c v t w nw cm rf None false false) H I eq_refl) as K. pose proof (step_refs g (LAddVariant c v t w nw cm rf None false false)) as S.
  cbn [lgr_step] in K, S. unfold put_variant. destruct (lgr_add_variant _ _ _ _ _ _ _ _ _ _ _). cbn [fst] in *. split; [exact K|congruence].
Qed.
Lemma andthen_making : forall R (p : lgr * res unit) f, making R (fst p) -> (forall g, making R g -> making R (fst (f g))) -> making R (fst (andthen p f)).
Proof. intros R [g [u|e]] f H K; cbn [andthen fst] in *; [apply K; exact H|exact H]. Qed.
Lemma each_variant_making : forall R vs g c, making R g -> making R (fst (each_variant copy_variant g c vs)).
Proof.
  intro R. induction vs as [|v vs IH]; intros g c H; cbn [each_variant]; [exact H|].
  apply andthen_making; [apply making_put; exact H|]. intros. apply IH. assumption.
Qed.
Lemma add_entry_making : forall R g c cm tg w nw vs, making R g -> making R (fst (add_entry g c cm tg w nw vs)).
Proof. intros. unfold add_entry. apply andthen_making; [apply making_add_cp; assumption|]. intros. apply each_variant_making. assumption. Qed.
Lemma each_cp_making : forall R f l g, (forall g c, making R g -> making R (fst (f g c))) -> making R g -> making R (fst (each_cp f g l)).
Proof.
  intros R f l. induction l as [|c l IH]; intros g Hf H; cbn [each_cp]; [exact H|]. apply andthen_making; [apply Hf; exact H|]. intros. apply IH; assumption.
Qed.
Lemma union_making : forall R o g1 g2 g, making R g -> making R (fst (union_repertoire o g1 g2 g)).
Proof.
  intros. unfold union_repertoire. cbv zeta. apply andthen_making; [|intros ? ?; apply andthen_making; [|intros ? ?]]; (apply each_cp_making; [|assumption]); intros gc c Hc.
  - unfold with_chars. destruct (lgr_get_char g1 c); [|exact Hc]. destruct (lgr_get_char g2 c); [|exact Hc]. apply add_entry_making. exact Hc.
  - unfold with_char. destruct (lgr_get_char g1 c); [|exact Hc]. apply add_entry_making. exact Hc.
  - unfold with_char. destruct (lgr_get_char g2 c); [|exact Hc]. apply add_entry_making. exact Hc.
Qed.
Lemma inter_making : forall R o g1 g2 g, making R g -> making R (fst (intersect_repertoire o g1 g2 g)).
Proof.
  intros. unfold intersect_repertoire. apply each_cp_making; [|assumption]. intros gc c Hc.
  unfold with_chars. destruct (lgr_get_char g1 c); [|exact Hc]. destruct (lgr_get_char g2 c); [|exact Hc]. apply add_entry_making. exact Hc.
Qed.

(** The references: numbered by the LGR, without comments. *)
Definition numbered_refs (m : refman) : Prop :=
  dget String.eqb "" (rm_refs m) = None /\ forall id r, dget String.eqb id (rm_refs m) = Some r -> ref_comment r = None.
Lemma add_references_proper : forall l g m, proper g -> add_references (lg_refs g) l = Ok m -> proper (set_refs g m).
Proof.
  induction l as [|v l IH]; intros g m Hg H; cbn [add_references] in H.
  - injection H as <-. destruct g; exact Hg.
  - destruct (rm_add (lg_refs g) v None None) as [m1 [id|e]] eqn:E; [|discriminate].
    pose proof (pr_step g (LAddReference v None None) Hg I I) as Hs. cbn [lgr_step] in Hs. unfold lgr_add_reference in Hs. rewrite E in Hs. cbn [fst] in Hs.
    specialize (IH (set_refs g m1) m Hs). cbn [set_refs lg_refs] in IH. destruct g. exact (IH H).
Qed.
Lemma add_references_numbered : forall l m m', numbered_refs m -> add_references m l = Ok m' -> numbered_refs m'.
Proof.
  induction l as [|v l IH]; intros m m' N H; cbn [add_references] in H; [injection H as <-; exact N|].
  destruct (rm_add m v None None) as [m1 [id|e]] eqn:E; [|discriminate]. refine (IH m1 m' _ H). clear IH H.
  unfold rm_add in E. destruct (next_free _ _ _) as [z|]; [|discriminate]. injection E as <- <-. destruct N as [N1 N2]. split; cbn [rm_refs].
  - rewrite (dget_dset _ string_eqb_iff). destruct (String.eqb "" (str_Z z)) eqn:K; [|exact N1]. apply String.eqb_eq in K. exfalso. exact (AgainRead.str_Z_nonempty z (eq_sym K)).
  - intros i r. rewrite (dget_dset _ string_eqb_iff). destruct (String.eqb i (str_Z z)); [intro K; injection K as <-; reflexivity|apply N2].
Qed.
Definition built (d : doc) : Prop := proper (doc_lgr d) /\ numbered_refs (lg_refs (doc_lgr d)).
Lemma start_making : forall l m, add_references empty_refman l = Ok m -> making m (set_refs (new_lgr None false) m) /\ numbered_refs m.
Proof.
  intros l m H. split; [split; [|reflexivity]|].
  - apply (add_references_proper l (new_lgr None false) m); [constructor|exact H].
  - refine (add_references_numbered l _ m _ H). split; [reflexivity|]. intros id r K. discriminate.
Qed.
Lemma union_built : forall o today d1 d2 d, union_is o today d1 d2 d -> built d.
Proof.
  intros o today d1 d2 d [d1' [d2' H]]. unfold union_lgrs, combine_lgrs in H.
  destruct (lgr_expand_ranges (doc_lgr d1)) as [g1 [[]|e]]; [|discriminate]. destruct (lgr_expand_ranges (doc_lgr d2)) as [g2 [[]|e]]; [|discriminate].
  injection H as _ _ H. unfold union_body in H. destruct (add_references _ _) as [m|] eqn:A; [|discriminate]. cbn [bind] in H.
  destruct (start_making _ _ A) as [M N]. apply (union_making m o (doc_lgr (set_doc_lgr d1 g1)) (doc_lgr (set_doc_lgr d2 g2))) in M.
  destruct (union_repertoire _ _ _ _) as [g [[]|e]]; [|discriminate]. destruct (union_actions _ _) as [acts acts_xml].
  destruct (union_names _ _ _ _ _) as [rules|]; [|discriminate]. cbn [bind] in H. destruct (union_names _ _ _ _ _) as [classes|]; [|discriminate]. cbn [bind] in H.
  injection H as <-. cbn [fst] in M. destruct M as [M1 M2]. split; cbn [doc_lgr]; [exact M1|rewrite M2; exact N].
Qed.
Lemma inter_built : forall o today d1 d2 d, intersection_is o today d1 d2 d -> built d.
Proof.
  intros o today d1 d2 d [d1' [d2' H]]. unfold intersect_lgrs, combine_lgrs in H.
  destruct (lgr_expand_ranges (doc_lgr d1)) as [g1 [[]|e]]; [|discriminate]. destruct (lgr_expand_ranges (doc_lgr d2)) as [g2 [[]|e]]; [|discriminate].
  injection H as _ _ H. unfold intersect_body in H. destruct (add_references _ _) as [m|] eqn:A; [|discriminate]. cbn [bind] in H.
  destruct (start_making _ _ A) as [M N]. apply (inter_making m o (doc_lgr (set_doc_lgr d1 g1)) (doc_lgr (set_doc_lgr d2 g2))) in M.
  destruct (intersect_repertoire _ _ _ _) as [g [[]|e]]; [|discriminate]. destruct (intersect_actions _ _ _) as [acts|]; [|discriminate]. cbn [bind] in H.
  destruct (intersect_names _ _ _ _ _) as [rules|]; [|discriminate]. cbn [bind] in H. destruct (intersect_names _ _ _ _ _) as [classes|]; [|discriminate]. cbn [bind] in H.
  injection H as <-. cbn [fst] in M. destruct M as [M1 M2]. split; cbn [doc_lgr]; [exact M1|rewrite M2; exact N].
Qed.

(** ** Metadata *)
Lemma compare_pick : forall pick a b (P : cps -> Prop), (forall x y, pick x y = x \/ pick x y = y) -> (forall s, a = Some s -> P s) -> (forall s, b = Some s -> P s) ->
  forall s, compare_objects pick a b = Some s -> P s.
Proof.
  intros pick [a|] [b|] P Hp Ha Hb s H; cbn [compare_objects] in H; try discriminate; injection H as <-; auto. destruct (Hp a b) as [->| ->]; auto.
Qed.
Lemma max_pick : forall x y, text_max x y = x \/ text_max x y = y.
Proof. intros. unfold text_max. destruct (text_gtb y x); auto. Qed.
Lemma min_pick : forall x y, text_min x y = x \/ text_min x y = y.
Proof. intros. unfold text_min. destruct (text_gtb x y); auto. Qed.
Lemma in_text : forall (c : N) a b, ~ In c a -> ~ In c b -> ~ In c (a ++ b).
Proof. intros c a b H K J. apply in_app_or in J. tauto. Qed.
Lemma no13 : forall s : cps, existsb (N.eqb 13) s = false -> ~ In 13%N s.
Proof. intros s H K. assert (E : existsb (N.eqb 13) s = true) by (apply existsb_exists; exists 13%N; split; [exact K|reflexivity]). congruence. Qed.

Definition fair_description (d : description) : Prop :=
  (desc_value d <> [] \/ exists t, desc_type d = Some t /\ t <> txt "text/plain") /\ ~ In 13%N (desc_value d) /\ forall t, desc_type d = Some t -> ~ In 13%N t.
Lemma both_fair : forall dot a b t, ~ In 13%N dot -> ~ In 13%N (txt t) -> fair_description a -> fair_description b -> fair_description (mkDesc (both_descriptions dot a b) (Some (txt t))).
Proof.
  intros dot a b t Hd Ht [_ [A1 A2]] [_ [B1 B2]].
  assert (S : forall x, (forall t, desc_type x = Some t -> ~ In 13%N t) -> ~ In 13%N (shown_type (desc_type x))).
  { intros x Hx. unfold shown_type. destruct (desc_type x) as [s|]; [apply Hx; reflexivity|]. apply no13. reflexivity. }
  split; [left; discriminate|]. split; cbn [desc_value desc_type].
  - unfold both_descriptions. repeat apply in_text; auto; apply no13; reflexivity.
  - intros s E. injection E as <-. exact Ht.
Qed.
Lemma union_description_fair : forall a b d, (forall x, a = Some x -> fair_description x) -> (forall x, b = Some x -> fair_description x) ->
  union_description a b = Some d -> fair_description d.
Proof.
  intros [a|] [b|] d Ha Hb H; cbn [union_description] in H; try discriminate; auto; try (injection H as <-; auto).
  specialize (Ha _ eq_refl). specialize (Hb _ eq_refl). destruct (description_eqb a b); [injection H as <-; exact Ha|].
  destruct (is_html a && is_html b); injection H as <-.
  - destruct Ha as [_ [A1 _]], Hb as [_ [B1 _]]. split; [right; eexists; split; [reflexivity|discriminate]|]. split; cbn [desc_value desc_type].
    + apply in_text; [exact A1|]. intros [K|K]; [discriminate|exact (B1 K)].
    + intros s E. injection E as <-. apply no13. reflexivity.
  - apply (both_fair (txt "':") a b "text/enriched"); auto; apply no13; reflexivity.
Qed.
Lemma intersect_description_fair : forall a b d, (forall x, a = Some x -> fair_description x) -> (forall x, b = Some x -> fair_description x) ->
  intersect_description a b = Some d -> fair_description d.
Proof.
  intros [a|] [b|] d Ha Hb H; cbn [intersect_description] in H; try discriminate; try (injection H as <-; auto).
  specialize (Ha _ eq_refl). specialize (Hb _ eq_refl). destruct (otext_eqb (desc_type a) (desc_type b)) eqn:E; injection H as <-.
  - destruct Ha as [A0 [A1 A2]], Hb as [_ [B1 _]]. unfold choose_value. destruct (cps_eqb (desc_value a) (desc_value b)).
    + split; [exact A0|]. split; [exact A1|exact A2].
    + split; [left; cbn [desc_value]; destruct (desc_value a); discriminate|]. split; cbn [desc_value desc_type]; [|exact A2]. apply in_text; [exact A1|]. intros [K|K]; [discriminate|exact (B1 K)].
  - apply (both_fair (txt "'.") a b "text/enriched"); auto; apply no13; reflexivity.
Qed.

Section Readers.
  Variable lang : cps -> option bool.
  Variable dig : N -> bool.
  Definition fair_meta (m : metadata) : Prop := meta_writable lang dig m /\ neat_type m.
  Lemma fair_meta_iff : forall m, fair_meta m <->
    full_date_or_none (md_date m) /\ full_date_or_none (md_start m) /\ full_date_or_none (md_end m) /\ (exists v, md_unicode m = Some v /\ starts_with_version dig v) /\
    NoDup (md_languages m) /\ (forall l, In l (md_languages m) -> lang l = Some true) /\ forall d, md_description m = Some d -> fair_description d.
  Proof.
    intro m. unfold fair_meta, meta_writable, neat_type, fair_description. split.
    - intros [[H1 [H2 [H3 [H4 [H5 [H6 H7]]]]]] H8]. repeat (split; [assumption|]). intros d Hd. destruct (H7 d Hd) as [K1 K2]. split; [exact K1|]. split; [exact K2|]. intros t Ht. exact (H8 d t Hd Ht).
    - intros [H1 [H2 [H3 [H4 [H5 [H6 H7]]]]]]. split.
      + repeat (split; [assumption|]). intros d Hd. destruct (H7 d Hd) as [K1 [K2 _]]. auto.
      + intros d t Hd Ht. destruct (H7 d Hd) as [_ [_ K]]. auto.
  Qed.
  Lemma unicode_fair : forall a b, (exists v, a = Some v /\ starts_with_version dig v) -> (exists v, b = Some v /\ starts_with_version dig v) ->
    exists v, compare_objects text_max a b = Some v /\ starts_with_version dig v.
  Proof.
    intros a b [v [-> Hv]] [w [-> Hw]]. cbn [compare_objects]. exists (text_max v w). split; [reflexivity|]. destruct (max_pick v w) as [->| ->]; assumption.
  Qed.
  Lemma union_fair : forall o today m1 m2, permutes o -> full_date today -> fair_meta m1 -> fair_meta m2 -> fair_meta (union_metadata o today m1 m2).
  Proof.
    intros o today m1 m2 [Pc _] Ht H1 H2. apply fair_meta_iff in H1. apply fair_meta_iff in H2. apply fair_meta_iff.
    destruct H1 as [A1 [A2 [A3 [A4 [A5 [A6 A7]]]]]], H2 as [B1 [B2 [B3 [B4 [B5 [B6 B7]]]]]].
    unfold union_metadata. cbn [md_date md_start md_end md_unicode md_languages md_description].
    split; [intros s E; injection E as <-; exact Ht|]. split; [exact (compare_pick _ _ _ _ max_pick A2 B2)|]. split; [exact (compare_pick _ _ _ _ min_pick A3 B3)|].
    split; [apply unicode_fair; assumption|]. split; [apply (perm_NoDup _ _ Pc); apply (dedup_NoDup _ _ cps_eqb_eq)|].
    split; [intros l Hl; apply (proj1 (perm_In _ _ Pc _ _)) in Hl; apply (set_union_In _ cps_eqb_eq) in Hl; destruct Hl; auto|].
    intros d Hd. destruct (md_description m1) as [a|] eqn:E; [|discriminate]. exact (union_description_fair _ _ _ A7 B7 Hd).
  Qed.
  Lemma inter_fair : forall o today m1 m2, permutes o -> full_date today -> fair_meta m1 -> fair_meta m2 -> fair_meta (intersect_metadata o today m1 m2).
  Proof.
    intros o today m1 m2 [Pc _] Ht H1 H2. apply fair_meta_iff in H1. apply fair_meta_iff in H2. apply fair_meta_iff.
    destruct H1 as [A1 [A2 [A3 [A4 [A5 [A6 A7]]]]]], H2 as [B1 [B2 [B3 [B4 [B5 [B6 B7]]]]]].
    unfold intersect_metadata. cbn [md_date md_start md_end md_unicode md_languages md_description].
    split; [intros s E; injection E as <-; exact Ht|]. split; [exact (compare_pick _ _ _ _ max_pick A2 B2)|]. split; [exact (compare_pick _ _ _ _ min_pick A3 B3)|].
    split; [apply unicode_fair; assumption|]. split; [apply (perm_NoDup _ _ Pc); unfold set_inter; apply NoDup_filter; apply (dedup_NoDup _ _ cps_eqb_eq)|].
    split; [intros l Hl; apply (proj1 (perm_In _ _ Pc _ _)) in Hl; apply (set_inter_In _ cps_eqb_eq) in Hl; destruct Hl; auto|].
    intros d Hd. exact (intersect_description_fair _ _ _ A7 B7 Hd).
  Qed.
End Readers.

(** ** Tags and code points *)
Lemma tags_from : forall o today d1 d2 d, permutes o -> input_ok d1 -> input_ok d2 -> union_is o today d1 d2 d \/ intersection_is o today d1 d2 d ->
  neat_tags (doc_lgr d1) -> neat_tags (doc_lgr d2) -> neat_tags (doc_lgr d).
Proof.
  intros o today d1 d2 d Ho I1 I2 H N1 N2 c ch t Hc Ht. assert (K : has_tag (entry_of d c) t) by (exists ch; split; [exact Hc|exact Ht]).
  assert (G : has_tag (entry_of d1 c) t \/ has_tag (entry_of d2 c) t).
  { destruct H as [H|H]; [apply (union_tags o today d1 d2 d Ho I1 I2 H) in K; exact K|apply (inter_tags o today d1 d2 d Ho I1 I2 H) in K; tauto]. }
  destruct G as [[a [E1 E2]]|[a [E1 E2]]]; [exact (N1 c a t E1 E2)|exact (N2 c a t E1 E2)].
Qed.
Lemma neat_writable : forall g, neat_tags g -> tags_writable g.
Proof.
  intros g H c ch Hc. split.
  - intro E. destruct (H c ch "" Hc) as [K _]; [rewrite E; left; reflexivity|]. apply K. reflexivity.
  - intros w Hw. apply (H c ch w Hc Hw).
Qed.
Lemma occurs_entry : forall d x, occurs (doc_lgr d) x <-> exists c, entry_of d c <> None /\ (In x c \/ exists v, has_variant (entry_of d c) v /\ In x (v_cp v)).
Proof.
  intros d x. unfold occurs, entry_of. split.
  - intros [c [ch [H1 H2]]]. exists c. split; [congruence|]. destruct H2 as [H2|[v [H2 H3]]]; [auto|]. right. exists v. split; [exists ch; auto|exact H3].
  - intros [c [H1 H2]]. destruct H2 as [H2|[v [[ch [H2 H4]] H3]]].
    + destruct (lookup (lg_rep (doc_lgr d)) c) as [ch|] eqn:E; [|congruence]. exists c, ch. auto.
    + exists c, ch. split; [exact H2|]. right. exists v. auto.
Qed.
Lemma union_occurs : forall o today d1 d2 d x, permutes o -> input_ok d1 -> input_ok d2 -> union_is o today d1 d2 d -> occurs (doc_lgr d) x -> occurs (doc_lgr d1) x \/ occurs (doc_lgr d2) x.
Proof.
  intros o today d1 d2 d x Ho I1 I2 H K. rewrite !occurs_entry in *. destruct K as [c [H1 H2]].
  pose proof (proj1 (union_codepoints o today d1 d2 d Ho I1 I2 H c) H1) as M. destruct H2 as [H2|[v [H2 H3]]].
  - destruct M as [M|M]; [left|right]; exists c; auto.
  - destruct (entry_of d2 c) as [b|] eqn:E.
    + assert (N : entry_of d2 c <> None) by congruence. apply (union_variants_of o today d1 d2 d Ho I1 I2 H c N) in H2. destruct H2 as [u [-> [Hu|[Hu _]]]]; cbn [unreferenced v_cp] in H3.
      * left. exists c. split; [destruct Hu as [a [Ha _]]; congruence|]. right. exists u. auto.
      * right. exists c. split; [exact N|]. right. exists u. auto.
    + exfalso. exact (union_first_only_variants o today d1 d2 d Ho I1 I2 H c E v H2).
Qed.
Lemma inter_occurs : forall o today d1 d2 d x, permutes o -> input_ok d1 -> input_ok d2 -> intersection_is o today d1 d2 d -> occurs (doc_lgr d) x -> occurs (doc_lgr d1) x.
Proof.
  intros o today d1 d2 d x Ho I1 I2 H K. rewrite !occurs_entry in *. destruct K as [c [H1 H2]].
  destruct (proj1 (inter_codepoints o today d1 d2 d Ho I1 I2 H c) H1) as [M _]. exists c. split; [exact M|]. destruct H2 as [H2|[v [H2 H3]]]; [auto|]. right.
  assert (V : has_vkey (entry_of d c) (vkey v)) by (exists v; auto). apply (inter_variant_keys o today d1 d2 d Ho I1 I2 H c) in V. destruct V as [[u [U1 U2]] _].
  exists u. split; [exact U1|]. unfold vkey in U2. injection U2 as U2 _ _. rewrite U2. exact H3.
Qed.

(** ** Reading back *)
Section Back.
  Variable lang : cps -> option bool.
  Variable dig : N -> bool.
  Hypothesis Hdig : dig 46%N = false.
  Lemma reads_back : forall db allow d, built d -> fair_meta lang dig (doc_meta d) -> neat_tags (doc_lgr d) -> admits db allow (doc_lgr d) ->
    reads_as lang dig db allow (serialize_lgr (doc_meta d) (doc_lgr d)) d.
  Proof.
    intros db allow d [Bp [B1 B2]] [Fm _] Nt A.
    destruct (document_roundtrip lang dig Hdig (doc_meta d) (doc_lgr d) db allow Fm) as [m [g [H1 [H2 [H3 [H4 _]]]]]].
    - intros id r E K. rewrite (B2 id r E) in K. discriminate.
    - exact Bp.
    - apply neat_writable. exact Nt.
    - unfold defined_ref. rewrite B1. intro K. destruct K; congruence.
    - exact A.
    - exists m, g. auto.
  Qed.
  Theorem union_reads_back : forall o today d1 d2 d db allow, permutes o -> full_date today -> presentable lang dig d1 -> presentable lang dig d2 ->
    union_is o today d1 d2 d -> admits db allow (doc_lgr d1) -> admits db allow (doc_lgr d2) ->
    reads_as lang dig db allow (serialize_lgr (doc_meta d) (doc_lgr d)) d.
  Proof.
    intros o today d1 d2 d db allow Ho Ht [I1 [M1 [T1 N1]]] [I2 [M2 [T2 N2]]] H A1 A2. apply reads_back.
    - exact (union_built _ _ _ _ _ H).
    - destruct (union_ok o today d1 d2 Ho I1 I2) as [x [y [z [E [_ [_ F]]]]]]. destruct H as [x' [y' E']]. rewrite E in E'. injection E' as _ _ <-.
      rewrite (uf_meta _ _ _ _ _ F). apply union_fair; try assumption; split; assumption.
    - exact (tags_from o today d1 d2 d Ho I1 I2 (or_introl H) N1 N2).
    - destruct A1 as [A1|A1]; [left; exact A1|]. destruct A2 as [A2|A2]; [left; exact A2|]. right. intros x b Hx Hb.
      destruct (union_occurs o today d1 d2 d x Ho I1 I2 H Hx); eauto.
  Qed.
  Theorem inter_reads_back : forall o today d1 d2 d db allow, permutes o -> full_date today -> presentable lang dig d1 -> presentable lang dig d2 ->
    intersection_is o today d1 d2 d -> admits db allow (doc_lgr d1) ->
    reads_as lang dig db allow (serialize_lgr (doc_meta d) (doc_lgr d)) d.
  Proof.
    intros o today d1 d2 d db allow Ho Ht [I1 [M1 [T1 N1]]] [I2 [M2 [T2 N2]]] H A1. apply reads_back.
    - exact (inter_built _ _ _ _ _ H).
    - destruct (intersect_ok o today d1 d2 Ho I1 I2) as [x [y [z [E [_ [_ F]]]]]]. destruct H as [x' [y' E']]. rewrite E in E'. injection E' as _ _ <-.
      rewrite (if_meta _ _ _ _ _ F). apply inter_fair; try assumption; split; assumption.
    - exact (tags_from o today d1 d2 d Ho I1 I2 (or_intror H) N1 N2).
    - destruct A1 as [A1|A1]; [left; exact A1|]. right. intros x b Hx Hb. exact (A1 x b (inter_occurs o today d1 d2 d x Ho I1 I2 H Hx) Hb).
  Qed.
End Back.
