From Coq Require Import Permutation Sorting.Sorted.
From Verif Require Import Base BaseFacts CharModel RepSpec RepProofs RangeProofs VariantProofs IterProofs VarSetProofs UtilsModel UtilsSpec UtilsProofs
  RefModel RefSpec RefProofs LgrModel LgrSpec LgrProofs LgrReach LgrRange LgrInv LgrTags LgrRefs Rfc7940Model ValidateModel ValidateProofs
  PopulateModel PopulateSpec PopulateProofs MetaModel MetaSpec MetaProofs MetaFinal CompareSpec CompareProofs CompareFinal SerialModel SerialSpec SerialProofs.
Open Scope string_scope.
Open Scope list_scope.

(** ** Proper LGRs *)
Lemma proper_tidy : forall g, proper g -> tidy g.
Proof. intros g H. induction H as [db al|g o H IH H1 H2]; [apply tidy_new|apply tidy_step; assumption]. Qed.
Lemma proper_ref_tidy : forall g, proper g -> ref_tidy g.
Proof.
  intros g H. induction H as [db al|g o H IH H1 H2]; [apply rt_new|]. apply rt_step; [exact IH|].
  destruct o; cbn [unforced ref_tidy_op] in *; auto; intro; congruence.
Qed.
Lemma proper_orderly : forall g, proper g -> allch orderly_char (lg_rep g).
Proof.
  intros g H. induction H as [db al|g o H IH H1 H2]; [apply allch_empty|]. apply orderly_step; [|exact IH|exact H2].
  apply lgr_reachable_wf. apply tidy_reachable. apply proper_tidy. exact H.
Qed.

(** ** Identifiers of references *)
Lemma str_Z_ok : forall z, ref_id_ok (str_Z z) = true.
Proof.
  intro z. unfold ref_id_ok, str_Z.
  assert (H : Forall (fun c => ref_char c = true /\ c < 256) (py_str_Z z)).
  { assert (Hd : forall n, Forall (fun c => ref_char c = true /\ c < 256) (digits 10 n)).
    { intro n. pose proof (digits_hex 10 n ltac:(lia)) as H. eapply Forall_impl; [|exact H]. intros c Hc. unfold hexchar in Hc.
      split; [|lia]. unfold ref_char. rewrite !orb_true_iff, !andb_true_iff, !N.leb_le. lia. }
    unfold py_str_Z. destruct z; [apply Hd|apply Hd|]. constructor; [split; [reflexivity|lia]|apply Hd]. }
  rewrite txt_untxt by (eapply Forall_impl; [|exact H]; intros c [_ Hc]; exact Hc).
  induction H as [|c l [Hc _] Hl IH]; [reflexivity|]. cbn [ref_id_ok_txt]. rewrite Hc. destruct l; [reflexivity|exact IH].
Qed.
Lemma ids_ok_step : forall g o, NoDup (dkeys (rm_refs (lg_refs g))) ->
  (forall id, dget String.eqb id (rm_refs (lg_refs g)) <> None -> ref_id_ok id = true) ->
  forall id, dget String.eqb id (rm_refs (lg_refs (fst (lgr_step g o)))) <> None -> ref_id_ok id = true.
Proof.
  intros g o Hn H id. pose proof (step_refs g o) as Hs.
  destruct o as [c cm rf tg w nw vr ov fo|c|f l cm rf tg w nw vr ov fo|f l|f l| |c v ty w nw cm rf vr ov fo|c v w nw|l cm rf tg|v c rid|ref|t|];
    try (rewrite Hs; apply H); clear Hs.
  - unfold lgr_step, lgr_add_reference. unfold rm_add. destruct rid as [i|].
    + destruct (dmem _ _ _); [apply H|]. destruct (ref_id_ok i) eqn:Ei; [|apply H]. cbn [fst set_refs lg_refs rm_refs negb].
      rewrite (dget_dset _ string_eqb_iff). destruct (String.eqb id i) eqn:E; [|apply H]. apply String.eqb_eq in E. congruence.
    + destruct (next_free _ _ _) as [n|]; [|apply H]. cbn [fst set_refs lg_refs rm_refs].
      rewrite (dget_dset _ string_eqb_iff). destruct (String.eqb id (str_Z n)) eqn:E; [|apply H].
      apply String.eqb_eq in E. subst. intros _. apply str_Z_ok.
  - unfold lgr_step, lgr_del_reference. cbn [set_rep lg_refs]. destruct (rm_del_cases (lg_refs g) ref Hn) as [[_ E]|[_ [m' [E [_ E2]]]]]; rewrite E.
    + exact (H id).
    + cbn [fst set_refs lg_refs]. rewrite E2. destruct (String.eqb id ref); [congruence|apply H].
Qed.
Lemma ids_ok : forall g, ref_tidy g -> forall id, defined_ref g id -> ref_id_ok id = true.
Proof.
  intros g H. induction H as [db al|g o H IH Ho].
  - intros id Hd. exfalso. apply Hd. reflexivity.
  - intros id Hd. eapply ids_ok_step; [|exact IH|exact Hd]. apply (ref_tidy_inv g H).
Qed.
Lemma id_spaceless : forall id, ref_id_ok id = true -> spaceless id.
Proof.
  intros id H. unfold spaceless. unfold ref_id_ok in H. revert H. generalize (txt id). intro l. induction l as [|c l IH]; intros H []; subst.
  - destruct l as [|d l]; cbn in H; [discriminate|]. discriminate.
  - apply IH; [|exact H0]. destruct l as [|d l]; [reflexivity|]. cbn [ref_id_ok_txt] in H. apply andb_true_iff in H. apply H.
Qed.
Lemma refs_writable : forall g rf, ref_tidy g -> ~ defined_ref g "" -> okrefs (lg_refs g) rf -> writable_words rf.
Proof.
  intros g rf Ht He [_ H]. split.
  - intro E. subst rf. apply He. apply H. left. reflexivity.
  - intros w Hw. apply id_spaceless. apply (ids_ok g Ht). apply H. exact Hw.
Qed.

(** ** The data section *)
Lemma written_ok : forall g db allow R ch, proper g -> tags_writable g -> ~ defined_ref g "" -> admits db allow g ->
  rm_refs R = rm_refs (lg_refs g) -> In ch (rep_iter (lg_rep g)) -> char_ok db (negb allow) R ch.
Proof.
  intros g db allow R ch Hp Ht He Hadm HR Hin. pose proof (proper_tidy g Hp) as Hti. pose proof (tidy_reachable g Hti) as Hre.
  pose proof (lgr_reachable_wf g Hre) as Hwf. pose proof (proper_ref_tidy g Hp) as Hrt. destruct (ref_tidy_inv g Hrt) as [_ Hrp].
  destruct (iter_general _ Hwf) as [_ [_ [Hsub _]]]. apply Hsub in Hin. apply in_all_chars_lk in Hin; [|exact Hwf].
  assert (Hrf : forall rf, okrefs (lg_refs g) rf -> okrefs R rf) by (intros rf [H1 H2]; split; [exact H1|rewrite HR; exact H2]).
  destruct (Hrp _ _ Hin) as [P1 P2]. pose proof (lk_wf _ _ _ Hwf Hin) as Hw.
  assert (Hval : forall c, (forall x, In x c -> occurs g x) -> valid_in db (negb allow) c).
  { intros c Hc. destruct Hadm as [Ha|Ha]; [left; rewrite Ha; reflexivity|]. right. intros x d Hx Hd. apply (Ha x d (Hc x Hx) Hd). }
  assert (Hl : lookup (lg_rep g) (ch_cp ch) = Some ch) by (rewrite lookup_lk; exact Hin).
  split.
  - exact Hw.
  - apply (proper_orderly g Hp _ _ Hin).
  - apply Hrf. exact P1.
  - eapply refs_writable; eauto.
  - eapply Ht. exact Hl.
  - intros v Hv. split; [eapply variant_cp_nonempty; eauto|]. split; [apply (proper_orderly g Hp _ _ Hin); exact Hv|].
    split; [apply Hrf; apply P2; exact Hv|]. split; [eapply refs_writable; eauto|].
    apply Hval. intros x Hx. exists (ch_cp ch), ch. split; [exact Hl|]. right. exists v. auto.
  - assert (Hcp : valid_in db (negb allow) (ch_cp ch)).
    { apply Hval. intros x Hx. exists (ch_cp ch), ch. split; [exact Hl|]. left. exact Hx. }
    destruct (ch_kind ch) as [| |f l] eqn:Ek; [exact Hcp|exact Hcp|]. intros y Hy. apply Hval. intros x [Hx|[]]. subst x.
    pose proof (tidy_rinv g Hti) as Hri. destruct (ri_mem _ Hri f l (ri_reg _ Hri _ _ _ _ Hin Ek)) as [_ [p Hpp]].
    eexists [y], _. split; [rewrite lookup_lk; apply Hpp; exact Hy|]. left. left. reflexivity.
Qed.

Lemma same_char_refl : forall ch, same_char ch ch.
Proof. intro ch. split; [apply same_entry_refl|reflexivity]. Qed.

Theorem data_roundtrip : forall g db allow R r, proper g -> tags_writable g -> ~ defined_ref g "" -> admits db allow g ->
  rm_refs R = rm_refs (lg_refs g) -> (lgr_reachable (set_refs (new_lgr db allow) R) /\ proper (set_refs (new_lgr db allow) R) /\ tag_tidy (set_refs (new_lgr db allow) R)) ->
  exists g', process_data false (set_refs (new_lgr db allow) R) r (serialize_data g) =
      (g', report_tested (report_tested (order_results [] (rep_iter (lg_rep g)) r) "char_ascending_order") "char_strict_ascending_order", Ok tt) /\
    (lgr_reachable g' /\ proper g' /\ tag_tidy g') /\ lg_db g' = db /\ lg_raise g' = negb allow /\ lg_refs g' = R /\ same_repertoire g g'.
Proof.
  intros g db allow R r Hp Ht He Hadm HR Hre0. pose proof (proper_tidy g Hp) as Hti. pose proof (tidy_reachable g Hti) as Hre.
  pose proof (lgr_reachable_wf g Hre) as Hwf. pose proof (tidy_rinv g Hti) as Hri.
  assert (Hf : filling db (negb allow) R (set_refs (new_lgr db allow) R)) by (split; [exact Hre0|]; repeat split; reflexivity).
  assert (Hemp : forall x, lk (lg_rep (set_refs (new_lgr db allow) R)) x = None) by (intros [|a x]; reflexivity).
  destruct (process_loop_ok db (negb allow) R (rep_iter (lg_rep g)) (set_refs (new_lgr db allow) R) r [] Hf) as [g' [H1 [[H2 [H3 [H4 H5]]] [H6 H7]]]].
  - intros ch Hch. eapply written_ok; eauto.
  - apply cover_disjoint; assumption.
  - intros ch x _ _. apply Hemp.
  - exists g'. split; [unfold process_data, serialize_data; rewrite H1; reflexivity|]. split; [exact H2|]. split; [exact H3|]. split; [exact H4|].
    split; [exact H5|]. intro c. rewrite !lookup_lk. destruct (lk (lg_rep g) c) as [ch|] eqn:E.
    + apply (cover_lk _ Hwf Hri) in E. destruct E as [k [Hk1 Hk2]]. destruct (H6 k c ch Hk1 Hk2) as [e' [E1 E2]]. rewrite E1. exact E2.
    + rewrite H7, Hemp; [exact I|]. intros k Hk. destruct (cover k c) as [e|] eqn:E2; [|reflexivity]. exfalso.
      assert (Hc : lk (lg_rep g) c = Some e) by (apply (cover_lk _ Hwf Hri); eauto). congruence.
Qed.

(** ** The meta section *)
Section Meta.
  Variable lang_check : cps -> option bool.
  Variable dig : N -> bool.
  Hypothesis dot_nodig : dig 46 = false.
  Notation loop := (process_meta_loop lang_check dig false).

  Lemma loop_app : forall l1 l2 m rm, loop m rm (l1 ++ l2) =
    match loop m rm l1 with (m1, rm1, Ok _) => loop m1 rm1 l2 | x => x end.
  Proof.
    induction l1 as [|e l1 IH]; intros l2 m rm; [reflexivity|]. cbn [app process_meta_loop].
    destruct (process_meta_elem lang_check dig false m rm e) as [[m1 rm1] [u|x]]; [apply IH|reflexivity].
  Qed.
  Lemma text_value : forall s, value_of (text_node s) = s.
  Proof. intros [|c s]; reflexivity. Qed.
  Lemma full_date_nonempty : forall s, full_date s -> text_node s = Some s.
  Proof. intros s [t [_ H]]. unfold written in H. destruct s as [|c s]; [|reflexivity]. cbn in H. destruct (dec 3 (d_year t / 10)); discriminate. Qed.

  Lemma loop_languages : forall l v d ls sc st en u de ck rm, NoDup (ls ++ l) -> (forall x, In x l -> lang_check x = Some true) ->
    exists ck', loop (mkMeta v d ls sc st en u de ck) rm (map (fun x => MLanguageE (text_node x)) l) =
      (mkMeta v d (ls ++ l) sc st en u de ck', rm, Ok tt).
  Proof.
    induction l as [|x l IH]; intros v d ls sc st en u de ck rm Hn Hl.
    - exists ck. rewrite app_nil_r. reflexivity.
    - cbn [map process_meta_loop process_meta_elem]. rewrite text_value. unfold md_add_language.
      rewrite (Hl x (or_introl eq_refl)). cbn [negb andb fst snd set_md_checks md_languages].
      assert (Hm : memb cps_eqb x ls = false).
      { apply (memb_false _ _ cps_eqb_eq). intro Hin. apply NoDup_app_iff in Hn. destruct Hn as [_ [_ Hd]]. apply (Hd x Hin). left. reflexivity. }
      rewrite Hm. cbn [fst snd]. unfold set_md_languages. cbn [md_version md_date md_languages md_scopes md_start md_end md_unicode md_description md_checks].
      destruct (IH v d (ls ++ [x]) sc st en u de (report_tested ck "metadata_language") rm) as [ck' E].
      + rewrite <- app_assoc. exact Hn.
      + intros y Hy. apply Hl. right. exact Hy.
      + exists ck'. rewrite <- app_assoc in E. exact E.
  Qed.
  Lemma loop_scopes : forall l v d ls sc st en u de ck rm,
    loop (mkMeta v d ls sc st en u de ck) rm (map (fun s => MScopeE (text_node (sc_value s)) (sc_type s)) l) =
      (mkMeta v d ls (sc ++ l) st en u de ck, rm, Ok tt).
  Proof.
    induction l as [|x l IH]; intros v d ls sc st en u de ck rm.
    - rewrite app_nil_r. reflexivity.
    - cbn [map process_meta_loop process_meta_elem]. rewrite text_value. unfold add_scope_.
      cbn [md_version md_date md_languages md_scopes md_start md_end md_unicode md_description md_checks].
      rewrite IH, <- app_assoc. destruct x. reflexivity.
  Qed.
  Lemma dset_new : forall d k (r : reference), dget String.eqb k d = None -> dset String.eqb k r d = d ++ [(k, r)].
  Proof.
    induction d as [|[k' r'] d IH]; intros k r H; [reflexivity|]. cbn in *. destruct (String.eqb k k'); [discriminate|].
    rewrite IH by exact H. reflexivity.
  Qed.
  Lemma references_back : forall l rm, NoDup (dkeys (rm_refs rm ++ l)) -> (forall id r, In (id, r) l -> ref_id_ok id = true /\ ref_comment r <> Some "") ->
    exists rm', process_references rm (map ref_elem_of l) = (rm', Ok tt) /\ rm_refs rm' = rm_refs rm ++ l.
  Proof.
    induction l as [|[id r] l IH]; intros rm Hn Hl.
    - exists rm. rewrite app_nil_r. split; reflexivity.
    - cbn [map process_references]. unfold ref_elem_of at 1 2 3. cbn [fst snd re_id re_comment re_value].
      destruct (Hl id r (or_introl eq_refl)) as [Hid Hc].
      assert (Hfree : dget String.eqb id (rm_refs rm) = None).
      { apply (dget_None _ string_eqb_iff). unfold dkeys in *. rewrite map_app in Hn. apply NoDup_app_iff in Hn. destruct Hn as [_ [_ Hd]].
        intro Hin. apply (Hd id Hin). left. reflexivity. }
      assert (Hcm : match ref_comment r with Some "" => None | c => c end = ref_comment r).
      { destruct (ref_comment r) as [[|a s]|]; [congruence|reflexivity|reflexivity]. }
      rewrite Hcm. unfold rm_add, dmem. rewrite Hfree, Hid. cbn [negb].
      destruct (IH (mkRefman (dset String.eqb id (mkRef (ref_value r) (ref_comment r)) (rm_refs rm)) (rm_next rm))) as [rm' [E1 E2]].
      + cbn [rm_refs]. rewrite dset_new, <- app_assoc by exact Hfree. destruct r. exact Hn.
      + intros i x Hx. apply (Hl i x). right. exact Hx.
      + exists rm'. split; [exact E1|]. rewrite E2. cbn [rm_refs]. rewrite dset_new, <- app_assoc by exact Hfree. destruct r. reflexivity.
  Qed.
  Lemma references_run : forall l db allow rm rm' x, (lgr_reachable (set_refs (new_lgr db allow) rm) /\ proper (set_refs (new_lgr db allow) rm) /\ tag_tidy (set_refs (new_lgr db allow) rm)) -> process_references rm l = (rm', x) ->
    (lgr_reachable (set_refs (new_lgr db allow) rm') /\ proper (set_refs (new_lgr db allow) rm') /\ tag_tidy (set_refs (new_lgr db allow) rm')).
  Proof.
    induction l as [|e l IH]; intros db allow rm rm' x Hr H; cbn [process_references] in H.
    - injection H as H1 H2. subst. exact Hr.
    - pose proof (all_step _ (LAddReference (re_value e) (re_comment e) (re_id e)) Hr I I) as Hs.
      unfold lgr_step, lgr_add_reference in Hs. cbn [set_refs lg_refs] in Hs. destruct (rm_add rm (re_value e) (re_comment e) (re_id e)) as [rm1 [s|y]].
      + cbn [fst] in Hs. eapply IH; [|exact H]. exact Hs.
      + injection H as H1 H2. subst. cbn [fst] in Hs. exact Hs.
  Qed.
  Lemma replace_none : forall s, ~ In 13 s -> replace_crlf s = s.
  Proof.
    induction s as [|c s IH]; intro H; [reflexivity|].
    assert (Hc : c <> 13) by (intro; subst; apply H; left; reflexivity). assert (Hs : replace_crlf s = s) by (apply IH; intro; apply H; right; assumption).
    cbn [replace_crlf]. destruct c as [|[[[[]|[]|]|[[]|[]|]|]|[[[]|[]|]|[[]|[]|]|]|]]; try (f_equal; exact Hs); exfalso; apply Hc; reflexivity.
  Qed.
  Theorem meta_roundtrip : forall m g db allow, meta_writable lang_check dig m -> ref_tidy g -> comments_writable (lg_refs g) ->
    exists m' rm', process_meta lang_check dig false (serialize_meta m (lg_refs g)) = (m', rm', Ok tt) /\ same_metadata m m' /\
      rm_refs rm' = rm_refs (lg_refs g) /\ (lgr_reachable (set_refs (new_lgr db allow) rm') /\ proper (set_refs (new_lgr db allow) rm') /\ tag_tidy (set_refs (new_lgr db allow) rm')).
  Proof.
    intros m g db allow [M1 [M2 [M3 [[uv [M4 M5]] [M6 [M7 M8]]]]]] Hrt Hcw.
    assert (Hrefs : exists rm', process_references empty_refman (map ref_elem_of (rm_refs (lg_refs g))) = (rm', Ok tt) /\
      rm_refs rm' = rm_refs (lg_refs g) /\ (lgr_reachable (set_refs (new_lgr db allow) rm') /\ proper (set_refs (new_lgr db allow) rm') /\ tag_tidy (set_refs (new_lgr db allow) rm'))).
    { destruct (references_back (rm_refs (lg_refs g)) empty_refman) as [rm' [E1 E2]].
      - cbn. apply (ref_tidy_inv g Hrt).
      - intros id r Hin. assert (Hg : dget String.eqb id (rm_refs (lg_refs g)) = Some r).
        { apply (In_dget _ string_eqb_iff); [apply (ref_tidy_inv g Hrt)|exact Hin]. }
        split; [apply (ids_ok g Hrt); unfold defined_ref; congruence|apply (Hcw id r Hg)].
      - exists rm'. split; [exact E1|]. split; [exact E2|]. eapply references_run; [|exact E1].
        split; [exists db, allow, []; reflexivity|]. split; [apply pr_new|apply tt_new]. }
    destruct Hrefs as [rm' [R1 [R2 R3]]].
    assert (Hloop : exists ck, loop new_metadata empty_refman (serialize_meta m (lg_refs g)) =
      (mkMeta (md_version m) (md_date m) (md_languages m) (md_scopes m) (md_start m) (md_end m) (md_unicode m) (md_description m) ck, rm', Ok tt)).
    { unfold serialize_meta, new_metadata. destruct m as [v d ls sc st en u de ck0]. cbn [md_version md_date md_languages md_scopes md_start md_end md_unicode md_description] in *.
      rewrite loop_app.
      assert (E1 : loop (mkMeta None None [] [] None None (Some (txt "6.3.0")) None []) empty_refman
                     (match v with Some v => [MVersion (text_node (ver_value v)) (ver_comment v)] | None => [] end) =
                   (mkMeta v None [] [] None None (Some (txt "6.3.0")) None [], empty_refman, Ok tt)).
      { destruct v as [v|]; [|reflexivity]. cbn [process_meta_loop process_meta_elem]. rewrite text_value. destruct v. reflexivity. }
      rewrite E1. clear E1. rewrite loop_app.
      assert (E1 : loop (mkMeta v None [] [] None None (Some (txt "6.3.0")) None []) empty_refman (opt_elem MDateE d) =
                   (mkMeta v d [] [] None None (Some (txt "6.3.0")) None [], empty_refman, Ok tt)).
      { destruct d as [d|]; [|reflexivity]. cbn [opt_elem process_meta_loop process_meta_elem]. rewrite (full_date_nonempty d (M1 d eq_refl)).
        cbn [needs_text]. unfold md_set_date. rewrite (validate_ok d false (M1 d eq_refl)). reflexivity. }
      rewrite E1. clear E1. rewrite loop_app.
      assert (E1 : loop (mkMeta v d [] [] None None (Some (txt "6.3.0")) None []) empty_refman (opt_elem MStartE st) =
                   (mkMeta v d [] [] st None (Some (txt "6.3.0")) None [], empty_refman, Ok tt)).
      { destruct st as [s|]; [|reflexivity]. cbn [opt_elem process_meta_loop process_meta_elem]. rewrite (full_date_nonempty s (M2 s eq_refl)).
        cbn [needs_text]. unfold md_set_start. rewrite (validate_ok s false (M2 s eq_refl)). reflexivity. }
      rewrite E1. clear E1. rewrite loop_app.
      assert (E1 : loop (mkMeta v d [] [] st None (Some (txt "6.3.0")) None []) empty_refman (opt_elem MEndE en) =
                   (mkMeta v d [] [] st en (Some (txt "6.3.0")) None [], empty_refman, Ok tt)).
      { destruct en as [s|]; [|reflexivity]. cbn [opt_elem process_meta_loop process_meta_elem]. rewrite (full_date_nonempty s (M3 s eq_refl)).
        cbn [needs_text]. unfold md_set_end. rewrite (validate_ok s false (M3 s eq_refl)). reflexivity. }
      rewrite E1. clear E1. rewrite loop_app. subst u.
      assert (E1 : loop (mkMeta v d [] [] st en (Some (txt "6.3.0")) None []) empty_refman (opt_elem MUnicodeE (Some uv)) =
                   (mkMeta v d [] [] st en (Some uv) None [], empty_refman, Ok tt)).
      { cbn [opt_elem process_meta_loop process_meta_elem].
        assert (En : text_node uv = Some uv).
        { destruct M5 as [x [y [z [rest [[Hx _] [_ [_ Hs]]]]]]]. subst uv. destruct x; [congruence|reflexivity]. }
        rewrite En. cbn [needs_text]. unfold md_set_unicode_version. apply (version_prefix_iff dig dot_nodig) in M5. rewrite M5. reflexivity. }
      rewrite E1. clear E1. rewrite loop_app.
      destruct (loop_languages ls v d [] [] st en (Some uv) None [] empty_refman M6 M7) as [ck EL]. rewrite EL. cbn [app].
      rewrite loop_app, loop_scopes. cbn [app]. rewrite loop_app. exists ck.
      assert (E1 : loop (mkMeta v d ls sc st en (Some uv) None ck) empty_refman
                     (match de with Some d => [MDescriptionE (description_node d) (desc_type d)] | None => [] end) =
                   (mkMeta v d ls sc st en (Some uv) de ck, empty_refman, Ok tt)).
      { destruct de as [de|]; [|reflexivity]. destruct (M8 de eq_refl) as [N1 N2]. cbn [process_meta_loop].
        assert (En : description_node de = Some (desc_value de)).
        { destruct N1 as [N1|[t [N1 N1']]]; unfold description_node.
          - assert (Et : text_node (desc_value de) = Some (desc_value de)) by (destruct (desc_value de); [congruence|reflexivity]).
            rewrite Et. destruct (desc_type de) as [t|]; [destruct (cps_eqb t _)|]; reflexivity.
          - rewrite N1. rewrite (proj2 (cps_eqb_neq _ _) N1'). reflexivity. }
        rewrite En. cbn [process_meta_elem]. rewrite (replace_none _ N2). destruct de. reflexivity. }
      rewrite E1. clear E1. destruct (rm_refs (lg_refs g)) as [|p l]; [injection R1 as R1; subst; reflexivity|].
      cbn [process_meta_loop process_meta_elem]. rewrite R1. reflexivity. }
    destruct Hloop as [ck Hloop]. unfold process_meta. rewrite Hloop.
    eexists. exists rm'. split; [reflexivity|]. split; [repeat split; reflexivity|]. auto.
  Qed.

  (** ** The whole document *)
  Theorem document_roundtrip : forall m g db allow, meta_writable lang_check dig m -> comments_writable (lg_refs g) ->
    proper g -> tags_writable g -> ~ defined_ref g "" -> admits db allow g ->
    exists m' g', parse_document lang_check dig db allow false (serialize_lgr m g) = (Some (m', g'), Ok tt) /\
      same_metadata m m' /\ same_repertoire g g' /\ rm_refs (lg_refs g') = rm_refs (lg_refs g) /\
      lg_db g' = db /\ lg_raise g' = negb allow /\ proper g' /\ tag_tidy g'.
  Proof.
    intros m g db allow Hm Hc Hp Ht He Ha.
    destruct (meta_roundtrip m g db allow Hm (proper_ref_tidy g Hp) Hc) as [m' [rm' [E1 [E2 [E3 E4]]]]].
    destruct (data_roundtrip g db allow rm' (md_checks m') Hp Ht He Ha E3 E4) as [g' [D1 [D2 [D3 [D4 [D5 D6]]]]]].
    unfold parse_document, serialize_lgr. cbn [x_meta x_data]. rewrite E1, D1.
    eexists. exists g'. split; [reflexivity|]. split; [exact E2|]. split; [exact D6|]. split; [rewrite D5; exact E3|]. tauto.
  Qed.
End Meta.
