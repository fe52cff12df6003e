From Coq Require Import Sorting.Sorted.
From Verif Require Import Base BaseFacts CharModel RepSpec RepProofs RepFinal IterProofs UtilsModel RefModel LgrModel LgrSpec LgrProofs LgrReach
  LgrInv LgrMirror LgrTags LgrRefs LgrFinal Rfc7940Model ValidateModel ValidateProofs ValidateFinal MetaModel MetaSpec PopulateSpec CompareSpec
  CompareWitness SerialModel SerialSpec SerialProofs SerialFinal SerialTolerant.
Open Scope string_scope.
Open Scope list_scope.

(** ** Reading with the writer's own settings *)
Lemma own_admits : forall g, lgr_reachable g -> admits (lg_db g) (negb (lg_raise g)) g.
Proof.
  intros g Hre. unfold admits. destruct (lg_raise g) eqn:Er; [right|left; reflexivity].
  intros x d [c [ch [Hc Hx]]] Hd. destruct (db_idna_valid d x) eqn:Ev; [reflexivity|]. exfalso.
  assert (Hi : idna_invalid g x) by (exists d; auto). rewrite lookup_lk in Hc. destruct Hx as [Hx|[v [Hv Hx]]].
  - eapply (reachable_accepting g Hre Er c x); eauto. congruence.
  - eapply (reachable_vacc g Hre c ch Hc v x Hv Hx Er). exact Hi.
Qed.

(** ** Order *)
Lemma order_clean : forall l prev r,
  ForallOrdPairs (fun a b => is_range a = false -> is_range b = false -> cps_leb (ch_cp b) (ch_cp a) = false) l ->
  (forall ch, In ch l -> is_range ch = false -> cps_leb (ch_cp ch) prev = false) -> order_results prev l r = r.
Proof.
  induction l as [|ch l IH]; intros prev r Hs Hp; [reflexivity|]. inversion Hs as [|? ? H1 H2]; subst. rewrite Forall_forall in H1.
  cbn [order_results]. destruct (is_range ch) eqn:Er.
  - apply IH; [exact H2|]. intros b Hb. apply Hp. right. exact Hb.
  - unfold check_order. rewrite (Hp ch (or_introl eq_refl) Er). apply IH; [exact H2|]. intros b Hb Hr. apply H1; auto.
Qed.

(** No two sequences of the LGR start with the same code point. *)
Lemma order_unambiguous : forall g r, lgr_reachable g -> starts_once g -> order_results [] (rep_iter (lg_rep g)) r = r.
Proof.
  intros g r Hre Hone. pose proof (lgr_reachable_wf g Hre) as Hwf. destruct (iter_general (lg_rep g) Hwf) as [Hs [Hnd [Hin _]]].
  assert (Hlk : forall c, In c (rep_iter (lg_rep g)) -> ch_cp c <> [] /\ lk (lg_rep g) (ch_cp c) = Some c).
  { intros c Hc. pose proof (proj1 (in_all_chars_lk _ _ Hwf) (Hin c Hc)) as H. split; [|exact H]. pose proof (lk_wf _ _ _ Hwf H) as W. intro E.
    rewrite E in H. revert H. unfold lk. cbn. discriminate. }
  apply order_clean.
  - clear Hin. induction (rep_iter (lg_rep g)) as [|a l IH]; [constructor|]. inversion Hs as [|? ? S1 S2]; subst.
    cbn [map] in Hnd. inversion Hnd as [|? ? N1 N2]; subst. constructor.
    + rewrite Forall_forall in *. intros b Hb Ra Rb. specialize (S2 b Hb).
      destruct (Hlk a (or_introl eq_refl)) as [A1 A2]. destruct (Hlk b (or_intror Hb)) as [B1 B2].
      assert (Hne : ch_cp a <> ch_cp b) by (intro E; apply N1; rewrite E; apply in_map; exact Hb).
      specialize (Hone (ch_cp a) (ch_cp b)). unfold present in Hone. rewrite !lookup_lk, A2, B2 in Hone.
      unfold iter_order, first_cp in S2. destruct (ch_cp a) as [|x ca]; [congruence|]. destruct (ch_cp b) as [|y cb]; [congruence|].
      cbn [hd length] in *. cbn [cps_leb]. destruct (N.eqb y x) eqn:E.
      * apply N.eqb_eq in E. subst y. destruct S2 as [S2|[_ S2]]; [lia|]. destruct ca as [|z ca].
        -- destruct cb as [|w cb]; [congruence|reflexivity].
        -- destruct cb as [|w cb]; [cbn in S2; lia|]. exfalso. apply Hne. apply Hone; cbn; try discriminate; try lia; try reflexivity.
      * apply N.eqb_neq in E. apply N.ltb_ge. destruct S2 as [S2|[S2 _]]; [lia|congruence].
    + apply IH; [exact S1|exact N2|]. intros c Hc. apply Hlk. right. exact Hc.
  - intros ch Hch _. destruct (Hlk ch Hch) as [H _]. destruct (ch_cp ch); [congruence|reflexivity].
Qed.

Theorem order_roundtrip : forall g db allow R r, proper g -> tags_writable g -> ~ defined_ref g "" -> admits db allow g -> starts_once g ->
  rm_refs R = rm_refs (lg_refs g) -> proper (set_refs (new_lgr db allow) R) -> tag_tidy (set_refs (new_lgr db allow) R) ->
  exists g', process_data false (set_refs (new_lgr db allow) R) r (serialize_data g) =
      (g', report_tested (report_tested r "char_ascending_order") "char_strict_ascending_order", Ok tt).
Proof.
  intros g db allow R r H1 H2 H3 H4 H5 H6 H7 H8.
  destruct (data_roundtrip g db allow R r H1 H2 H3 H4 H6) as [g' [E _]].
  { split; [apply tidy_reachable; apply proper_tidy; exact H7|]. auto. }
  exists g'. rewrite E, order_unambiguous; [reflexivity| |exact H5]. apply tidy_reachable. apply proper_tidy. exact H1.
Qed.

Theorem tags_roundtrip : forall lang_check dig, dig 46 = false -> forall m g db allow, meta_writable lang_check dig m ->
  comments_writable (lg_refs g) -> proper g -> tags_writable g -> ~ defined_ref g "" -> admits db allow g ->
  exists m' g', parse_document lang_check dig db allow false (serialize_lgr m g) = (Some (m', g'), Ok tt) /\
    forall t x, in_tag_class g' t x <-> carries g t x.
Proof.
  intros lc dig Hd m g db allow H1 H2 H3 H4 H5 H6.
  destruct (document_roundtrip lc dig Hd m g db allow H1 H2 H3 H4 H5 H6) as [m' [g' [E [_ [Hs [_ [_ [_ [_ Ht]]]]]]]]].
  exists m', g'. split; [exact E|]. intros t x. rewrite (tag_classes_mirror g' Ht). unfold carries. specialize (Hs [x]).
  destruct (lookup (lg_rep g) [x]) as [a|], (lookup (lg_rep g') [x]) as [b|]; try contradiction.
  - destruct Hs as [Hs _]. assert (Ht' : ch_tags b = ch_tags a) by apply Hs.
    split; intros [c [E1 E2]]; injection E1 as E1; subst c; eexists; (split; [reflexivity|congruence]).
  - split; intros [c [E1 E2]]; discriminate.
Qed.

(** ** Samples *)
Lemma proper_run : forall ops g, proper g -> each_step tidy_op g ops -> (forall o, In o ops -> unforced o) -> proper (fst (lgr_run g ops)).
Proof.
  intros ops g. rewrite run_fold. revert g. induction ops as [|o ops IH]; intros g H Hs Hu; cbn [fold_left]; [exact H|]. destruct Hs.
  apply IH; auto; [|intros; apply Hu; right; assumption]. apply pr_step; auto. apply Hu. left. reflexivity.
Qed.
Lemma proper_of : forall ops, each_stepb tidy_opb (new_lgr None true) ops = true -> forallb unforcedb ops = true -> proper (lgr_of ops).
Proof.
  intros ops H1 H2. apply proper_run; [apply pr_new|apply (each_stepb_sound _ _ tidy_opb_sound); exact H1|].
  rewrite forallb_forall in H2. intros o Ho. apply unforcedb_sound. apply H2. exact Ho.
Qed.

Definition every_lang (_ : cps) : option bool := Some true.
Definition reread (m : metadata) (g : lgr) : option (metadata * lgr) * res unit :=
  parse_document every_lang ascii_digit None true false (serialize_lgr m g).
Definition lrange' (f l : N) (refs tags : list string) := LAddRange f l None refs tags None None None false false.

Definition s_ops : list lgr_op :=
  [LAddReference "book" (Some "first") None; LAddReference "page" None (Some "P1");
   LAddCp [97] (Some "note") ["0"; "P1"] ["t"; "u"] (Some "w") None None false false; lcp [98]; lcp [97; 98; 99];
   lrange' 200 203 ["0"] ["v"]; LAddVariant [97] [98] (Some "blocked") None (Some "r") None ["0"] None false false; lvar [98] [97];
   LAddVariant [97] [97; 98; 99] None None None (Some "c") [] None false false].
Definition s_lgr : lgr := lgr_of s_ops.
Definition s_meta : metadata :=
  mkMeta (Some (mkVersion (txt "1") (Some (txt "draft")))) (Some (txt "2020-02-03")) [txt "fr"; txt "de"] [mkScope (txt "x.org") (Some (txt "domain"))]
    (Some (txt "2021-01-01")) None (Some (txt "6.3.0")) (Some (mkDesc (txt "A description") None)) [].
Lemma s_proper : proper s_lgr.
Proof. apply proper_of; vm_compute; reflexivity. Qed.

(** Boolean form of the condition on tags. *)
Definition wordsb (l : list string) : bool :=
  negb (match l with [""] => true | _ => false end) && forallb (fun w => negb (memb N.eqb 32 (txt w))) l.
Lemma wordsb_sound : forall l, wordsb l = true -> writable_words l.
Proof.
  intros l H. apply andb_prop in H. destruct H as [H1 H2]. split.
  - intro E. subst. discriminate.
  - rewrite forallb_forall in H2. intros w Hw. specialize (H2 w Hw). apply negb_true_iff in H2. apply (memb_false _ _ N_eqb_iff) in H2. exact H2.
Qed.
Lemma tags_of : forall g, lgr_reachable g -> forallb (fun ch => wordsb (ch_tags ch)) (all_chars (lg_rep g)) = true -> tags_writable g.
Proof.
  intros g Hre H c ch Hc. rewrite lookup_lk in Hc. rewrite forallb_forall in H. apply wordsb_sound. apply H.
  apply in_all_chars_lk; [apply lgr_reachable_wf; exact Hre|]. rewrite (lk_cp _ _ _ Hc). exact Hc.
Qed.
Lemma comments_of : forall rm, forallb (fun p : string * reference => match ref_comment (snd p) with Some "" => false | _ => true end) (rm_refs rm) = true ->
  comments_writable rm.
Proof.
  intros rm H id r Hr E. apply (dget_In _ string_eqb_iff) in Hr. rewrite forallb_forall in H. specialize (H _ Hr). cbn in H. rewrite E in H. discriminate.
Qed.

Lemma s_tags : tags_writable s_lgr.
Proof. apply tags_of; [apply lgr_of_reachable|vm_compute; reflexivity]. Qed.
Lemma s_comments : comments_writable (lg_refs s_lgr).
Proof. apply comments_of. vm_compute. reflexivity. Qed.

(** ** What does not survive *)
Definition plain : metadata := mkMeta None None [] [] None None (Some (txt "6.3.0")) None [].
Definition outcome (p : option (metadata * lgr) * res unit) : metadata * lgr :=
  match fst p with Some x => x | None => (plain, new_lgr None true) end.

Definition is_ok (p : option (metadata * lgr) * res unit) : bool := match snd p with Ok _ => true | _ => false end.
Lemma outcome_ok : forall p, fst p <> None -> is_ok p = true -> p = (Some (fst (outcome p), snd (outcome p)), Ok tt).
Proof. intros [[[m g]|] [[]|e]] H1 H2; try discriminate; try (exfalso; apply H1; reflexivity). reflexivity. Qed.

Definition w_tag := lgr_of [LAddCp [97] None [] ["a b"] None None None false false].
Lemma tag_with_space : exists m g m' g' ch ch', proper g /\ reread m g = (Some (m', g'), Ok tt) /\
  lookup (lg_rep g) [97] = Some ch /\ lookup (lg_rep g') [97] = Some ch' /\ ch_tags ch = ["a b"] /\ ch_tags ch' = ["a"; "b"].
Proof.
  exists plain, w_tag. eexists. eexists. eexists. eexists. split; [apply proper_of; vm_compute; reflexivity|].
  split; [vm_compute; reflexivity|]. vm_compute. repeat split; reflexivity.
Qed.
Definition w_range := lgr_of [lrange' 1 3 [] []; LDelCp [2]].
Lemma deleted_member_returns : exists m g m' g', lgr_reachable g /\ reread m g = (Some (m', g'), Ok tt) /\ ~ present g [2] /\ present g' [2].
Proof.
  exists plain, w_range. eexists. eexists. split; [apply lgr_of_reachable|]. split; [vm_compute; reflexivity|].
  split; [intro H; apply H; vm_compute; reflexivity|vm_compute; discriminate].
Qed.
Definition w_range1 := lgr_of [lrange' 1 3 [] []; LDelCp [3]; lrange' 3 5 [] []].
Definition unforced_ops (ops : list lgr_op) : Prop := forall o, In o ops -> unforced o.
Lemma unforced_of : forall ops, forallb unforcedb ops = true -> unforced_ops ops.
Proof. intros ops H o Ho. rewrite forallb_forall in H. apply unforcedb_sound. apply H. exact Ho. Qed.
Lemma own_output_rejected : exists ops m, unforced_ops ops /\ (forall e, ~ In (LExn e) (snd (lgr_run (new_lgr None true) ops))) /\
  exists p e, reread m (lgr_of ops) = (p, Raise e) /\ is_lgr_exception e = true.
Proof.
  exists [lrange' 1 3 [] []; LDelCp [3]; lrange' 3 5 [] []], plain. split; [apply unforced_of; reflexivity|]. split.
  - intros e H. vm_compute in H. intuition discriminate.
  - eexists. eexists. split; [vm_compute; reflexivity|reflexivity].
Qed.
Lemma forced_not_reread : exists g m p, lgr_reachable g /\ reread m g = (p, Raise (LGRFormatException DUPLICATE_TAG)).
Proof.
  exists (lgr_of [LAddCp [97] None [] ["t"; "t"] None None None false true]), plain. eexists. split; [apply lgr_of_reachable|]. vm_compute. reflexivity.
Qed.
Definition w_comment := lgr_of [LAddReference "book" (Some "") None].
Lemma empty_comment_lost : exists m g m' g' r r', proper g /\ reread m g = (Some (m', g'), Ok tt) /\
  dget String.eqb "0" (rm_refs (lg_refs g)) = Some r /\ dget String.eqb "0" (rm_refs (lg_refs g')) = Some r' /\
  ref_comment r = Some "" /\ ref_comment r' = None.
Proof.
  exists plain, w_comment. eexists. eexists. eexists. eexists. split; [apply proper_of; vm_compute; reflexivity|].
  split; [vm_compute; reflexivity|]. vm_compute. repeat split; reflexivity.
Qed.
Lemma uncited_of : forall g ref, wf_rep (lg_rep g) ->
  forallb (fun ch => negb (memb String.eqb ref (ch_refs ch)) && forallb (fun v => negb (memb String.eqb ref (v_refs v))) (get_variants ch)) (all_chars (lg_rep g)) = true ->
  ~ cited g ref.
Proof.
  intros g ref Hwf H [c [ch [Hc Hr]]]. rewrite lookup_lk in Hc. rewrite forallb_forall in H.
  assert (Hi : In ch (all_chars (lg_rep g))) by (apply in_all_chars_lk; [exact Hwf|]; rewrite (lk_cp _ _ _ Hc); exact Hc).
  specialize (H ch Hi). apply andb_prop in H. destruct H as [H1 H2]. apply negb_true_iff in H1. apply (memb_false _ _ string_eqb_iff) in H1.
  destruct Hr as [Hr|[v [Hv Hr]]]; [contradiction|]. rewrite forallb_forall in H2. specialize (H2 v Hv).
  apply negb_true_iff in H2. apply (memb_false _ _ string_eqb_iff) in H2. contradiction.
Qed.
Definition w_refid := lgr_of [LAddReference "book" None (Some ""); LAddCp [97] None [""] [] None None None false false].
Lemma empty_id_citation_lost : exists m g m' g', proper g /\ reread m g = (Some (m', g'), Ok tt) /\
  defined_ref g "" /\ defined_ref g' "" /\ cited g "" /\ ~ cited g' "".
Proof.
  exists plain, w_refid. eexists. eexists. split; [apply proper_of; vm_compute; reflexivity|].
  split; [vm_compute; reflexivity|]. split; [vm_compute; discriminate|]. split; [vm_compute; discriminate|]. split.
  - exists [97]. eexists. split; [vm_compute; reflexivity|]. left. left. reflexivity.
  - apply (uncited_of _ ""); [|vm_compute; reflexivity].
    match goal with |- wf_rep ?r => change r with (lg_rep (lgr_of [LAddReference "book" None (Some ""); lcp [97]])) end.
    apply lgr_reachable_wf. apply lgr_of_reachable.
Qed.
Definition crlf_meta : metadata := mkMeta None None [] [] None None (Some (txt "6.3.0")) (Some (mkDesc [97; 13; 10; 98] None)) [].
Lemma crlf_changes : exists m g m' g', proper g /\ reread m g = (Some (m', g'), Ok tt) /\
  md_description m = Some (mkDesc [97; 13; 10; 98] None) /\ md_description m' = Some (mkDesc [97; 10; 98] None).
Proof.
  exists crlf_meta, (lgr_of []). eexists. eexists. split; [apply proper_of; reflexivity|]. split; [vm_compute; reflexivity|]. split; reflexivity.
Qed.
Definition empty_desc : metadata := mkMeta None None [] [] None None (Some (txt "6.3.0")) (Some (mkDesc [] None)) [].
Lemma empty_description_unreadable : exists m g, proper g /\ reread m g = (None, Raise TypeError).
Proof. exists empty_desc, (lgr_of []). split; [apply proper_of; reflexivity|vm_compute; reflexivity]. Qed.
Lemma own_output_unordered : exists m g m' g', proper g /\ reread m g = (Some (m', g'), Ok tt) /\
  dget String.eqb "char_ascending_order" (md_checks m') = Some false /\
  map ch_cp (rep_iter (lg_rep g)) = [[97; 122]; [97; 98; 99]].
Proof.
  exists plain, (lgr_of [lcp [97; 122]; lcp [97; 98; 99]]). eexists. eexists. split; [apply proper_of; reflexivity|]. split; [vm_compute; reflexivity|]. split; vm_compute; reflexivity.
Qed.
Lemma own_output_not_strict : exists m g m' g', proper g /\ reread m g = (Some (m', g'), Ok tt) /\
  dget String.eqb "char_ascending_order" (md_checks m') = Some false.
Proof.
  exists plain, (lgr_of [lcp [97; 99]; lcp [97; 98]]). eexists. eexists. split; [apply proper_of; reflexivity|]. split; [vm_compute; reflexivity|]. vm_compute; reflexivity.
Qed.

(** ** Tolerant reading *)
Definition elem (c : cps) (vs : list var_elem) : data_elem := DChar (format_cp_attr c) (mkAttrs None None None None None) vs.
Definition relem (f l : N) : data_elem := DRange (cp_to_str f) (cp_to_str l) (mkAttrs None None None None None) [].
Definition velem (c : cps) : var_elem := mkVarElem (format_cp_attr c) (Some "blocked") None None None None.
Lemma duplicate_range_aborts : exists l, (forall e, In e l -> readable e) /\
  exists g r, process_data true (new_lgr None true) [] l = (g, r, Raise IndexError) /\
    exists c e, In e l /\ stands_for e c /\ acceptable (new_lgr None true) c /\ ~ present g c.
Proof.
  exists [relem 1 3; relem 1 3; elem [9] []]. split.
  - intros e [H|[H|[H|[]]]]; subst e; cbn; try (split; eexists; vm_compute; reflexivity). split; [eexists; vm_compute; reflexivity|]. intros v [].
  - eexists. eexists. split; [vm_compute; reflexivity|]. exists [9], (elem [9] []). split; [right; right; left; reflexivity|].
    split; [vm_compute; reflexivity|]. split; [split; [discriminate|discriminate]|]. intro H. apply H. vm_compute. reflexivity.
Qed.
(** The database of the witness rejects the code point 2. *)
Definition tol_db : unidb := mkDb (fun x => negb (N.eqb x 2)) (fun _ => "Latn").
Lemma overlapping_range_cut : exists d l g' r', (forall e, In e l -> readable e) /\
  process_data true (new_lgr (Some d) true) [] l = (g', r', Ok tt) /\
  exists c e, In e l /\ stands_for e c /\ acceptable (new_lgr (Some d) true) c /\ ~ present g' c.
Proof.
  exists tol_db, [elem [2] []; relem 1 4]. eexists. eexists. split.
  - intros e [H|[H|[]]]; subst e; cbn; try (split; eexists; vm_compute; reflexivity). split; [eexists; vm_compute; reflexivity|]. intros v [].
  - split; [vm_compute; reflexivity|]. exists [4], (relem 1 4). split; [right; left; reflexivity|]. split.
    + exists 1, 4, 4. split; [vm_compute; reflexivity|]. split; [vm_compute; reflexivity|]. split; [lia|reflexivity].
    + split; [split; discriminate|]. intro H. apply H. vm_compute. reflexivity.
Qed.

Definition tol_elems : list data_elem := [elem [97] [velem [98]; velem [98]]; elem [97] []; DOther; relem 200 205; elem [203] []; relem 202 208; elem [99] [velem [100]]].
Lemma tol_readable : forall e, In e tol_elems -> readable e.
Proof.
  intros e H. unfold tol_elems in H.
  repeat (destruct H as [H|H]; [subst e; cbn [readable elem relem]; try exact I; split;
    try (eexists; vm_compute; reflexivity); intros v Hv; cbn [In] in Hv;
    repeat (destruct Hv as [Hv|Hv]; [subst v; eexists; vm_compute; reflexivity|]); contradiction|]). contradiction.
Qed.
Lemma tol_result : let '(g, r, x) := process_data true (new_lgr None true) [] tol_elems in
  x = Ok tt /\ dget String.eqb "parse_xml" r = Some false /\ map ch_cp (rep_iter (lg_rep g)) = [[97]; [99]; [200]; [206]].
Proof. vm_compute. repeat split; reflexivity. Qed.
