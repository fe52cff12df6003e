(** Proofs about the review of the repertoire. *)
From Coq Require Import Permutation Sorted Lia Ascii.
From Verif Require Import Base BaseFacts CharModel RepSpec RepProofs ActionModel LgrModel CompareModel CompareProofs ReviewModel ReviewSpec.
Open Scope string_scope.
Open Scope list_scope.

Lemma prefix_spec : forall p t, String.prefix p t = true <-> exists u, t = (p ++ u)%string.
Proof.
  induction p as [|a p IH]; intros t.
  - split; [intros _; exists t; reflexivity | intros _; destruct t; reflexivity].
  - destruct t as [|b t].
    + split; [intros H; discriminate H | intros (u & E); discriminate E].
    + change (String.prefix (String a p) (String b t)) with (if ascii_dec a b then String.prefix p t else false).
      destruct (ascii_dec a b) as [<-|Hn].
      * rewrite IH. split; intros (u & E); exists u; cbn [append] in *; congruence.
      * split; [intros H; discriminate H | intros (u & E); cbn [append] in E; congruence].
Qed.
Lemma plain_tag_iff : forall t, is_script_tag t = false <-> plain_tag t.
Proof.
  intros t. unfold is_script_tag, plain_tag. split.
  - intros H u E. rewrite (proj2 (prefix_spec "sc:" t)) in H; [discriminate H | exists u; exact E].
  - intros H. destruct (String.prefix "sc:" t) eqn:E; [|reflexivity]. apply prefix_spec in E. destruct E as (u & E). destruct (H u E).
Qed.

(** ** Tags *)
Definition tag_memb t l := memb_In _ String.eqb string_eqb_iff t l.
Definition lacking (idn tags : list string) : bool := existsb (fun t => negb (memb String.eqb t idn)) tags.
Lemma compare_tags_spec : forall idn ref tags acc, (forall t, In t tags -> ~ (In t idn /\ In t ref)) -> fst acc <> Some RReview ->
  compare_tags idn ref tags acc =
  if lacking idn tags then (Some RReview, "Tags do not match")
  else match tags with [] => acc | _ :: _ => if is_some (fst acc) then acc else (Some RNote, "Tags not required in Reference LGR") end.
Proof.
  intros idn ref. induction tags as [|t tags IH]; intros acc Hx Hr; [reflexivity|].
  cbn [compare_tags lacking existsb]. destruct (memb String.eqb t idn) eqn:Ei; cbn [negb orb]; [|reflexivity].
  apply tag_memb in Ei.
  assert (Er : memb String.eqb t ref = false).
  { destruct (memb String.eqb t ref) eqn:E; [|reflexivity]. apply tag_memb in E. destruct (Hx t (or_introl eq_refl) (conj Ei E)). }
  rewrite Er. cbn [negb andb]. fold (lacking idn tags).
  assert (Hx' : forall u, In u tags -> ~ (In u idn /\ In u ref)) by (intros u Hu; apply Hx; right; exact Hu).
  destruct (is_some (fst acc)) eqn:Ea; cbn [negb].
  - rewrite IH by assumption. rewrite Ea. destruct (lacking idn tags); [reflexivity|]. destruct tags; reflexivity.
  - rewrite IH by (try assumption; discriminate). destruct (lacking idn tags); [reflexivity|]. destruct tags; reflexivity.
Qed.
Definition differing (idn ref : char) : list string :=
  filter (fun t => negb (is_script_tag t)) (set_union String.eqb (set_diff String.eqb (ch_tags idn) (ch_tags ref)) (set_diff String.eqb (ch_tags ref) (ch_tags idn))).
Lemma differing_In : forall idn ref t, In t (differing idn ref) <->
  plain_tag t /\ ((In t (ch_tags idn) /\ ~ In t (ch_tags ref)) \/ (In t (ch_tags ref) /\ ~ In t (ch_tags idn))).
Proof.
  intros idn ref t. unfold differing. rewrite filter_In, (set_union_In _ string_eqb_iff), !(set_diff_In _ string_eqb_iff).
  rewrite <- plain_tag_iff. destruct (is_script_tag t); cbn [negb]; intuition congruence.
Qed.
Lemma lacking_iff : forall idn ref order, any_order order ->
  lacking (ch_tags idn) (order (differing idn ref)) = true <-> lacks_tag idn ref.
Proof.
  intros idn ref order Ho. unfold lacking. rewrite existsb_exists. split.
  - intros (t & Ht & Hn). apply (Permutation_in _ (Ho _)) in Ht. apply differing_In in Ht. destruct Ht as (Hp & Ht).
    exists t. split; [exact Hp|]. destruct (memb String.eqb t (ch_tags idn)) eqn:E; [discriminate Hn|].
    assert (~ In t (ch_tags idn)) by (intros H; apply tag_memb in H; congruence). intuition.
  - intros (t & Hp & Hr & Hi). exists t. split.
    + apply (Permutation_in _ (Permutation_sym (Ho _))). apply differing_In. auto.
    + destruct (memb String.eqb t (ch_tags idn)) eqn:E; [|reflexivity]. apply tag_memb in E. contradiction.
Qed.
Lemma differing_nil : forall idn ref order, any_order order ->
  order (differing idn ref) = [] <-> ~ lacks_tag idn ref /\ ~ extra_tag idn ref.
Proof.
  intros idn ref order Ho. split.
  - intros E. assert (E' : differing idn ref = []) by (apply Permutation_nil; rewrite <- E; exact (Ho _)).
    split; intros (t & Hp & H1 & H2); assert (Hin : In t (differing idn ref)) by (apply differing_In; auto); rewrite E' in Hin; destruct Hin.
  - intros [H1 H2]. destruct (order (differing idn ref)) as [|t l] eqn:E; [reflexivity|]. exfalso.
    assert (Ht : In t (differing idn ref)) by (apply (Permutation_in _ (Ho _)); rewrite E; left; reflexivity).
    apply differing_In in Ht. destruct Ht as (Hp & [[Ha Hb] | [Ha Hb]]).
    + apply H2. exists t. auto.
    + apply H1. exists t. auto.
Qed.

(** ** Contexts *)
Lemma rule_name_context : forall a b,
  ostring_eqb (rule_name (ch_when a) (ch_not_when a)) (rule_name (ch_when b) (ch_not_when b)) = true <-> context_of_char a = context_of_char b.
Proof.
  intros a b. rewrite ostring_eqb_eq. unfold context_of_char, rule_name.
  destruct (ch_when a) as [[|? ?]|], (ch_not_when a) as [[|? ?]|], (ch_when b) as [[|? ?]|], (ch_not_when b) as [[|? ?]|];
    cbn [truthy String.eqb negb append]; split; intros H; try reflexivity; try discriminate H; injection H; intros; subst; reflexivity.
Qed.
Lemma rule_name_some : forall a, is_some (rule_name (ch_when a) (ch_not_when a)) = true <-> context_of_char a <> NoContext.
Proof.
  intros a. unfold context_of_char, rule_name.
  destruct (ch_when a) as [[|? ?]|], (ch_not_when a) as [[|? ?]|]; cbn [truthy String.eqb negb is_some]; split; intros H; try reflexivity; try discriminate; try (destruct (H eq_refl)).
Qed.
Lemma is_some_false : forall (o : option string), is_some o = false -> o = None.
Proof. destruct o; [discriminate | reflexivity]. Qed.

Definition tag_part (order : list string -> list string) (idn ref : char) := compare_tags (ch_tags idn) (ch_tags ref) (order (differing idn ref)) (None, "").
Lemma tag_part_cases : forall order idn ref, any_order order ->
  (lacks_tag idn ref /\ tag_part order idn ref = (Some RReview, "Tags do not match")) \/
  (~ lacks_tag idn ref /\ extra_tag idn ref /\ tag_part order idn ref = (Some RNote, "Tags not required in Reference LGR")) \/
  (~ lacks_tag idn ref /\ ~ extra_tag idn ref /\ tag_part order idn ref = (None, "")).
Proof.
  intros order idn ref Ho. unfold tag_part. rewrite compare_tags_spec; [|intros t Ht [Hi Hr]; apply (Permutation_in _ (Ho _)) in Ht; apply differing_In in Ht; tauto | discriminate].
  pose proof (lacking_iff idn ref order Ho) as L. pose proof (differing_nil idn ref order Ho) as D.
  destruct (lacking (ch_tags idn) (order (differing idn ref))) eqn:E.
  - left. split; [apply L; reflexivity | reflexivity].
  - right. assert (N : ~ lacks_tag idn ref) by (intros H; apply L in H; congruence).
    destruct (order (differing idn ref)) as [|t l] eqn:Eo.
    + right. destruct D as [D _]. destruct (D eq_refl). auto.
    + left. split; [exact N|]. split; [|reflexivity].
      assert (Ht : In t (differing idn ref)) by (apply (Permutation_in _ (Ho _)); rewrite Eo; left; reflexivity).
      apply differing_In in Ht. destruct Ht as (Hp & [[Ha Hb] | [Ha Hb]]); [exists t; auto | destruct N; exists t; auto].
Qed.
(** Every possible outcome of comparing two entries. *)
Lemma compare_both_cases : forall order idn ref, any_order order ->
  (violates idn ref /\ fst (compare_both order idn ref) = RReview) \/
  (~ violates idn ref /\ exceeds idn ref /\ fst (compare_both order idn ref) = RNote) \/
  (~ violates idn ref /\ ~ exceeds idn ref /\ fst (compare_both order idn ref) = RMatch).
Proof.
  intros order idn ref Ho. unfold compare_both. fold (differing idn ref). fold (tag_part order idn ref).
  pose proof (rule_name_context idn ref) as Q. pose proof (rule_name_some idn) as Si. pose proof (rule_name_some ref) as Sr.
  unfold violates, exceeds.
  destruct (tag_part_cases order idn ref Ho) as [(L & ->) | [(L & X & ->) | (L & X & ->)]];
  destruct (ostring_eqb (rule_name (ch_when idn) (ch_not_when idn)) (rule_name (ch_when ref) (ch_not_when ref)));
  destruct (is_some (rule_name (ch_when idn) (ch_not_when idn))); destruct (is_some (rule_name (ch_when ref) (ch_not_when ref))); cbn [andb negb fst snd];
  (destruct (context_of_char idn) eqn:Ci; destruct (context_of_char ref) eqn:Cr); intuition (try congruence).
Qed.
Lemma review_iff : forall order idn ref, any_order order -> (fst (compare_both order idn ref) = RReview <-> violates idn ref).
Proof. intros order idn ref Ho. destruct (compare_both_cases order idn ref Ho) as [(A & ->) | [(A & B & ->) | (A & B & ->)]]; intuition congruence. Qed.
Lemma note_iff : forall order idn ref, any_order order -> (fst (compare_both order idn ref) = RNote <-> exceeds idn ref /\ ~ violates idn ref).
Proof. intros order idn ref Ho. destruct (compare_both_cases order idn ref Ho) as [(A & ->) | [(A & B & ->) | (A & B & ->)]]; intuition congruence. Qed.
Lemma match_iff : forall order idn ref, any_order order ->
  (fst (compare_both order idn ref) = RMatch <->
   (forall t, plain_tag t -> (In t (ch_tags idn) <-> In t (ch_tags ref))) /\ context_of_char idn = context_of_char ref).
Proof.
  intros order idn ref Ho.
  assert (E : ~ violates idn ref /\ ~ exceeds idn ref <->
    (forall t, plain_tag t -> (In t (ch_tags idn) <-> In t (ch_tags ref))) /\ context_of_char idn = context_of_char ref).
  { unfold violates, exceeds, extra_tag, lacks_tag. split.
    - intros [A B]. split.
      + intros t Ht. destruct (in_dec string_dec t (ch_tags idn)) as [Hi|Hi], (in_dec string_dec t (ch_tags ref)) as [Hr|Hr]; try tauto; exfalso.
        * apply B. left. exists t. auto.
        * apply A. left. exists t. auto.
      + destruct (context_of_char idn) eqn:Ci, (context_of_char ref) eqn:Cr; try reflexivity;
          try (exfalso; apply A; right; split; congruence); try (exfalso; apply B; right; split; congruence).
        * destruct (string_dec n n0) as [->|]; [reflexivity | exfalso; apply A; right; split; congruence].
        * destruct (string_dec n n0) as [->|]; [reflexivity | exfalso; apply A; right; split; congruence].
    - intros [A B]. split.
      + intros [(t & Hp & H1 & H2) | [H1 H2]]; [apply H2, A; assumption | apply H2; exact B].
      + intros [(t & Hp & H1 & H2) | [H1 H2]]; [apply H2, A; assumption | apply H2; congruence]. }
  destruct (compare_both_cases order idn ref Ho) as [(A & ->) | [(A & B & ->) | (A & B & ->)]]; intuition congruence.
Qed.
Lemma compare_order : forall o1 o2 idn ref, any_order o1 -> any_order o2 -> compare_both o1 idn ref = compare_both o2 idn ref.
Proof.
  intros o1 o2 idn ref H1 H2. unfold compare_both. fold (differing idn ref). fold (tag_part o1 idn ref). fold (tag_part o2 idn ref).
  assert (E : tag_part o1 idn ref = tag_part o2 idn ref).
  { destruct (tag_part_cases o1 idn ref H1) as [(A & ->) | [(A & B & ->) | (A & B & ->)]];
    destruct (tag_part_cases o2 idn ref H2) as [(A' & ->) | [(A' & B' & ->) | (A' & B' & ->)]]; try reflexivity; contradiction. }
  rewrite E. reflexivity.
Qed.

(** A remark decides the result. *)
Definition result_of_remark (m : string) : option review :=
  dget String.eqb m
    [("Match as a subset of repertoire", RSubset);
     ("The code point only exists in the IDN Table but not in the reference LGR", RManual);
     ("Matches code point (including tags, context rule)", RMatch);
     ("Tags do not match", RReview); ("Tags not required in Reference LGR", RNote);
     (("Tags do not match" ++ newline ++ "Rules do not match")%string, RReview);
     (("Tags not required in Reference LGR" ++ newline ++ "Rules not required in Reference LGR")%string, RNote);
     ("Rules not required in Reference LGR", RNote); ("Rules do not match", RReview)].
Lemma compare_remark : forall order idn ref, any_order order -> result_of_remark (snd (compare_char order idn ref)) = Some (fst (compare_char order idn ref)).
Proof.
  intros order [i|] [r|] Ho; try reflexivity. unfold compare_char, compare_both. fold (differing i r). fold (tag_part order i r).
  destruct (tag_part_cases order i r Ho) as [(A & ->) | [(A & B & ->) | (A & B & ->)]];
  destruct (ostring_eqb _ _); destruct (is_some (rule_name (ch_when i) (ch_not_when i))); destruct (is_some (rule_name (ch_when r) (ch_not_when r))); reflexivity.
Qed.

(** ** The lines *)
Lemma by_cp_fold : forall l d c, dget cps_eqb c (fold_left (fun d x => dset cps_eqb (ch_cp x) x d) l d) =
  match find (fun x => cps_eqb c (ch_cp x)) (rev l) with Some x => Some x | None => dget cps_eqb c d end.
Proof.
  induction l as [|x l IH]; intros d c; [reflexivity|]. cbn [fold_left]. rewrite IH. cbn [rev].
  assert (F : forall a b, find (fun x => cps_eqb c (ch_cp x)) (a ++ b) = match find (fun x => cps_eqb c (ch_cp x)) a with Some y => Some y | None => find (fun x => cps_eqb c (ch_cp x)) b end).
  { induction a as [|y a IHa]; intros b; [reflexivity|]. cbn [app find]. destruct (cps_eqb c (ch_cp y)); [reflexivity | apply IHa]. }
  rewrite F. destruct (find _ (rev l)); [reflexivity|]. rewrite (dget_dset _ cps_eqb_eq). cbn [find]. destruct (cps_eqb c (ch_cp x)); reflexivity.
Qed.
Lemma all_repertoire_all : forall r, all_repertoire r true true = all_chars r.
Proof.
  intros r. unfold all_repertoire, all_chars. rewrite (filter_ext _ (fun _ => true)); [|intros c; rewrite !Bool.andb_false_r; reflexivity].
  generalize (flat_map snd (rep_chars r)). intros l. induction l as [|x l IH]; [reflexivity | cbn; rewrite IH; reflexivity].
Qed.
Lemma by_cp_NoDup : forall r, NoDup (dkeys (by_cp r)).
Proof.
  intros r. unfold by_cp. assert (G : forall l d, NoDup (dkeys d) -> NoDup (dkeys (fold_left (fun d x => dset cps_eqb (ch_cp x) x d) l d))).
  { induction l as [|x l IH]; intros d Hd; [exact Hd|]. apply IH, (dset_NoDup _ cps_eqb_eq), Hd. }
  apply G. constructor.
Qed.

Lemma by_cp_lk : forall r c, wf_rep r -> dget cps_eqb c (by_cp r) = lk r c.
Proof.
  intros r c Hwf. unfold by_cp. rewrite by_cp_fold, all_repertoire_all. cbn [dget].
  destruct (find (fun x => cps_eqb c (ch_cp x)) (rev (all_chars r))) as [x|] eqn:E.
  - apply find_some in E. destruct E as [Hx E]. apply cps_eqb_eq in E. apply in_rev in Hx. apply in_all_chars_lk in Hx; [|exact Hwf].
    subst c. symmetry. exact Hx.
  - destruct (lk r c) as [x|] eqn:L; [|reflexivity]. exfalso. pose proof (lk_cp _ _ _ L) as Ec.
    assert (Hx : In x (all_chars r)) by (apply in_all_chars_lk; [exact Hwf | rewrite Ec; exact L]).
    apply in_rev in Hx. pose proof (find_none _ _ E _ Hx) as H. cbn beta in H. rewrite Ec, cps_eqb_refl in H. discriminate H.
Qed.
Lemma by_cp_key : forall r c, wf_rep r -> (In c (dkeys (by_cp r)) <-> lk r c <> None).
Proof.
  intros r c Hwf. rewrite <- (by_cp_lk r c Hwf). split.
  - intros H E. apply (dget_None _ cps_eqb_eq) in E. contradiction.
  - intros H. destruct (dget cps_eqb c (by_cp r)) as [x|] eqn:E; [|congruence]. apply (dget_In _ cps_eqb_eq) in E.
    apply in_map_iff. exists (c, x). split; [reflexivity | exact E].
Qed.
Lemma repertoire_keys : forall order idn ref, map cl_cp (repertoire_report order idn ref) = isort cps_leb (set_union cps_eqb (dkeys (by_cp idn)) (dkeys (by_cp ref))).
Proof.
  intros. unfold repertoire_report. rewrite map_map. rewrite <- map_id. apply map_ext. intros c.
  destruct (compare_char _ _ _). reflexivity.
Qed.
Lemma repertoire_lines : forall order idn ref, wf_rep idn -> wf_rep ref ->
  StronglySorted (fun a b => cps_leb a b = true) (map cl_cp (repertoire_report order idn ref)) /\
  NoDup (map cl_cp (repertoire_report order idn ref)) /\
  (forall c, In c (map cl_cp (repertoire_report order idn ref)) <-> lookup idn c <> None \/ lookup ref c <> None).
Proof.
  intros order idn ref Hi Hr. rewrite repertoire_keys. split; [|split].
  - apply isort_sorted; [apply cps_leb_total | apply cps_leb_trans].
  - apply isort_NoDup. apply (set_union_NoDup _ cps_eqb_eq).
  - intros c. rewrite isort_In, (set_union_In _ cps_eqb_eq), !by_cp_key by assumption. rewrite !lookup_lk. reflexivity.
Qed.
Lemma repertoire_line : forall order idn ref l, wf_rep idn -> wf_rep ref -> In l (repertoire_report order idn ref) ->
  cl_idn l = is_some (lookup idn (cl_cp l)) /\ cl_ref l = is_some (lookup ref (cl_cp l)) /\
  (cl_result l, cl_remark l) = compare_char order (lookup idn (cl_cp l)) (lookup ref (cl_cp l)).
Proof.
  intros order idn ref l Hi Hr Hl. unfold repertoire_report in Hl. apply in_map_iff in Hl. destruct Hl as (c & El & _).
  rewrite !by_cp_lk in El by assumption. destruct (compare_char order (lk idn c) (lk ref c)) as [a b] eqn:E. subst l. cbn.
  rewrite !lookup_lk. rewrite E. auto.
Qed.

(** The whole report in terms of what a user knows of both LGRs. *)
Lemma repertoire_results : forall order idn ref l, any_order order -> wf_rep idn -> wf_rep ref -> In l (repertoire_report order idn ref) ->
  match lookup idn (cl_cp l), lookup ref (cl_cp l) with
  | None, _ => cl_result l = RSubset
  | Some _, None => cl_result l = RManual
  | Some i, Some r =>
      (cl_result l = RReview <-> violates i r) /\ (cl_result l = RNote <-> exceeds i r /\ ~ violates i r) /\
      (cl_result l = RMatch <-> ~ violates i r /\ ~ exceeds i r)
  end.
Proof.
  intros order idn ref l Ho Hi Hr Hl. destruct (repertoire_line _ _ _ _ Hi Hr Hl) as (_ & _ & E).
  destruct (lookup idn (cl_cp l)) as [i|]; [|cbn in E; congruence]. destruct (lookup ref (cl_cp l)) as [r|]; [|cbn in E; congruence].
  cbn [compare_char] in E. assert (E1 : cl_result l = fst (compare_both order i r)) by (rewrite <- E; reflexivity). rewrite E1.
  split; [apply review_iff, Ho|]. split; [apply note_iff, Ho|].
  destruct (compare_both_cases order i r Ho) as [(A & ->) | [(A & B & ->) | (A & B & ->)]]; intuition congruence.
Qed.
Lemma repertoire_orders : forall o1 o2 idn ref, any_order o1 -> any_order o2 -> repertoire_report o1 idn ref = repertoire_report o2 idn ref.
Proof.
  intros o1 o2 idn ref H1 H2. unfold repertoire_report. apply map_ext. intros c.
  destruct (dget cps_eqb c (by_cp idn)); [|reflexivity]. destruct (dget cps_eqb c (by_cp ref)); [|reflexivity].
  cbn [compare_char]. rewrite (compare_order o1 o2) by assumption. reflexivity.
Qed.
Lemma repertoire_consistent : forall order idn ref, any_order order ->
  consistent (map (fun l => (cl_result l, cl_remark l)) (repertoire_report order idn ref)).
Proof.
  intros order idn ref Ho. unfold repertoire_report, consistent. rewrite map_map.
  assert (G : forall r m, In (r, m) (map (fun x => let l := (let i := dget cps_eqb x (by_cp idn) in let r0 := dget cps_eqb x (by_cp ref) in
       let (result, remark) := compare_char order i r0 in mkCpLine x (is_some i) (is_some r0) result remark) in (cl_result l, cl_remark l))
      (isort cps_leb (set_union cps_eqb (dkeys (by_cp idn)) (dkeys (by_cp ref))))) -> result_of_remark m = Some r).
  { intros r m H. apply in_map_iff in H. destruct H as (c & E & _). cbn zeta in E.
    pose proof (compare_remark order (dget cps_eqb c (by_cp idn)) (dget cps_eqb c (by_cp ref)) Ho) as R.
    destruct (compare_char order _ _) as [a b]. cbn in E, R. injection E as <- <-. exact R. }
  intros r r' m H H'. apply G in H. apply G in H'. congruence.
Qed.
Lemma in_rep_lk : forall r c, in_rep r c = is_some (lk r c).
Proof.
  intros r [|x t]; [reflexivity|]. unfold in_rep, rep_contains, lk, bucket. destruct (dget N.eqb x (rep_chars r)) as [l|]; [|reflexivity].
  induction l as [|ch l IH]; [reflexivity|]. cbn [map find]. change (memb cps_eqb (x :: t) (ch_cp ch :: map ch_cp l)) with (cps_eqb (x :: t) (ch_cp ch) || memb cps_eqb (x :: t) (map ch_cp l))%bool.
  destruct (cps_eqb (x :: t) (ch_cp ch)); [reflexivity | exact IH].
Qed.
Lemma in_sequences : forall idn ref c s, wf_rep ref ->
  (In (c, s) (cp_in_sequences idn ref) <->
   (exists ch, lookup ref s = Some ch /\ is_range ch = false) /\ (1 < List.length s)%nat /\ In c s /\ lookup ref [c] = None /\ lookup idn [c] <> None).
Proof.
  intros idn ref c s Hr. unfold cp_in_sequences, all_repertoire. rewrite in_flat_map. rewrite !lookup_lk. split.
  - intros (ch & Hch & H). apply filter_In in Hch. destruct Hch as [Hch Hk]. apply in_all_chars_lk in Hch; [|exact Hr].
    destruct (Nat.ltb_spec 1 (List.length (ch_cp ch))) as [Hlen|_]; [|destruct H]. apply in_flat_map in H. destruct H as (x & Hx & H).
    rewrite !in_rep_lk in H. destruct (lk ref [x]) eqn:Er; cbn [is_some negb] in H; [destruct H|]. destruct (lk idn [x]) eqn:Ei; cbn [is_some] in H; [|destruct H].
    destruct H as [H | []]. injection H as -> <-. split; [exists ch; split; [exact Hch|]|].
    + cbn [negb] in Hk. rewrite Bool.andb_false_r, Bool.andb_true_r in Hk. cbn in Hk. destruct (is_range ch); [discriminate Hk | reflexivity].
    + repeat split; try assumption. congruence.
  - intros ((ch & Hch & Hk) & Hlen & Hc & Er & Ei). pose proof (lk_cp _ _ _ Hch) as Ec. exists ch. split.
    + apply filter_In. split; [apply in_all_chars_lk; [exact Hr | rewrite Ec; exact Hch]|]. rewrite Hk. cbn [negb]. rewrite Bool.andb_false_r. reflexivity.
    + rewrite Ec. destruct (Nat.ltb_spec 1 (List.length s)) as [_|Hn]; [|lia]. apply in_flat_map. exists c. split; [exact Hc|].
      rewrite !in_rep_lk, Er. cbn [is_some negb]. destruct (lk idn [c]); [left; reflexivity | congruence].
Qed.
Lemma in_sequences_wf : forall idn ref c s, wf_rep ref ->
  (In (c, s) (cp_in_sequences idn ref) <->
   lookup ref s <> None /\ (1 < List.length s)%nat /\ In c s /\ lookup ref [c] = None /\ lookup idn [c] <> None).
Proof.
  intros idn ref c s Hr. rewrite (in_sequences idn ref c s Hr). rewrite !lookup_lk. split.
  - intros ((ch & E & _) & H). split; [congruence | exact H].
  - intros (E & Hlen & H). split; [|auto]. destruct (lk ref s) as [ch|] eqn:L; [|congruence]. exists ch. split; [reflexivity|].
    pose proof (lk_wf _ _ _ Hr L) as W. pose proof (lk_cp _ _ _ L) as Ec. unfold is_range. destruct (ch_kind ch) eqn:K; try reflexivity.
    exfalso. destruct W as [_ W]. rewrite K in W. destruct W as (_ & (x & Ex & _) & _). rewrite Ec in Ex. rewrite Ex in Hlen. cbn in Hlen. lia.
Qed.
