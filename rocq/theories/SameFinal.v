(** Final lemmas for evaluations depending only on the entries. *)
From Verif Require Import Base BaseFacts UtilsModel CharModel RepSpec RepProofs RefModel ActionModel LgrModel LgrSpec LgrReach LgrInv LgrRange LgrFinal RangeProofs Rfc7940Model MetaModel MetaSpec
  PopulateSpec CompareSpec LabelModel LabelSpec LabelProofs LabelFinal HarmonizeFinal SerialModel SerialSpec SerialFinal SerialWitness ValidateFinal SameSpec SameProofs.
Open Scope string_scope.
Open Scope list_scope.

Theorem answers_depend_on_uses : forall r r', reachable r -> reachable r' -> same_uses r r' -> forall rm, same_answers rm r r'.
Proof.
  intros r r' H H' HS rm acts script label. pose proof (reachable_wf r H) as W. pose proof (reachable_wf r' H') as W'.
  split; [intro v; apply eligible_same; assumption|]. split; [intros n t; apply index_label_same; assumption|]. split; [intro h; apply estimate_same; assumption|].
  split; [intros; apply compute_same; assumption|]. intro h. pose proof (label_variants_same rm r r' W W' HS script label h) as K. unfold same_opt in K. exact K.
Qed.

Theorem expanding_keeps_answers : forall g, tidy g -> forall rm, same_answers rm (lg_rep g) (lg_rep (fst (lgr_expand_ranges g))).
Proof.
  intros g Ht. pose proof (expand_ranges_spec g Ht) as H. pose proof (tidy_expand g (fst (lgr_expand_ranges g)) (snd (lgr_expand_ranges g)) Ht (surjective_pairing _)) as T.
  apply answers_depend_on_uses; [apply lgr_reachable_rep, tidy_reachable; exact Ht|apply lgr_reachable_rep, tidy_reachable; exact T|].
  destruct (lgr_expand_ranges g) as [g' x]. destruct H as [_ [_ [H _]]]. intro c. cbn [fst]. rewrite (H c). destruct (lookup (lg_rep g) c) as [ch|]; [|exact I]. cbn [option_map].
  repeat split. apply same_variants_refl.
Qed.

Lemma same_repertoire_uses : forall g g', same_repertoire g g' -> same_uses (lg_rep g) (lg_rep g').
Proof.
  intros g g' H c. specialize (H c). destruct (lookup (lg_rep g) c), (lookup (lg_rep g') c); try contradiction; [|exact I].
  destruct H as [[H1 [_ [_ [_ [_ [H2 H3]]]]]] H4]. split; [exact H1|]. split; [exact H2|]. split; [exact H3|]. rewrite H4. apply same_variants_refl.
Qed.
Lemma proper_reach : forall g, proper g -> reachable (lg_rep g).
Proof. intros g H. apply lgr_reachable_rep, tidy_reachable, proper_tidy. exact H. Qed.

Theorem writing_keeps_answers : forall lang_check dig, dig 46 = false -> forall m g db allow,
  meta_writable lang_check dig m -> comments_writable (lg_refs g) ->
  proper g -> tags_writable g -> ~ defined_ref g "" -> admits db allow g ->
  exists m' g', parse_document lang_check dig db allow false (serialize_lgr m g) = (Some (m', g'), Ok tt) /\
    forall rm, same_answers rm (lg_rep g) (lg_rep g').
Proof.
  intros lang_check dig Hd m g db allow H1 H2 H3 H4 H5 H6. destruct (document_roundtrip lang_check dig Hd m g db allow H1 H2 H3 H4 H5 H6) as [m' [g' [K1 [_ [K2 [_ [_ [_ [K3 _]]]]]]]]].
  exists m', g'. split; [exact K1|]. apply answers_depend_on_uses; [apply proper_reach; exact H3|apply proper_reach; exact K3|apply same_repertoire_uses; exact K2].
Qed.

(** ** Witnesses *)
Definition addw (a b : cps) (t w : string) := OpAddVariant a (mkVariant b (Some t) (Some w) None None []).
Definition one_order := [addc [97]; addc [98]; addw [97] [98] "blocked" "x"; addw [97] [98] "allocatable" "y"].
Definition other_order := [addc [97]; addc [98]; addw [97] [98] "allocatable" "y"; addw [97] [98] "blocked" "x"].
Lemma order_matters : exists r r' label, reachable r /\ reachable r' /\
  (forall c, match lookup r c, lookup r' c with
             | Some ch, Some ch' => ch_cp ch' = ch_cp ch /\ ch_when ch' = ch_when ch /\ ch_not_when ch' = ch_not_when ch /\ forall v, In v (get_variants ch') <-> In v (get_variants ch)
             | None, None => True
             | _, _ => False
             end) /\
  map (fun z => (ls_cp z, ls_disp z)) (fst (compute_label_disposition no_rules r [] (fun _ => "Latin") true label false false false [])) = [([98], Some "blocked"); ([97], Some "valid")] /\
  map (fun z => (ls_cp z, ls_disp z)) (fst (compute_label_disposition no_rules r' [] (fun _ => "Latin") true label false false false [])) = [([98], Some "allocatable"); ([97], Some "valid")].
Proof.
  exists (built one_order), (built other_order), [97]. split; [apply built_reachable|]. split; [apply built_reachable|]. split.
  - intro c. rewrite !lookup_lk. set (r := built one_order). set (r' := built other_order). vm_compute in r, r'. subst r r'.
    destruct c as [|x c]; [exact I|]. unfold lk, bucket. cbn [rep_chars dget].
    destruct (N.eqb x 97) eqn:E1.
    + cbn [find ch_cp]. destruct (cps_eqb (x :: c) [97]); [|exact I]. repeat (split; [reflexivity|]). intro v. vm_compute. tauto.
    + destruct (N.eqb x 98); [|exact I]. cbn [find ch_cp]. destruct (cps_eqb (x :: c) [98]); [|exact I]. repeat (split; [reflexivity|]). intro v. reflexivity.
  - split; vm_compute; reflexivity.
Qed.

(** The same entries put together differently: in another order, with other
    comments, tags and references, once with a range and once without. *)
Definition one_way := [OpAddRange 97 99 None [] [] None None false; addc [97; 98]; addc [120]; addv [97; 98] [120] (Some "blocked"); addv [120] [97; 98] None; addv [120] [97] None].
Definition other_way := [addc [120]; addv [120] [97] None; OpAddChar [99] (Some "c") ["0"] ["t"] None None; OpAddChar [97; 98] None [] [] None None;
  OpAddVariant [120] (mkVariant [97; 98] None None None (Some "comment") ["1"]); addv [97; 98] [120] (Some "blocked"); addc [98]; addc [97]].
Definition same_variantb (v w : variant) : bool :=
  (cps_eqb (v_cp v) (v_cp w) && ostring_eqb (v_type v) (v_type w) && ostring_eqb (v_when v) (v_when w) && ostring_eqb (v_not_when v) (v_not_when w))%bool.
Fixpoint all2b {A} (f : A -> A -> bool) (l l' : list A) : bool :=
  match l, l' with [], [] => true | a :: l1, b :: l2 => (f a b && all2b f l1 l2)%bool | _, _ => false end.
Definition same_useb (a b : char) : bool :=
  (cps_eqb (ch_cp a) (ch_cp b) && ostring_eqb (ch_when a) (ch_when b) && ostring_eqb (ch_not_when a) (ch_not_when b) && all2b same_variantb (get_variants a) (get_variants b))%bool.
Definition same_usesb (r r' : repertoire) : bool :=
  (forallb (fun a => existsb (same_useb a) (all_chars r')) (all_chars r) && forallb (fun b => existsb (fun a => cps_eqb (ch_cp a) (ch_cp b)) (all_chars r)) (all_chars r'))%bool.
Lemma same_useb_sound : forall a b, same_useb a b = true -> same_use a b.
Proof.
  intros a b H. unfold same_useb in H. rewrite !andb_true_iff, cps_eqb_eq, !ostring_eqb_eq in H. destruct H as [[[H1 H2] H3] H4]. repeat split; try congruence. clear H1 H2 H3.
  revert H4. generalize (get_variants a), (get_variants b). induction l as [|v l IH]; intros [|w l'] H; try discriminate; [constructor|]. cbn [all2b] in H. apply andb_true_iff in H. destruct H as [H1 H2].
  constructor; [|apply IH; exact H2]. unfold same_variantb in H1. rewrite !andb_true_iff, cps_eqb_eq, !ostring_eqb_eq in H1. repeat split; symmetry; apply H1.
Qed.
Lemma same_usesb_sound : forall r r', reachable r -> reachable r' -> same_usesb r r' = true -> same_uses r r'.
Proof.
  intros r r' H H' E c. apply reachable_wf in H. apply reachable_wf in H'. unfold same_usesb in E. apply andb_true_iff in E. rewrite !forallb_forall in E. destruct E as [E1 E2]. rewrite !lookup_lk.
  destruct (lk r c) as [a|] eqn:A.
  - pose proof (lk_in_all r c a H A) as Ha. apply E1 in Ha. apply existsb_exists in Ha. destruct Ha as [b [Hb S]]. apply same_useb_sound in S. apply (in_all_chars_lk r' b H') in Hb.
    pose proof (lk_cp _ _ _ A) as K. destruct S as [S1 S]. rewrite S1, K in Hb. rewrite Hb. split; assumption.
  - destruct (lk r' c) as [b|] eqn:B; [|exact I]. pose proof (lk_in_all r' c b H' B) as Hb. apply E2 in Hb. apply existsb_exists in Hb. destruct Hb as [a [Ha S]]. apply cps_eqb_eq in S.
    apply (in_all_chars_lk r a H) in Ha. rewrite S, (lk_cp _ _ _ B) in Ha. congruence.
Qed.
Lemma built_differently : reachable (built one_way) /\ reachable (built other_way) /\ same_uses (built one_way) (built other_way) /\ built one_way <> built other_way /\
  map ls_cp (fst (compute_label_disposition no_rules (built one_way) [] (fun _ => "Latin") true [120] false false false [])) = [[97]; [97; 98]; [120]].
Proof.
  split; [apply built_reachable|]. split; [apply built_reachable|]. split; [|split; [intro H; vm_compute in H; discriminate|vm_compute; reflexivity]].
  apply same_usesb_sound; [apply built_reachable|apply built_reachable|vm_compute; reflexivity].
Qed.
