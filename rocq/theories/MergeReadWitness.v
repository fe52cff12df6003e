From Coq Require Import Permutation.
From Verif Require Import Base BaseFacts CharModel RepSpec RepProofs VariantProofs IterProofs UtilsModel RefModel RefSpec ActionModel LgrModel LgrSpec LgrProofs LgrReach.
From Verif Require Import ValidateModel ValidateSpec ValidateProofs ValidateFinal MetaModel MetaSpec SerialModel SerialSpec SerialFinal LgrInv LgrRefs LgrFinal CompareSpec CompareWitness SerialWitness.
From Verif Require Import MergeMetaModel MergeMetaSpec MergeMetaWitness.
From Verif Require Import MergeModel MergeSpec MergeRefs MergeFold MergeFinal MergeWitness MergeSucceedSpec MergeSucceed MergeSucceedWitness MergeAgreeWitness MergeReadModel MergeReadSpec.
Open Scope string_scope.
Open Scope N_scope.
Open Scope list_scope.

(** ** Checks *)
Definition spacelessb (s : string) : bool := negb (memb N.eqb 32 (txt s)).
Lemma spacelessb_sound : forall s, spacelessb s = true -> spaceless s.
Proof. intros s H. unfold spacelessb in H. apply negb_true_iff in H. intro X. apply (memb_In _ _ N_eqb_iff) in X. congruence. Qed.
Definition wordsb (l : list string) : bool := (negb (match l with [""] => true | _ => false end) && forallb spacelessb l)%bool.
Lemma wordsb_sound : forall l, wordsb l = true -> writable_words l.
Proof.
  intros l H. apply andb_true_iff in H. destruct H as [H1 H2]. split; [intro X; subst; discriminate|]. rewrite forallb_forall in H2. intros w Hw. apply spacelessb_sound. auto.
Qed.
Definition printableb (m : member) : bool :=
  (spacelessb (get_script m) && forallb (fun ch => wordsb (ch_tags ch)) (all_chars (lg_rep (mb_lgr m))) &&
   match mb_extensions m with None => true | _ => false end &&
   match dget String.eqb "" (rm_refs (lg_refs (mb_lgr m))) with None => true | _ => false end &&
   forallb (fun kv => match ref_comment (snd kv) with Some "" => false | _ => true end) (rm_refs (lg_refs (mb_lgr m))))%bool.
Lemma printableb_sound : forall m, lgr_reachable (mb_lgr m) -> printableb m = true -> printable m.
Proof.
  intros m R H. unfold printableb in H. rewrite !andb_true_iff in H. destruct H as [[[[H1 H2] H3] H4] H5]. constructor.
  - apply spacelessb_sound. exact H1.
  - intros c ch Hc. rewrite lookup_lk in Hc. rewrite forallb_forall in H2. apply wordsb_sound. apply H2. eapply lk_in_all; [apply lgr_reachable_wf; exact R|exact Hc].
  - intros f x t E. rewrite E in H3. discriminate.
  - intro X. apply X. destruct (dget String.eqb "" _); [discriminate|reflexivity].
  - intros id r E X. apply (dget_In _ string_eqb_iff) in E. rewrite forallb_forall in H5. specialize (H5 _ E). cbn in H5. rewrite X in H5. discriminate.
Qed.
Lemma s_meta_fine : meta_writable every_lang MetaSpec.ascii_digit s_meta /\ no_return s_meta.
Proof. apply (sample_writable s_meta). left. reflexivity. Qed.
Lemma today_full : full_date MergeMetaWitness.today.
Proof. exists (mkDay 2026 11 17). split; [split; [cbn [d_year]; lia|cbn [d_year d_month d_day]; apply Day_30; [right; right; right; left; reflexivity|lia]]|reflexivity]. Qed.
Lemma digit_digits : forall c, 48 <= c <= 57 -> MetaSpec.ascii_digit c = true.
Proof. intros c [H1 H2]. apply N.leb_le in H1. apply N.leb_le in H2. unfold MetaSpec.ascii_digit. rewrite H1, H2. reflexivity. Qed.
Definition with_meta (l : list member) : list (metadata * member) := map (fun m => (s_meta, m)) l.
Definition merge_here := merge_set every_lang MetaSpec.ascii_digit given given MergeMetaWitness.today.
Lemma all_storable : forall l, (forall m, In m l -> proper (mb_lgr m)) -> forallb printableb l = true -> forall x, In x (with_meta l) -> storable every_lang MetaSpec.ascii_digit x.
Proof.
  intros l P H x Hx. apply in_map_iff in Hx. destruct Hx as [m [<- Hm]]. cbn [fst snd]. destruct s_meta_fine as [A B]. split; [exact A|]. split; [exact B|].
  pose proof (proper_tidy _ (P m Hm)) as T. split; [exact T|]. split; [apply proper_ref_tidy; apply P; exact Hm|]. apply printableb_sound; [apply tidy_reachable; exact T|].
  rewrite forallb_forall in H. apply H. exact Hm.
Qed.
Lemma map_with : forall l, map snd (with_meta l) = l.
Proof. induction l as [|m l IH]; [reflexivity|]. cbn. f_equal. exact IH. Qed.

(** ** A set that can be merged *)
Lemma digits_storable : forall x, In x (with_meta digits) -> storable every_lang MetaSpec.ascii_digit x.
Proof. apply all_storable; [intros m Hm; apply digits_meet; exact Hm|vm_compute; reflexivity]. Qed.
Definition shown_set (x : res (metadata * lgr)) (l : list cps) : option (list (option (option string * list string * list string * option string * list (cps * option string)))) :=
  match x with Ok (_, g) => Some (map (shown_char g) l) | Raise _ => None end.
Lemma digits_read : shown_set (merge_here (with_meta digits)) [[1]; [9]; [10]; [21]] =
  Some [Some (None, ["1"; "0"], [], None, [([2], None)]); Some (None, ["0"], [], Some "B-digit", [([10], Some "B-initial"); ([10], None)]);
        Some (None, ["2"], [], None, [([9], None)]); Some (None, ["2"; "0"], [], None, [])].
Proof. vm_compute. reflexivity. Qed.
Lemma agreeing_storable : map snd (with_meta agreeing) = agreeing /\ (forall x, In x (with_meta agreeing) -> storable every_lang MetaSpec.ascii_digit x).
Proof. split; [apply map_with|]. apply all_storable; [exact agreeing_proper|vm_compute; reflexivity]. Qed.

(** ** A citation that gets lost *)
Definition keeper : member := of_ops "A" [LAddReference "Standard" None None; cp_r 9 []; cp_r 1 ["0"]].
Definition loser : member := of_ops "B" [LAddReference "Standard" None (Some "5"); cp_r 9 ["5"]].
Definition loss : list member := [keeper; loser].
Lemma citation_lost : exists l today m g x c t ch, (forall y, In y l -> storable every_lang MetaSpec.ascii_digit y /\ proper (mb_lgr (snd y))) /\ NoDup (map get_script (map snd l)) /\
  one_speaks (map snd l) /\ merge_set every_lang MetaSpec.ascii_digit given given today l = Ok (m, g) /\
  In x l /\ cites (mb_lgr (snd x)) c t /\ lookup (lg_rep g) c = Some ch /\ ch_refs ch = [] /\ exists id, text_in g id = Some t.
Proof.
  assert (P : forall m, In m loss -> proper (mb_lgr m)) by (intros m [<-|[<-|[]]]; apply proper_of; vm_compute; reflexivity).
  assert (R : forall m, In m loss -> lgr_reachable (mb_lgr m)) by (intros m Hm; apply tidy_reachable, proper_tidy, P, Hm).
  assert (H : exists m g ch, merge_here (with_meta loss) = Ok (m, g) /\ lookup (lg_rep g) [9] = Some ch /\ ch_refs ch = [] /\ text_in g "0" = Some "Standard").
  { eexists _, _, _. split; [vm_compute; reflexivity|]. split; [vm_compute; reflexivity|]. split; vm_compute; reflexivity. }
  destruct H as [m [g [ch [H1 [H2 [H3 H4]]]]]].
  exists (with_meta loss), MergeMetaWitness.today, m, g, (s_meta, loser), [9], "Standard", ch. split; [|split; [|split; [|split; [|split; [|split]]]]].
  - intros y Hy. split; [revert y Hy; apply all_storable; [exact P|vm_compute; reflexivity]|]. apply P. rewrite <- (map_with loss). apply in_map. exact Hy.
  - rewrite map_with. repeat constructor; cbn; intuition discriminate.
  - rewrite map_with. apply quiet_speaks. unfold loss in *. repeat (apply FOP_cons || apply FOP_nil || apply Forall_cons || apply Forall_nil); (apply quiet_pair_sound; [apply R; cbn; auto|vm_compute; reflexivity]).
  - exact H1.
  - right. left. reflexivity.
  - vm_compute. auto.
  - eauto.
Qed.

(** ** Both kinds of context *)
Definition wants : member := of_ops "A" [cp_w 9 (Some "start")].
Definition shuns : member := of_ops "B" [LAddCp [9] None [] [] None (Some "end") None false false].
Definition odds : list member := [wants; shuns].
Definition strictly (m : metadata) (g : lgr) : res unit := snd (parse_document every_lang MetaSpec.ascii_digit None false false (serialize_lgr m g)).
Lemma both_contexts : exists l today m g c ch e, (forall y, In y l -> storable every_lang MetaSpec.ascii_digit y /\ proper (mb_lgr (snd y))) /\ NoDup (map get_script (map snd l)) /\
  merge_set every_lang MetaSpec.ascii_digit given given today l = Ok (m, g) /\ lookup (lg_rep g) c = Some ch /\ ch_when ch <> None /\ ch_not_when ch <> None /\
  snd (parse_document every_lang MetaSpec.ascii_digit None false false (serialize_lgr m g)) = Raise e.
Proof.
  assert (P : forall m, In m odds -> proper (mb_lgr m)) by (intros m [<-|[<-|[]]]; apply proper_of; vm_compute; reflexivity).
  assert (H : exists m g ch e, merge_here (with_meta odds) = Ok (m, g) /\ lookup (lg_rep g) [9] = Some ch /\ ch_when ch <> None /\ ch_not_when ch <> None /\ strictly m g = Raise e).
  { eexists _, _, _, _. split; [vm_compute; reflexivity|]. split; [vm_compute; reflexivity|]. split; [vm_compute; discriminate|]. split; [vm_compute; discriminate|]. vm_compute. reflexivity. }
  destruct H as [m [g [ch [e [H1 [H2 [H3 [H4 H5]]]]]]]].
  exists (with_meta odds), MergeMetaWitness.today, m, g, [9], ch, e. split; [|split; [|split; [|split; [|split; [|split]]]]].
  - intros y Hy. split; [revert y Hy; apply all_storable; [exact P|vm_compute; reflexivity]|]. apply P. rewrite <- (map_with odds). apply in_map. exact Hy.
  - rewrite map_with. repeat constructor; cbn; intuition discriminate.
  - exact H1.
  - exact H2.
  - exact H3.
  - exact H4.
  - exact H5.
Qed.

Lemma digits_succeed : (forall m, In m (map snd (with_meta digits)) -> proper (mb_lgr m) /\ texts_once m /\ contexts_named m) /\
  NoDup (map get_script (map snd (with_meta digits))) /\ one_speaks (map snd (with_meta digits)).
Proof. rewrite map_with. destruct digits_meet as [A [B [C _]]]. auto. Qed.
Lemma nameless_storable : forall x, In x (with_meta [nameless]) -> storable every_lang MetaSpec.ascii_digit x.
Proof. apply all_storable; [intros m [<-|[]]; apply proper_of; vm_compute; reflexivity|vm_compute; reflexivity]. Qed.
Lemma nameless_merge : exists e, merge_here (with_meta [nameless]) = Raise e.
Proof. eexists. vm_compute. reflexivity. Qed.
Lemma nameless_fails : exists l e, (forall x, In x l -> storable every_lang MetaSpec.ascii_digit x) /\ merge_here l = Raise e.
Proof. destruct nameless_merge as [e E]. exists (with_meta [nameless]), e. split; [exact nameless_storable|exact E]. Qed.
