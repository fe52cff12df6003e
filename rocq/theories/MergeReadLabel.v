From Coq Require Import Permutation.
From Verif Require Import Base CharModel RepSpec ActionModel ActionSpec LabelModel LabelSpec LgrModel LgrSpec ValidateSpec MetaModel MetaSpec CompareLabelSpec MergeModel MergeSpec CombineSpec.
From Verif Require Import MergeLabelSpec MergeLabel MergeReadModel MergeReadSpec MergeReadFinal.
Open Scope string_scope.
Open Scope N_scope.
Open Scope list_scope.

Lemma merge_set_verdict : forall on ov, any_order on -> any_order ov -> forall lang_check dig, dig 46 = false -> (forall c, 48 <= c <= 57 -> dig c = true) ->
  forall rms rm today l st m g, full_date today -> (forall x, In x l -> storable lang_check dig x) -> NoDup (map get_script (map snd l)) ->
  merge_lgr_set on ov (map snd l) = Ok st -> merge_set lang_check dig on ov today l = Ok (m, g) ->
  rules_follow rms rm (map snd l) -> no_selves (lg_rep (mg_lgr st)) ->
  exists l', Permutation (map snd l) l' /\ in_script_order l' /\
    forall label, label <> [] -> (forall i x, nth_error label i = Some x -> fits rms (map snd l) label i x) ->
    exists e, test_label_eligible rm (lg_rep g) (mg_actions st) label false = Ok e /\ el_invalid e = [] /\
      ((exists mb a, first_triggered rms l' label [] false mb a /\ el_disp e = Some (a_disp a) /\ (el_ok e = true <-> a_disp a <> "invalid")) \/
       ((forall mb a, In mb (map snd l) -> ~ triggered rms mb label [] false a) /\ el_disp e = Some "valid" /\ el_ok e = true)).
Proof.
  intros on ov On Ov lang_check dig D1 D2 rms rm today l st m g Ht Hl Hn E1 E2 F S.
  pose proof (merge_set_rebuilt on ov On Ov lang_check dig D1 D2 today l st m g Ht Hl Hn E1 E2) as R.
  assert (T : forall x, In x (map snd l) -> tidy (mb_lgr x)).
  { intros x H. apply in_map_iff in H. destruct H as [y [<- Hy]]. apply (Hl y Hy). }
  exact (merged_verdict on ov Ov rms rm (map snd l) st T E1 F (lg_rep g) R S).
Qed.
