(** What labels get depends only on the entries of the LGR (C75).  Statements only. *)
From Verif Require Import Base UtilsModel CharModel RepSpec RefModel ActionModel LgrModel LgrSpec Rfc7940Model MetaModel MetaSpec CompareSpec LabelModel LabelFinal
  SerialModel SerialSpec SerialWitness SameSpec SameFinal.
Open Scope string_scope.
Open Scope list_scope.

(** C75: two repertoires with the same code points and sequences, contexts and
    variants answer every question about every label alike, however they were
    built. *)
Theorem C75_answers_partial : forall r r', reachable r -> reachable r' -> same_uses r r' -> forall rm, same_answers rm r r'.
Proof. exact answers_depend_on_uses. Qed.
Print Assumptions C75_answers_partial.

(** Expanding the ranges of an LGR changes no answer. *)
Theorem C75_expanding : forall g, tidy g -> forall rm, same_answers rm (lg_rep g) (lg_rep (fst (lgr_expand_ranges g))).
Proof. exact expanding_keeps_answers. Qed.
Print Assumptions C75_expanding.

(** The LGR read back from what was written gives the same answers. *)
Theorem C75_written : forall lang_check dig, dig 46 = false -> forall m g db allow,
  meta_writable lang_check dig m -> comments_writable (lg_refs g) ->
  proper g -> tags_writable g -> ~ defined_ref g "" -> admits db allow g ->
  exists m' g', parse_document lang_check dig db allow false (serialize_lgr m g) = (Some (m', g'), Ok tt) /\
    forall rm, same_answers rm (lg_rep g) (lg_rep g').
Proof. exact writing_keeps_answers. Qed.
Print Assumptions C75_written.

(** The order in which two variants with the same target were added decides the
    disposition of the variant label. *)
Theorem C75_order_of_variants_refuted : exists r r' label, reachable r /\ reachable r' /\
  (forall c, match lookup r c, lookup r' c with
             | Some ch, Some ch' => ch_cp ch' = ch_cp ch /\ ch_when ch' = ch_when ch /\ ch_not_when ch' = ch_not_when ch /\
                                    forall v, In v (get_variants ch') <-> In v (get_variants ch)
             | None, None => True
             | _, _ => False
             end) /\
  map (fun z => (ls_cp z, ls_disp z)) (fst (compute_label_disposition no_rules r [] (fun _ => "Latin") true label false false false [])) =
    [([98], Some "blocked"); ([97], Some "valid")] /\
  map (fun z => (ls_cp z, ls_disp z)) (fst (compute_label_disposition no_rules r' [] (fun _ => "Latin") true label false false false [])) =
    [([98], Some "allocatable"); ([97], Some "valid")].
Proof. exact order_matters. Qed.
Print Assumptions C75_order_of_variants_refuted.

(** The same entries in another order, with other comments, tags and
    references, once with a range and once without. *)
Example C75_sample : reachable (built one_way) /\ reachable (built other_way) /\ same_uses (built one_way) (built other_way) /\ built one_way <> built other_way /\
  map ls_cp (fst (compute_label_disposition no_rules (built one_way) [] (fun _ => "Latin") true [120] false false false [])) = [[97]; [97; 98]; [120]].
Proof. exact built_differently. Qed.
Example C75_sample_written : proper s_lgr /\ tags_writable s_lgr /\ comments_writable (lg_refs s_lgr) /\ ~ defined_ref s_lgr "" /\ admits None true s_lgr.
Proof. split; [exact s_proper|]. split; [exact s_tags|]. split; [exact s_comments|]. split; [intro H; apply H; vm_compute; reflexivity|]. left. reflexivity. Qed.
