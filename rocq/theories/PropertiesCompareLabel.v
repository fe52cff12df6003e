(** Property theorems about the labels of the union and of the intersection of
    two LGRs (C97).  Statements only.  [rm] is the outcome of evaluating a
    rule, any function. *)
From Verif Require Import Base CharModel RepSpec ActionModel LabelModel LabelSpec LgrModel ValidateSpec CompareModel CompareSpec CombineSpec CompareLabelSpec CompareLabel CompareWitness CompareLabelWitness.
Open Scope string_scope.
Open Scope N_scope.
Open Scope list_scope.

(** C97: a label of the intersection is made of code points and sequences that
    both LGRs have; a label whose code points are in both is one of it. *)
Theorem C97_intersection : forall o today d1 d2 d, permutes o -> input_ok d1 -> input_ok d2 -> intersection_is o today d1 d2 d ->
  forall rm acts label, no_complaint rm d acts label -> made_of (fun c _ => both_have d1 d2 c) 0 label.
Proof. exact inter_made. Qed.
Print Assumptions C97_intersection.
Theorem C97_intersection_covers : forall o today d1 d2 d, permutes o -> input_ok d1 -> input_ok d2 -> intersection_is o today d1 d2 d ->
  forall rm acts label, label <> [] -> (forall x, In x label -> both_have d1 d2 [x]) -> no_complaint rm d acts label.
Proof. exact inter_passes. Qed.
Print Assumptions C97_intersection_covers.
(** So, without sequences, a label of both is one of the intersection; without
    context rules either, a label of the intersection is one of both. *)
Theorem C97_common_labels_partial : forall o today d1 d2 d, permutes o -> input_ok d1 -> input_ok d2 -> intersection_is o today d1 d2 d -> one_by_one d1 -> one_by_one d2 ->
  forall rm rm' acts acts' acts'' label, no_complaint rm d1 acts label -> no_complaint rm' d2 acts' label -> no_complaint rm d acts'' label.
Proof. exact inter_keeps. Qed.
Print Assumptions C97_common_labels_partial.
Theorem C97_intersection_within_partial : forall o today d1 d2 d, permutes o -> input_ok d1 -> input_ok d2 -> intersection_is o today d1 d2 d -> free d1 -> one_by_one d1 \/ one_by_one d2 ->
  forall rm rm' acts acts' label, no_complaint rm d acts label -> no_complaint rm' d1 acts' label.
Proof. exact inter_of_first. Qed.
Print Assumptions C97_intersection_within_partial.
(** In general neither holds. *)
Theorem C97_intersection_context_refuted : exists o today d1 d rm label, permutes o /\ input_ok d1 /\ intersection_is o today d1 d1 d /\ one_by_one d1 /\
  no_complaint rm d [] label /\ ~ no_complaint rm d1 [] label.
Proof. exact intersection_context_refuted. Qed.
Print Assumptions C97_intersection_context_refuted.
Theorem C97_intersection_longest_refuted : exists o today d1 d2 d rm label, permutes o /\ input_ok d1 /\ input_ok d2 /\ intersection_is o today d1 d2 d /\ free d1 /\
  no_complaint rm d [] label /\ ~ no_complaint rm d1 [] label.
Proof. exact intersection_longest_refuted. Qed.
Print Assumptions C97_intersection_longest_refuted.
Theorem C97_intersection_sequences_refuted : exists o today d1 d2 d rm label, permutes o /\ input_ok d1 /\ input_ok d2 /\ intersection_is o today d1 d2 d /\
  no_complaint rm d1 [] label /\ no_complaint rm d2 [] label /\ ~ no_complaint rm d [] label.
Proof. exact intersection_sequences_refuted. Qed.
Print Assumptions C97_intersection_sequences_refuted.
Example C97_intersection_sample : permutes backwards /\ input_ok twins /\ input_ok others /\ intersection_is backwards today twins others (i_of twins others) /\
  complete_doc twins /\ complete_doc others /\ (forall x, In x [1; 3] \/ In x [2; 3] -> both_have twins others [x]) /\
  index_once never (lg_rep (doc_lgr (i_of twins others))) [2; 3] = Ok [1; 3] /\ index_once never (lg_rep (doc_lgr twins)) [4] = Ok [3] /\ one_by_one twins /\ one_by_one others /\ free twins.
Proof. exact meeting_sample. Qed.

(** A label of the union is made of entries, each in both LGRs or allowed where
    it stands by the one that has it; a label all of whose code points are such
    is one of it. *)
Theorem C97_union : forall o today d1 d2 d, permutes o -> input_ok d1 -> input_ok d2 -> union_is o today d1 d2 d ->
  forall rm acts label, no_complaint rm d acts label -> made_of (either_allows rm d1 d2 label) 0 label.
Proof. exact union_made. Qed.
Print Assumptions C97_union.
Theorem C97_union_covers : forall o today d1 d2 d, permutes o -> input_ok d1 -> input_ok d2 -> union_is o today d1 d2 d ->
  forall rm acts label, label <> [] -> (forall i x, nth_error label i = Some x -> either_allows rm d1 d2 label [x] i) -> no_complaint rm d acts label.
Proof. exact union_passes. Qed.
Print Assumptions C97_union_covers.
(** So a label of an LGR without sequences is one of its union with any other. *)
Theorem C97_union_keeps_first_partial : forall o today d1 d2 d, permutes o -> input_ok d1 -> input_ok d2 -> union_is o today d1 d2 d -> one_by_one d1 ->
  forall rm acts acts' label, no_complaint rm d1 acts label -> no_complaint rm d acts' label.
Proof. exact union_keeps_first. Qed.
Print Assumptions C97_union_keeps_first_partial.
Theorem C97_union_keeps_second_partial : forall o today d1 d2 d, permutes o -> input_ok d1 -> input_ok d2 -> union_is o today d1 d2 d -> one_by_one d2 ->
  forall rm acts acts' label, no_complaint rm d2 acts label -> no_complaint rm d acts' label.
Proof. exact union_keeps_second. Qed.
Print Assumptions C97_union_keeps_second_partial.
(** With sequences a label can be lost, and a context rule both have is dropped. *)
Theorem C97_union_sequences_refuted : exists o today d1 d2 d rm label, permutes o /\ input_ok d1 /\ input_ok d2 /\ union_is o today d1 d2 d /\
  no_complaint rm d1 [] label /\ ~ no_complaint rm d [] label.
Proof. exact union_sequences_refuted. Qed.
Print Assumptions C97_union_sequences_refuted.
Theorem C97_union_context_refuted : exists o today d1 d rm label, permutes o /\ input_ok d1 /\ union_is o today d1 d1 d /\
  no_complaint rm d [] label /\ ~ no_complaint rm d1 [] label.
Proof. exact union_context_refuted. Qed.
Print Assumptions C97_union_context_refuted.
Example C97_union_sample : union_is backwards today twins lone (u_of twins lone) /\ complains never twins [] [1; 3] = false /\
  complains never (u_of twins lone) [] [1; 3] = false /\ complains never (u_of twins lone) [] [1; 9] = true.
Proof. split; [united|]. vm_compute. auto. Qed.

(** For LGRs with complete sets of variants, two labels collide in the
    intersection exactly when they collide in both. *)
Theorem C97_intersection_collisions : forall o today d1 d2 d, permutes o -> input_ok d1 -> input_ok d2 -> intersection_is o today d1 d2 d ->
  letters (lg_rep (doc_lgr d1)) -> letters (lg_rep (doc_lgr d2)) ->
  symmetric (lg_rep (doc_lgr d1)) -> symmetric (lg_rep (doc_lgr d2)) -> transitive (lg_rep (doc_lgr d1)) -> transitive (lg_rep (doc_lgr d2)) ->
  forall rm rm1 rm2 a b, (forall x, In x a \/ In x b -> both_have d1 d2 [x]) ->
    (collide rm d a b <-> collide rm1 d1 a b /\ collide rm2 d2 a b).
Proof. exact inter_collide. Qed.
Print Assumptions C97_intersection_collisions.
(** The union forgets the variants of code points only the first LGR has: two
    labels that collide in it are told apart in the union. *)
Theorem C97_union_collisions_refuted : exists o today d1 d2 d rm a b, permutes o /\ input_ok d1 /\ input_ok d2 /\ union_is o today d1 d2 d /\
  symmetric (lg_rep (doc_lgr d1)) /\ transitive (lg_rep (doc_lgr d1)) /\ collide rm d1 a b /\ ~ collide rm d a b.
Proof. exact union_collisions_refuted. Qed.
Print Assumptions C97_union_collisions_refuted.
