(** Sample LGRs whose union and intersection are tested with labels. *)
From Verif Require Import Base BaseFacts CharModel RepSpec RepProofs ActionModel LabelModel LabelSpec LgrModel LgrSpec LgrReach LgrInv LgrFinal MetaModel ValidateSpec ValidateFinal
  CompareModel CompareSpec CompareFinal CompareWitness CombineSpec CombineIndex ValidateProofs HarmonizeWitness CombineWitness CompareLabelSpec CompareLabel.
Open Scope string_scope.
Open Scope N_scope.
Open Scope list_scope.

Definition plain_doc (ops : list lgr_op) : doc := doc_of ops (lang_meta [] None None) [] [].
Definition never : rule_oracle := fun _ _ _ => false.
Definition complains (rm : rule_oracle) (d : doc) (acts : list action) (label : cps) : bool :=
  match test_label_eligible rm (lg_rep (doc_lgr d)) acts label false with Ok e => match el_invalid e with [] => false | _ => true end | Raise _ => true end.
Lemma complains_iff : forall rm d acts label, complains rm d acts label = false <-> no_complaint rm d acts label.
Proof.
  intros rm d acts label. unfold complains, no_complaint. destruct (test_label_eligible rm (lg_rep (doc_lgr d)) acts label false) as [e|e].
  - destruct (el_invalid e) eqn:E; split; auto; try discriminate; [eauto|]. intros [e' [H1 H2]]. injection H1 as <-. congruence.
  - split; [discriminate|]. intros [e' [H _]]. discriminate.
Qed.
Lemma complaint : forall rm d acts label, complains rm d acts label = true -> ~ no_complaint rm d acts label.
Proof. intros rm d acts label H N. apply complains_iff in N. congruence. Qed.

Lemma entries_checked : forall d (P : cps -> char -> bool), input_ok d -> forallb (fun ch => P (ch_cp ch) ch) (all_chars (lg_rep (doc_lgr d))) = true ->
  forall c ch, entry_of d c = Some ch -> P c ch = true.
Proof.
  intros d P [T _] H c ch E. unfold entry_of in E. rewrite lookup_lk in E. rewrite forallb_forall in H. rewrite <- (lk_cp _ _ _ E). apply H. eapply lk_in_all; [|exact E].
  apply lgr_reachable_wf, tidy_reachable. exact T.
Qed.
Lemma one_by_oneb : forall d, input_ok d -> forallb (fun ch => match ch_cp ch with [_] => true | _ => false end) (all_chars (lg_rep (doc_lgr d))) = true -> one_by_one d.
Proof.
  intros d I H c Hc. destruct (entry_of d c) as [ch|] eqn:E; [|congruence]. pose proof (entries_checked d (fun c _ => match c with [_] => true | _ => false end) I H c ch E) as X.
  cbv beta in X. destruct c as [|x [|y c]]; try discriminate. eauto.
Qed.
Lemma freeb : forall d, input_ok d -> forallb (fun ch => none_of (ch_when ch) && none_of (ch_not_when ch)) (all_chars (lg_rep (doc_lgr d))) = true -> free d.
Proof.
  intros d I H c ch E. pose proof (entries_checked d (fun _ ch => none_of (ch_when ch) && none_of (ch_not_when ch)) I H c ch E) as X. apply andb_prop in X. destruct X. auto using none_of_sound.
Qed.

(** A context rule that never holds. *)
Definition strict : doc := plain_doc [tag_cp [1] [] (Some "r"); lcp [2]].
Definition two_parts : doc := plain_doc [lcp [1]; lcp [2; 3]].
Definition three_parts : doc := plain_doc [lcp [1]; lcp [2; 3]; lcp [1; 2]].
Definition one_pair : doc := plain_doc [lcp [1; 2]].
Definition two_singles : doc := plain_doc [lcp [1]; lcp [2]].
(** Complete sets of variants. *)
Definition twins : doc := plain_doc [lcp [1]; lcp [2]; lcp [3]; lcp [4]; lvar [1] [2]; lvar [2] [1]; lvar [3] [4]; lvar [4] [3]].
Definition others : doc := plain_doc [lcp [1]; lcp [2]; lcp [3]; lcp [5]; lvar [1] [2]; lvar [2] [1]; lvar [3] [5]; lvar [5] [3]].
Definition lone : doc := plain_doc [lcp [3]].
Definition u_of (a b : doc) : doc := result (union_lgrs backwards today a b).
Definition i_of (a b : doc) : doc := result (intersect_lgrs backwards today a b).
Ltac input := apply doc_of_ok; vm_compute; reflexivity.
Lemma strict_ok : input_ok strict. Proof. input. Qed.
Lemma two_parts_ok : input_ok two_parts. Proof. input. Qed.
Lemma three_parts_ok : input_ok three_parts. Proof. input. Qed.
Lemma one_pair_ok : input_ok one_pair. Proof. input. Qed.
Lemma two_singles_ok : input_ok two_singles. Proof. input. Qed.
Lemma twins_ok : input_ok twins. Proof. input. Qed.
Lemma others_ok : input_ok others. Proof. input. Qed.
Lemma lone_ok : input_ok lone. Proof. input. Qed.
Ltac united := apply union_result; vm_compute; reflexivity.
Ltac met := apply inter_result; vm_compute; reflexivity.

(** The context rule of a code point is lost, even with the LGR itself. *)
Lemma intersection_context_refuted : exists o today d1 d rm label, permutes o /\ input_ok d1 /\ intersection_is o today d1 d1 d /\ one_by_one d1 /\
  no_complaint rm d [] label /\ ~ no_complaint rm d1 [] label.
Proof.
  exists backwards, today, strict, (i_of strict strict), never, [2; 1]%N. split; [exact backwards_permutes|]. split; [exact strict_ok|]. split; [met|]. split.
  - apply one_by_oneb; [exact strict_ok|vm_compute; reflexivity].
  - split; [apply complains_iff; vm_compute; reflexivity|apply complaint; vm_compute; reflexivity].
Qed.
Lemma union_context_refuted : exists o today d1 d rm label, permutes o /\ input_ok d1 /\ union_is o today d1 d1 d /\
  no_complaint rm d [] label /\ ~ no_complaint rm d1 [] label.
Proof.
  exists backwards, today, strict, (u_of strict strict), never, [2; 1]%N. split; [exact backwards_permutes|]. split; [exact strict_ok|]. split; [united|].
  split; [apply complains_iff; vm_compute; reflexivity|apply complaint; vm_compute; reflexivity].
Qed.
(** The sequences of the other LGR take a part of the label away. *)
Lemma union_sequences_refuted : exists o today d1 d2 d rm label, permutes o /\ input_ok d1 /\ input_ok d2 /\ union_is o today d1 d2 d /\
  no_complaint rm d1 [] label /\ ~ no_complaint rm d [] label.
Proof.
  exists backwards, today, two_parts, one_pair, (u_of two_parts one_pair), never, [1; 2; 3]%N. split; [exact backwards_permutes|]. split; [exact two_parts_ok|]. split; [exact one_pair_ok|].
  split; [united|]. split; [apply complains_iff; vm_compute; reflexivity|apply complaint; vm_compute; reflexivity].
Qed.
Lemma intersection_sequences_refuted : exists o today d1 d2 d rm label, permutes o /\ input_ok d1 /\ input_ok d2 /\ intersection_is o today d1 d2 d /\
  no_complaint rm d1 [] label /\ no_complaint rm d2 [] label /\ ~ no_complaint rm d [] label.
Proof.
  exists backwards, today, one_pair, two_singles, (i_of one_pair two_singles), never, [1; 2]%N. split; [exact backwards_permutes|]. split; [exact one_pair_ok|]. split; [exact two_singles_ok|].
  split; [met|]. split; [apply complains_iff; vm_compute; reflexivity|]. split; [apply complains_iff; vm_compute; reflexivity|apply complaint; vm_compute; reflexivity].
Qed.
Lemma intersection_longest_refuted : exists o today d1 d2 d rm label, permutes o /\ input_ok d1 /\ input_ok d2 /\ intersection_is o today d1 d2 d /\ free d1 /\
  no_complaint rm d [] label /\ ~ no_complaint rm d1 [] label.
Proof.
  exists backwards, today, three_parts, two_parts, (i_of three_parts two_parts), never, [1; 2; 3]%N. split; [exact backwards_permutes|]. split; [exact three_parts_ok|]. split; [exact two_parts_ok|].
  split; [met|]. split.
  - apply freeb; [exact three_parts_ok|vm_compute; reflexivity].
  - split; [apply complains_iff; vm_compute; reflexivity|apply complaint; vm_compute; reflexivity].
Qed.

(** The union forgets the variants of the first LGR: labels no longer collide. *)
Lemma letters_doc : forall d, input_ok d -> lettersb (lg_rep (doc_lgr d)) = true -> letters (lg_rep (doc_lgr d)).
Proof. intros d [T _] H. apply lettersb_sound; [|exact H]. apply lgr_reachable_wf, tidy_reachable. exact T. Qed.
Definition complete_doc (d : doc) : Prop := letters (lg_rep (doc_lgr d)) /\ symmetric (lg_rep (doc_lgr d)) /\ transitive (lg_rep (doc_lgr d)).
Ltac complete_one ok := split; [apply letters_doc; [exact ok|vm_compute; reflexivity]|];
  split; [apply check_symmetry_decides; [apply tidy_reachable; apply ok|vm_compute; eexists; eexists; reflexivity]|apply transitive_checked; [apply tidy_reachable; apply ok|vm_compute; reflexivity]].
Lemma twins_complete : complete_doc twins. Proof. complete_one twins_ok. Qed.
Lemma others_complete : complete_doc others. Proof. complete_one others_ok. Qed.
Lemma lone_complete : complete_doc lone. Proof. complete_one lone_ok. Qed.
Lemma apart_indices : forall rm d a b, index_once rm (lg_rep (doc_lgr d)) a <> index_once rm (lg_rep (doc_lgr d)) b -> ~ collide rm d a b.
Proof. intros rm d a b H [i [[A _] [B _]]]. congruence. Qed.
Lemma twins_collide : collide never twins [1; 3] [2; 3].
Proof.
  destruct twins_complete as [L [S1 T]]. apply collide_iff; [apply tidy_reachable; apply twins_ok|apply letters_simple; assumption|apply in_lgrb_sound; vm_compute; reflexivity|apply in_lgrb_sound; vm_compute; reflexivity|].
  apply variant_labels_iff. constructor; [right|constructor; [left; reflexivity|constructor]]. apply has_targetb_iff. vm_compute. reflexivity.
Qed.
Lemma union_collisions_refuted : exists o today d1 d2 d rm a b, permutes o /\ input_ok d1 /\ input_ok d2 /\ union_is o today d1 d2 d /\
  symmetric (lg_rep (doc_lgr d1)) /\ transitive (lg_rep (doc_lgr d1)) /\ collide rm d1 a b /\ ~ collide rm d a b.
Proof.
  exists backwards, today, twins, lone, (u_of twins lone), never, [1; 3]%N, [2; 3]%N. split; [exact backwards_permutes|]. split; [exact twins_ok|]. split; [exact lone_ok|]. split; [united|].
  split; [apply twins_complete|]. split; [apply twins_complete|]. split; [exact twins_collide|apply apart_indices; vm_compute; discriminate].
Qed.
Lemma meeting_sample : permutes backwards /\ input_ok twins /\ input_ok others /\ intersection_is backwards today twins others (i_of twins others) /\
  complete_doc twins /\ complete_doc others /\ (forall x, In x [1; 3] \/ In x [2; 3] -> both_have twins others [x]) /\
  index_once never (lg_rep (doc_lgr (i_of twins others))) [2; 3] = Ok [1; 3] /\ index_once never (lg_rep (doc_lgr twins)) [4] = Ok [3] /\ one_by_one twins /\ one_by_one others /\ free twins.
Proof.
  split; [exact backwards_permutes|]. split; [exact twins_ok|]. split; [exact others_ok|]. split; [met|]. split; [exact twins_complete|]. split; [exact others_complete|].
  split; [intros x H; cbn in H; assert (x = 1%N \/ x = 2%N \/ x = 3%N) as [-> | [-> | ->]] by (clear - H; intuition); split; vm_compute; discriminate|].
  split; [vm_compute; reflexivity|]. split; [vm_compute; reflexivity|].
  split; [apply one_by_oneb; [exact twins_ok|vm_compute; reflexivity]|]. split; [apply one_by_oneb; [exact others_ok|vm_compute; reflexivity]|].
  apply freeb; [exact twins_ok|vm_compute; reflexivity].
Qed.
