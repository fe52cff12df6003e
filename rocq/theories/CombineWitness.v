(** Samples of combined LGRs. *)
From Coq Require Import Permutation.
From Verif Require Import Base BaseFacts CharModel RepSpec RepProofs VariantProofs ActionModel LabelModel LabelSpec LabelProofs LabelIndex RefModel LgrModel LgrSpec LgrProofs LgrInv LgrTags LgrRefs LgrReach LgrFinal
  CompareModel CompareFinal PopulateModel PopulateSpec PopulateProofs PopulateFinal ValidateModel ValidateSpec ValidateProofs ValidateFinal HarmonizeModel HarmonizeSpec HarmonizeProofs HarmonizeFinal HarmonizeCopy HarmonizeWitness PopToolProofs HarmToolProofs
  MergeModel MergeProofs MergeSteps MergeLoop MergeSpec MergeRefs MergeFold MergeFinal MergeContext MergePair MergeWitness CombineSpec CombineHarm CombineIndex CombineFinal.
Open Scope N_scope.
Open Scope list_scope.

Definition no_rules : rule_oracle := fun _ _ _ => true.
Definition none_of (o : option string) : bool := match o with None => true | Some _ => false end.
Definition one_of (c : cps) : bool := match c with [_] => true | _ => false end.
Definition lettersb (r : repertoire) : bool :=
  forallb (fun ch => one_of (ch_cp ch) && none_of (ch_when ch) && none_of (ch_not_when ch) &&
    forallb (fun v => none_of (v_when v) && none_of (v_not_when v) && one_of (v_cp v)) (get_variants ch))%bool (all_chars r).
Lemma one_of_sound : forall c, one_of c = true -> exists x, c = [x]. Proof. intros [|x [|? ?]] H; try discriminate. eauto. Qed.
Lemma none_of_sound : forall o, none_of o = true -> o = None. Proof. intros [s|] H; [discriminate|reflexivity]. Qed.
Lemma lettersb_sound : forall r, wf_rep r -> lettersb r = true -> letters r.
Proof.
  intros r W H c ch Hc. rewrite lookup_lk in Hc. unfold lettersb in H. rewrite forallb_forall in H. pose proof (H ch (lk_in_all _ _ _ W Hc)) as X. rewrite (lk_cp _ _ _ Hc) in X.
  apply andb_prop in X. destruct X as [X X4]. apply andb_prop in X. destruct X as [X X3]. apply andb_prop in X. destruct X as [X1 X2].
  split; [apply one_of_sound; exact X1|]. split; [apply none_of_sound; exact X2|]. split; [apply none_of_sound; exact X3|]. intros v Hv. rewrite forallb_forall in X4. specialize (X4 v Hv).
  apply andb_prop in X4. destruct X4 as [Y Y3]. apply andb_prop in Y. destruct Y as [Y1 Y2]. auto using one_of_sound, none_of_sound.
Qed.
Lemma of_letters : forall ops, lettersb (lg_rep (lgr_of ops)) = true -> letters (lg_rep (lgr_of ops)).
Proof. intros ops H. apply lettersb_sound; [|exact H]. apply lgr_reachable_wf, lgr_of_reachable. Qed.
Definition in_lgrb (r : repertoire) (a : cps) : bool := forallb (fun x => is_some (lookup r [x])) a.
Lemma in_lgrb_sound : forall r a, in_lgrb r a = true -> in_lgr r a.
Proof. intros r a H x Hx. unfold in_lgrb in H. rewrite forallb_forall in H. specialize (H x Hx). destruct (lookup r [x]); [discriminate|discriminate H]. Qed.

(** ** Harmonized *)
Definition left_ops : list lgr_op := full [1; 2] ++ [lcp [5]].
Definition right_ops : list lgr_op := full [1; 3] ++ full [5; 6].
Definition complete_ops (ops : list lgr_op) : Prop := symmetric (lg_rep (lgr_of ops)) /\ transitive (lg_rep (lgr_of ops)).
Ltac ops_complete := split; [apply check_symmetry_decides; [apply lgr_of_reachable|vm_compute; eexists; eexists; reflexivity]|apply transitive_checked; [apply lgr_of_reachable|vm_compute; reflexivity]].
Definition index_pair (x : res (lgr * lgr * (list cps * list cps))) (a b : cps) : option (res cps * res cps) :=
  match x with Ok (h1, h2, _) => Some (index_once no_rules (lg_rep h1) a, index_once no_rules (lg_rep h2) b) | Raise _ => None end.
Lemma harm_sample : tidy (lgr_of left_ops) /\ tidy (lgr_of right_ops) /\ letters (lg_rep (lgr_of left_ops)) /\ letters (lg_rep (lgr_of right_ops)) /\
  complete_ops left_ops /\ complete_ops right_ops /\
  index_pair (harmonize as_is (lgr_of left_ops) (lgr_of right_ops) None) [2; 5] [3; 6] = Some (Ok [1; 5], Ok [1; 5]) /\
  index_pair (harmonize as_is (lgr_of left_ops) (lgr_of right_ops) None) [2; 2] [3; 6] = Some (Ok [1; 1], Ok [1; 5]).
Proof.
  split; [apply lgr_of_tidy; vm_compute; reflexivity|]. split; [apply lgr_of_tidy; vm_compute; reflexivity|].
  split; [apply of_letters; vm_compute; reflexivity|]. split; [apply of_letters; vm_compute; reflexivity|]. split; [ops_complete|]. split; [ops_complete|]. split; vm_compute; reflexivity.
Qed.
Lemma root_sample : tidy (lgr_of long_chain) /\ tidy (lgr_of two_alone) /\ tidy (lgr_of right_ops) /\
  letters (lg_rep (lgr_of long_chain)) /\ letters (lg_rep (lgr_of two_alone)) /\ letters (lg_rep (lgr_of right_ops)) /\
  index_pair (harmonize as_is (lgr_of long_chain) (lgr_of two_alone) (Some (lgr_of right_ops))) [3] [3] = Some (Ok [1], Ok [1]).
Proof.
  do 3 (split; [apply lgr_of_tidy; vm_compute; reflexivity|]). do 3 (split; [apply of_letters; vm_compute; reflexivity|]). vm_compute. reflexivity.
Qed.
(** Not transitive before: a label of both gets two indices. *)
Lemma harm_index_differs : exists g1 g2 h1 h2 rs a, tidy g1 /\ tidy g2 /\ letters (lg_rep g1) /\ letters (lg_rep g2) /\ symmetric (lg_rep g1) /\ symmetric (lg_rep g2) /\
  harmonize as_is g1 g2 None = Ok (h1, h2, rs) /\ in_lgr (lg_rep g1) a /\ in_lgr (lg_rep g2) a /\
  forall rm, index_label rm (lg_rep h1) 0 false a <> index_label rm (lg_rep h2) 0 false a.
Proof.
  assert (H : exists h1 h2 rs, harmonize as_is (lgr_of long_chain) (lgr_of two_alone) None = Ok (h1, h2, rs) /\
    forall rm, index_label rm (lg_rep h1) 0 false [3] = Ok [1] /\ index_label rm (lg_rep h2) 0 false [3] = Ok [3]).
  { eexists. eexists. eexists. split; [vm_compute; reflexivity|]. intro rm. split; vm_compute; reflexivity. }
  destruct H as [h1 [h2 [rs [E H]]]]. exists (lgr_of long_chain), (lgr_of two_alone), h1, h2, rs, [3].
  split; [apply lgr_of_tidy; vm_compute; reflexivity|]. split; [apply lgr_of_tidy; vm_compute; reflexivity|].
  split; [apply of_letters; vm_compute; reflexivity|]. split; [apply of_letters; vm_compute; reflexivity|].
  split; [apply check_symmetry_decides; [apply lgr_of_reachable|vm_compute; eexists; eexists; reflexivity]|].
  split; [apply check_symmetry_decides; [apply lgr_of_reachable|vm_compute; eexists; eexists; reflexivity]|].
  split; [exact E|]. split; [apply in_lgrb_sound; vm_compute; reflexivity|]. split; [apply in_lgrb_sound; vm_compute; reflexivity|].
  intro rm. destruct (H rm) as [H1 H2]. congruence.
Qed.

(** ** Merged *)
Definition ops_of (r : repertoire) : list lgr_op := map (fun ch => lcp (ch_cp ch)) (all_chars r) ++
  flat_map (fun ch => map (fun v => LAddVariant (ch_cp ch) (v_cp v) (v_type v) (v_when v) (v_not_when v) (v_comment v) [] None false false) (get_variants ch)) (all_chars r).
Lemma variant_dec : forall u v : variant, {u = v} + {u <> v}. Proof. repeat decide equality. Defined.
Lemma ctx_dec : forall u v : option string, {u = v} + {u <> v}. Proof. repeat decide equality. Defined.
Definition rebuiltb (r q : repertoire) : bool :=
  (forallb (fun ch => match lookup q (ch_cp ch) with
     | Some ch' => (if ctx_dec (ch_when ch') (ch_when ch) then true else false) && (if ctx_dec (ch_not_when ch') (ch_not_when ch) then true else false) &&
         forallb (fun v => if in_dec variant_dec v (get_variants ch) then true else false) (get_variants ch') &&
         forallb (fun v => if in_dec variant_dec v (get_variants ch') then true else false) (get_variants ch)
     | None => false end) (all_chars r) && forallb (fun ch => is_some (lookup r (ch_cp ch))) (all_chars q))%bool.
Lemma rebuiltb_sound : forall r q, wf_rep r -> wf_rep q -> reachable q -> rebuiltb r q = true -> rebuilt r q.
Proof.
  intros r q Wr Wq Rq H. unfold rebuiltb in H. apply andb_prop in H. destruct H as [H1 H2]. rewrite forallb_forall in H1, H2. split; [exact Rq|].
  assert (A : forall c ch, lookup r c = Some ch -> In ch (all_chars r) /\ ch_cp ch = c) by (intros c ch H; rewrite lookup_lk in H; split; [eapply lk_in_all; eauto|eapply lk_cp; eauto]).
  split.
  - intro c. split; intro H.
    + destruct (lookup q c) as [ch|] eqn:E; [|congruence]. rewrite lookup_lk in E. specialize (H2 ch (lk_in_all _ _ _ Wq E)). rewrite (lk_cp _ _ _ E) in H2. destruct (lookup r c); [discriminate|discriminate H2].
    + destruct (lookup r c) as [ch|] eqn:E; [|congruence]. destruct (A c ch E) as [A1 A2]. specialize (H1 ch A1). rewrite A2 in H1. destruct (lookup q c); [discriminate|discriminate H1].
  - intros c ch ch' E E'. destruct (A c ch E) as [A1 A2]. specialize (H1 ch A1). rewrite A2, E' in H1.
    apply andb_prop in H1. destruct H1 as [X X4]. apply andb_prop in X. destruct X as [X X3]. apply andb_prop in X. destruct X as [X1 X2].
    destruct (ctx_dec (ch_when ch') (ch_when ch)) as [Y1|]; [|discriminate]. destruct (ctx_dec (ch_not_when ch') (ch_not_when ch)) as [Y2|]; [|discriminate].
    split; [exact Y1|]. split; [exact Y2|]. rewrite forallb_forall in X3, X4. intro v. split; intro Hv; [specialize (X3 v Hv)|specialize (X4 v Hv)].
    + destruct (in_dec variant_dec v (get_variants ch)); [assumption|discriminate].
    + destruct (in_dec variant_dec v (get_variants ch')); [assumption|discriminate].
Qed.
Lemma merge_wf : forall l st, (forall m, In m l -> tidy (mb_lgr m)) -> merge_given l = Ok st -> wf_rep (lg_rep (mg_lgr st)).
Proof.
  intros l st T E. destruct (merged_ind given given (given_order _) (fun _ _ => True) l st) as [_ [[W _] _]]; auto.
Qed.
Definition rebuild (st : merged) : repertoire := lg_rep (lgr_of (ops_of (lg_rep (mg_lgr st)))).
Lemma rebuild_rebuilt : forall l st, (forall m, In m l -> tidy (mb_lgr m)) -> merge_given l = Ok st ->
  rebuiltb (lg_rep (mg_lgr st)) (rebuild st) = true -> rebuilt (lg_rep (mg_lgr st)) (rebuild st).
Proof.
  intros l st T E H. apply rebuiltb_sound; [eapply merge_wf; eauto| | |exact H]; [apply lgr_reachable_wf|apply lgr_reachable_rep]; apply lgr_of_reachable.
Qed.
Definition all_good (l : list member) : Prop := forall m, In m l -> tidy (mb_lgr m) /\ letters (lg_rep (mb_lgr m)) /\ complete m.
Lemma good_ops : forall s ops, tidy (lgr_of ops) -> letters (lg_rep (lgr_of ops)) -> complete_ops ops -> tidy (mb_lgr (of_ops s ops)) /\ letters (lg_rep (mb_lgr (of_ops s ops))) /\ complete (of_ops s ops).
Proof. intros s ops A B C. split; [exact A|]. split; [exact B|]. exact C. Qed.
Ltac good := apply good_ops; [apply lgr_of_tidy; vm_compute; reflexivity|apply of_letters; vm_compute; reflexivity|ops_complete].
Definition part_a : member := of_ops "A" (full [1; 2]).
Definition part_b : member := of_ops "B" (full [3; 4]).
Definition part_c : member := of_ops "C" (full [2; 3]).
Definition indices (x : res merged) (labels : list cps) : option (bool * list (res cps)) :=
  match x with Ok st => Some (rebuiltb (lg_rep (mg_lgr st)) (rebuild st), map (index_once no_rules (rebuild st)) labels) | Raise _ => None end.
Lemma apart_sample : all_good [part_a; part_b] /\ indices (merge_given [part_a; part_b]) [[2; 4]; [1; 3]; [2]] = Some (true, [Ok [1; 3]; Ok [1; 3]; Ok [1]]).
Proof. split; [intros m [<-|[<-|[]]]; good|vm_compute; reflexivity]. Qed.
Lemma shared_sample : all_good [part_a; part_c] /\ (forall c, has_cp part_a c -> has_cp part_c c -> c = [2]) /\
  indices (merge_given [part_a; part_c]) [[2]; [1]; [3]] = Some (true, [Ok [1]; Ok [1]; Ok [1]]).
Proof.
  split; [intros m [<-|[<-|[]]]; good|]. split; [|vm_compute; reflexivity].
  assert (W : forall ops, wf_rep (lg_rep (lgr_of ops))) by (intro; apply lgr_reachable_wf, lgr_of_reachable).
  assert (K : forall s ops c, has_cp (of_ops s ops) c -> In c (map ch_cp (all_chars (lg_rep (lgr_of ops))))).
  { intros s ops c H. unfold has_cp in H. cbn [of_ops mb_lgr] in H. rewrite lookup_lk in H. destruct (lk (lg_rep (lgr_of ops)) c) as [ch|] eqn:E; [|congruence].
    apply in_map_iff. exists ch. split; [eapply lk_cp; eauto|eapply lk_in_all; eauto]. }
  intros c Ha Hc. apply K in Ha. apply K in Hc. vm_compute in Ha, Hc. destruct Ha as [<-|[<-|[]]]; destruct Hc as [X|[X|[]]]; congruence.
Qed.
(** Complete members, but not the merged LGR: a collision is lost. *)
Definition part_ab : member := of_ops "A" (full [1; 2] ++ full [3; 4]).
Definition part_bc : member := of_ops "B" (full [2; 3]).
Lemma merge_loses : exists l st q m a b, all_good l /\ NoDup (map get_script l) /\ merge_given l = Ok st /\ rebuilt (lg_rep (mg_lgr st)) q /\ In m l /\
  in_lgr (lg_rep (mb_lgr m)) a /\ in_lgr (lg_rep (mb_lgr m)) b /\ variant_labels (lg_rep (mb_lgr m)) a b /\ forall rm, index_label rm q 0 false a <> index_label rm q 0 false b.
Proof.
  assert (H : exists st, merge_given [part_ab; part_bc] = Ok st /\ rebuiltb (lg_rep (mg_lgr st)) (rebuild st) = true /\
    forall rm, index_label rm (rebuild st) 0 false [3] = Ok [1] /\ index_label rm (rebuild st) 0 false [4] = Ok [2]).
  { eexists. split; [vm_compute; reflexivity|]. split; [vm_compute; reflexivity|]. intro rm. split; vm_compute; reflexivity. }
  assert (G : all_good [part_ab; part_bc]) by (intros m [<-|[<-|[]]]; good).
  destruct H as [st [E [R H]]]. exists [part_ab; part_bc], st, (rebuild st), part_ab, [3], [4]. split; [exact G|]. split; [repeat constructor; cbn; intuition discriminate|].
  split; [exact E|]. split; [apply (rebuild_rebuilt [part_ab; part_bc]); [intros m Hm; apply (G m Hm)|exact E|exact R]|]. split; [left; reflexivity|].
  split; [apply in_lgrb_sound; vm_compute; reflexivity|]. split; [apply in_lgrb_sound; vm_compute; reflexivity|].
  split; [constructor; [right; apply has_targetb_iff; vm_compute; reflexivity|constructor]|]. intro rm. destruct (H rm) as [H1 H2]. congruence.
Qed.
