(** Corollaries over reachable LGRs, and concrete counterexamples. *)
From Verif Require Import Base BaseFacts CharModel RepSpec RepProofs RefModel LgrModel LgrSpec LgrProofs LgrReach LgrRange LgrInv LgrTags LgrRefs LgrMirror.
Open Scope string_scope.
Open Scope list_scope.

Lemma add_range_spec_reach : forall g f l cm rf tg w nw vr ov fo, lgr_reachable g ->
  exists r, first_failing (add_range_checks g f l rf tg w nw vr ov fo) r /\
  let wanted y := f <= y <= l /\ to_insert g vr ov fo y in
  let entry y k := mkChar [y] k cm (kept_refs g rf) tg w nw [] in
  let '(g', x) := lgr_add_range g f l cm rf tg w nw vr ov fo in
  match r with
  | Some e => x = Raise e /\ g' = g
  | None =>
      (x = Ok tt /\ (forall y, wanted y -> ~ present g [y]) /\
       (forall y, wanted y -> exists k, lookup (lg_rep g') [y] = Some (entry y k)) /\
       (forall d, (forall y, d = [y] -> ~ wanted y) -> lookup (lg_rep g') d = lookup (lg_rep g) d))
      \/
      (exists z, x = Raise (CharAlreadyExists [z]) /\ wanted z /\ present g [z] /\
       (forall y, wanted y -> y < z -> ~ present g [y] /\ exists k, lookup (lg_rep g') [y] = Some (entry y k)) /\
       (forall d, (forall y, d = [y] -> ~ (wanted y /\ y < z)) -> lookup (lg_rep g') d = lookup (lg_rep g) d))
  end.
Proof. intros. apply add_range_spec. apply lgr_reachable_wf. assumption. Qed.

Lemma add_range_atomic_reach : forall g f l cm rf tg w nw vr ov fo e g', lgr_reachable g ->
  vr = None \/ (ov = false /\ fo = false) ->
  lg_raise g = true \/ lg_db g = None ->
  lgr_add_range g f l cm rf tg w nw vr ov fo = (g', Raise e) -> g' = g.
Proof. intros. eapply add_range_atomic; eauto. apply lgr_reachable_wf. assumption. Qed.

(** A deleted range stays in the class of its tag. *)
Lemma del_range_leaves_class :
  exists ops, let g := fst (lgr_run (new_lgr None true) ops) in
    in_tag_class g "t" 2 /\ ~ carries g "t" 2 /\ ~ present g [2].
Proof.
  exists [lrange 1 3 ["t"]; LDelRange 1 3]. cbv zeta. split; [|split].
  - eexists. split; [vm_compute; reflexivity|]. right. left. reflexivity.
  - intros [ch [H _]]. vm_compute in H. discriminate.
  - intro H. apply H. vm_compute. reflexivity.
Qed.
(** Deleting a sequence that was tagged by force untags a member elsewhere. *)
Lemma forced_sequence_tag_untags :
  exists ops, let g := fst (lgr_run (new_lgr None true) ops) in
    carries g "t" 1 /\ ~ in_tag_class g "t" 1.
Proof.
  exists [LAddCp [1] None [] ["t"] None None None false false;
          LAddCp [1; 2] None [] ["t"] None None None false true; LDelCp [1; 2]]. cbv zeta. split.
  - eexists. split; [vm_compute; reflexivity|]. left. reflexivity.
  - intros [s [H1 H2]]. vm_compute in H1. injection H1 as H1. subst s. contradiction.
Qed.
(** A tag repeated by force survives [del_tag]. *)
Lemma forced_duplicate_tag_survives :
  exists ops, let g := fst (lgr_run (new_lgr None true) ops) in
    carries g "t" 1 /\ ~ in_tag_class g "t" 1.
Proof.
  exists [LAddCp [1] None [] ["t"; "t"] None None None false true; LDelTag "t"]. cbv zeta. split.
  - eexists. split; [vm_compute; reflexivity|]. left. reflexivity.
  - intros [s [H1 H2]]. vm_compute in H1. discriminate.
Qed.
(** A reference repeated by force survives the deletion of the reference; a
    second deletion raises although it changes the entry. *)
Lemma forced_duplicate_reference_survives :
  exists ops, let g := fst (lgr_run (new_lgr None true) ops) in
    let '(g1, x1) := lgr_del_reference g "0" in
    let '(g2, x2) := lgr_del_reference g1 "0" in
    x1 = Ok tt /\ cited g1 "0" /\ ~ defined_ref g1 "0" /\
    x2 = Raise (ReferenceNotDefined "0") /\ g2 <> g1.
Proof.
  exists [LAddReference "book" None None; LAddCp [1] None ["0"; "0"] [] None None None false true]. vm_compute.
  split; [reflexivity|]. split; [|split; [congruence|split; [reflexivity|discriminate]]].
  exists [1]. eexists. split; [reflexivity|]. left. left. reflexivity.
Qed.

(** A history meeting the conditions of the tag and reference theorems. *)
Definition sample_ops : list lgr_op :=
  [LAddReference "book" None None; LAddReference "page" None None;
   LAddCp [1] None ["0"; "1"] ["t"; "u"] None None None false false;
   LAddCp [7; 8] None ["1"] [] None None None false false;
   lrange 20 22 ["t"]; lrange 30 31 [];
   LAddVariant [1] [7; 8] (Some "blocked") None None None ["0"] None false false;
   LExpandRange 20 22; LDelCp [21]; LDelRange 30 31; LDelTag "u"].
(** Boolean forms of the conditions, so that samples can be checked by computation. *)
Lemma run_fold : forall ops g, fst (lgr_run g ops) = fold_left (fun g o => fst (lgr_step g o)) ops g.
Proof.
  induction ops as [|o ops IH]; intro g; cbn [lgr_run fold_left]; auto. rewrite <- IH.
  destruct (lgr_step g o) as [g1 x]. cbn [fst]. destruct (lgr_run g1 ops). reflexivity.
Qed.
Fixpoint each_step (P : lgr -> lgr_op -> Prop) (g : lgr) (ops : list lgr_op) : Prop :=
  match ops with [] => True | o :: l => P g o /\ each_step P (fst (lgr_step g o)) l end.
Lemma tag_tidy_run : forall ops g, tag_tidy g -> each_step tag_tidy_op g ops -> tag_tidy (fst (lgr_run g ops)).
Proof. intros ops g. rewrite run_fold. revert g. induction ops as [|o ops IH]; intros g H Hs; cbn [fold_left]; auto. destruct Hs. apply IH; auto. apply tt_step; auto. Qed.
Lemma tidy_run : forall ops g, tidy g -> each_step tidy_op g ops -> tidy (fst (lgr_run g ops)).
Proof. intros ops g. rewrite run_fold. revert g. induction ops as [|o ops IH]; intros g H Hs; cbn [fold_left]; auto. destruct Hs. apply IH; auto. apply tidy_step; auto. Qed.
Lemma ref_tidy_run : forall ops g, ref_tidy g -> Forall ref_tidy_op ops -> ref_tidy (fst (lgr_run g ops)).
Proof. intros ops g. rewrite run_fold. revert g. induction ops as [|o ops IH]; intros g H Hs; cbn [fold_left]; auto. inversion Hs; subst. apply IH; auto. apply rt_step; auto. Qed.
Definition tidy_opb (g : lgr) (o : lgr_op) : bool :=
  match o with
  | LDelCp c => match lookup (lg_rep g) c with Some ch => negb (is_range ch) | None => true end
  | LAddRange _ _ _ _ _ _ _ _ _ _ | LAddCodepoints _ _ _ _ =>
      match snd (lgr_step g o) with LUnit => true | _ => false end
  | _ => true
  end.
Lemma tidy_opb_sound : forall g o, tidy_opb g o = true -> tidy_op g o.
Proof.
  intros g o H. destruct o; unfold tidy_opb, tidy_op in *; try exact I.
  - intros ch Hc. rewrite Hc in H. destruct (is_range ch); [discriminate|reflexivity].
  - left. destruct (snd _); try discriminate. reflexivity.
  - left. destruct (snd _); try discriminate. reflexivity.
Qed.
Definition no_tags (g : lgr) (x : N) : bool :=
  match lookup (lg_rep g) [x] with Some ch => match ch_tags ch with [] => true | _ => false end | None => true end.
Definition tag_tidy_opb (g : lgr) (o : lgr_op) : bool :=
  tidy_opb g o &&
  match o with
  | LAddCp _ _ _ _ _ _ _ _ force => negb force
  | LAddRange _ _ _ _ _ _ _ _ _ force => negb force
  | LDelRange f l => forallb (no_tags g) (nrange f l)
  | _ => true
  end.
Lemma tag_tidy_opb_sound : forall g o, tag_tidy_opb g o = true -> tag_tidy_op g o.
Proof.
  intros g o H. apply andb_prop in H. destruct H as [H1 H2]. split; [apply tidy_opb_sound; exact H1|].
  destruct o; try exact I.
  - intro E. subst. discriminate.
  - intro E. subst. discriminate.
  - intros x tag Hx [ch [Hc Ht]]. rewrite forallb_forall in H2. specialize (H2 x (proj2 (nrange_In _ _ _) Hx)).
    unfold no_tags in H2. rewrite Hc in H2. destruct (ch_tags ch); [contradiction|discriminate].
Qed.
Fixpoint each_stepb (P : lgr -> lgr_op -> bool) (g : lgr) (ops : list lgr_op) : bool :=
  match ops with [] => true | o :: l => P g o && each_stepb P (fst (lgr_step g o)) l end.
Lemma each_stepb_sound : forall (P : lgr -> lgr_op -> Prop) Pb, (forall g o, Pb g o = true -> P g o) ->
  forall ops g, each_stepb Pb g ops = true -> each_step P g ops.
Proof.
  intros P Pb H. induction ops as [|o ops IH]; intros g Hb; [exact I|]. cbn [each_stepb] in Hb. apply andb_prop in Hb.
  destruct Hb as [H1 H2]. split; auto.
Qed.
Lemma sample_tidy : let g := fst (lgr_run (new_lgr None true) sample_ops) in
  tag_tidy g /\ ref_tidy g /\ carries g "t" 22 /\ cited g "0" /\ defined_ref g "0".
Proof.
  cbv zeta. split; [|split; [|split; [|split]]].
  - apply tag_tidy_run; [apply tt_new|]. apply (each_stepb_sound _ _ tag_tidy_opb_sound). vm_compute. reflexivity.
  - apply ref_tidy_run; [apply rt_new|]. unfold sample_ops. repeat constructor; cbn [ref_tidy_op]; discriminate.
  - eexists. split; [vm_compute; reflexivity|]. left. reflexivity.
  - exists [1]. eexists. split; [vm_compute; reflexivity|]. left. left. reflexivity.
  - vm_compute. discriminate.
Qed.
Lemma ranges_tidy : forall db al ops, each_stepb tidy_opb (new_lgr db al) ops = true -> tidy (fst (lgr_run (new_lgr db al) ops)).
Proof. intros db al ops H. apply tidy_run; [apply tidy_new|]. apply (each_stepb_sound _ _ tidy_opb_sound). exact H. Qed.
