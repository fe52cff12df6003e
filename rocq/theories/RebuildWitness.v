From Verif Require Import Base BaseFacts CharModel RepSpec RepProofs RefModel LgrModel LgrSpec LgrProofs LgrReach LgrInv LgrFinal
  Rfc7940Model ValidateModel ValidateFinal CompareSpec CompareWitness SerialModel SerialSpec SerialProofs SerialWitness RebuildModel RebuildSpec RebuildProofs.
Open Scope string_scope.
Open Scope list_scope.

(** A toy database: below 100 Latin, below 200 Cyrillic, then common. *)
Definition toy_script (x : N) : string := if (x <? 100)%N then "Latn" else if (x <? 200)%N then "Cyrl" else "Zyyy".
Definition all_valid : unidb := mkDb (fun _ => true) toy_script.
Definition below_150 : unidb := mkDb (fun x => (x <? 150)%N) toy_script.
Definition get_script (d : unidb) (x : N) : option string := Some (db_script d x).
Definition lgr_with (db : option unidb) (ops : list lgr_op) : lgr := fst (lgr_run (new_lgr db false) ops).
Lemma proper_with : forall db ops, each_stepb tidy_opb (new_lgr db false) ops = true -> forallb unforcedb ops = true -> proper (lgr_with db ops).
Proof.
  intros db ops H1 H2. apply proper_run; [apply pr_new|apply (each_stepb_sound _ _ tidy_opb_sound); exact H1|].
  rewrite forallb_forall in H2. intros o Ho. apply unforcedb_sound. apply H2. exact Ho.
Qed.

Definition w_ops : list lgr_op :=
  [LAddReference "r" None None; LAddCp [1] None ["0"] ["t"] (Some "w") None None false false; lcp [2; 160]; lcp [170]; lcp [3];
   lvar [1] [2]; lvar [1] [180]; lvar [170] [2]; lvar [2; 160] [1];
   LAddRange 10 12 None [] ["t"] None None None false false; LAddRange 148 151 None [] [] None None None false false].
Definition w_src : lgr := lgr_with (Some all_valid) w_ops.
Definition w_vr : lgr := lgr_with (Some below_150) [lcp [1]; LAddRange 10 11 None [] [] None None None false false; lcp [148]].
Lemma w_src_proper : proper w_src.
Proof. apply proper_with; reflexivity. Qed.
Lemma w_vr_answers : answers (Some below_150) (Some w_vr).
Proof. intros x [v [E [_ [d [H1 H2]]]]]. injection E as E. subst v. exists d. split; [|exact H2]. exact H1. Qed.

Definition shown (r : res (bool * list rebuild_issue)) : res (bool * list (cps * list exn * list cps * list (cps * exn))) :=
  bind r (fun p => Ok (fst p, map (fun i => (ch_cp (ri_char i), ri_errors i, ri_warnings i, map (fun q : variant * exn => (v_cp (fst q), snd q)) (ri_variants i))) (snd p))).
Lemma w_report : shown (rebuild_lgr get_script ["Latn"] w_src (Some below_150) (Some w_vr)) =
  Ok (true,
    [([1], [], [], [([180], CharInvalidIdnaProperty [180])]);
     ([2; 160], [CharInvalidIdnaProperty [160]], [[2; 160]], [([1], CharInvalidIdnaProperty [160])]);
     ([3], [NotInRepertoire [3]], [], []);
     ([10], [NotInRepertoire [12]], [], []);
     ([148], [NotInRepertoire [149]; CharInvalidIdnaProperty [150]; CharInvalidIdnaProperty [151]], [[148]; [149]; [150]; [151]], []);
     ([170], [CharInvalidIdnaProperty [170]], [[170]], [([2], CharInvalidIdnaProperty [170])])]).
Proof. vm_compute. reflexivity. Qed.

(** Without a Unicode database of its own, an LGR cannot be rebuilt. *)
Lemma no_database : exists g db, proper g /\ rebuild_lgr get_script [] g (Some db) None = Raise TypeError.
Proof. exists (lgr_of [lcp [1]]), all_valid. split; [apply proper_of; reflexivity|vm_compute; reflexivity]. Qed.

(** The answer is True whatever is reported. *)
Lemma always_true : forall script scripts g db vr b is, rebuild_lgr script scripts g db vr = Ok (b, is) -> b = true.
Proof.
  intros script scripts g db vr b is H. unfold rebuild_lgr in H. destruct (snd _) as [l|e]; [|discriminate]. cbn [bind] in H. congruence.
Qed.
Lemma success_with_errors : exists g db is, proper g /\ rebuild_lgr get_script [] g (Some db) None = Ok (true, is) /\
  exists i, In i is /\ ri_errors i = [CharInvalidIdnaProperty [170]].
Proof.
  exists w_src, below_150. eexists. split; [exact w_src_proper|]. split; [vm_compute; reflexivity|].
  eexists. split; [do 5 right; left; reflexivity|reflexivity].
Qed.

(** A validating repertoire with another database than the target's. *)
Lemma other_database : exists g db v, proper g /\ proper v /\ ~ answers (Some db) (Some v) /\
  rebuild_lgr get_script [] g (Some db) (Some v) = Raise (NotInLGR [170]).
Proof.
  exists (lgr_with (Some all_valid) [lcp [170]; lvar [170] [1]]), all_valid, (lgr_with (Some below_150) [lcp [1]]).
  split; [apply proper_with; reflexivity|]. split; [apply proper_with; reflexivity|]. split; [|vm_compute; reflexivity].
  intro H. destruct (H 170) as [d [H1 H2]].
  - eexists. split; [reflexivity|]. split; [reflexivity|]. exists below_150. split; reflexivity.
  - injection H1 as H1. subst d. discriminate.
Qed.

(** Once a member of a range is deleted and added again, rebuilding fails. *)
Definition noerror (ops : list lgr_op) : Prop := forall e, ~ In (LExn e) (snd (lgr_run (new_lgr (Some all_valid) false) ops)).
Lemma broken_range : exists ops, unforced_ops ops /\ noerror ops /\
  rebuild_lgr get_script [] (lgr_with (Some all_valid) ops) (Some all_valid) None = Raise (CharAlreadyExists [11]).
Proof.
  exists [LAddRange 10 13 None [] [] None None None false false; LDelCp [11]; lcp [11]]. split; [apply unforced_of; reflexivity|]. split.
  - intros e H. vm_compute in H. intuition discriminate.
  - vm_compute. reflexivity.
Qed.
(** A deleted member of a range is still checked. *)
Lemma deleted_member : exists ops db is, unforced_ops ops /\ noerror ops /\
  lookup (lg_rep (lgr_with (Some all_valid) ops)) [150] = None /\
  rebuild_lgr get_script [] (lgr_with (Some all_valid) ops) (Some db) None = Ok (true, is) /\
  exists i, In i is /\ ri_errors i = [CharInvalidIdnaProperty [150]].
Proof.
  exists [LAddRange 148 150 None [] [] None None None false false; LDelCp [150]], below_150. eexists. split; [apply unforced_of; reflexivity|]. split.
  - intros e H. vm_compute in H. intuition discriminate.
  - split; [vm_compute; reflexivity|]. split; [vm_compute; reflexivity|]. eexists. split; [left; reflexivity|reflexivity].
Qed.
