(** C67: rebuilding an LGR with a Unicode database and a validating
    repertoire. *)
From Verif Require Import Base CharModel RepSpec LgrModel LgrSpec SerialSpec SerialWitness RebuildModel RebuildSpec RebuildProofs RebuildWitness.
Open Scope string_scope.
Open Scope list_scope.

(** C67: for every entry, exactly the code points refused by the database or
    absent from the validating repertoire, those of other scripts and the
    variants refused by the database are reported, in order. *)
Theorem C67_report : forall script scripts g d db vr, proper g -> lg_db g = Some d -> answers db vr ->
  exists is, rebuild_lgr script scripts g db vr = Ok (true, is) /\
    Forall2 (issue_for db vr (script d) scripts) (rep_iter (lg_rep g)) is.
Proof. exact rebuild_report. Qed.
Print Assumptions C67_report.
Example C67_report_ex : proper w_src /\ lg_db w_src = Some all_valid /\ answers (Some below_150) (Some w_vr) /\
  shown (rebuild_lgr get_script ["Latn"] w_src (Some below_150) (Some w_vr)) =
  Ok (true,
    [([1], [], [], [([180], CharInvalidIdnaProperty [180])]);
     ([2; 160], [CharInvalidIdnaProperty [160]], [[2; 160]], [([1], CharInvalidIdnaProperty [160])]);
     ([3], [NotInRepertoire [3]], [], []);
     ([10], [NotInRepertoire [12]], [], []);
     ([148], [NotInRepertoire [149]; CharInvalidIdnaProperty [150]; CharInvalidIdnaProperty [151]], [[148]; [149]; [150]; [151]], []);
     ([170], [CharInvalidIdnaProperty [170]], [[170]], [([2], CharInvalidIdnaProperty [170])])]).
Proof. split; [exact w_src_proper|]. split; [vm_compute; reflexivity|]. split; [exact w_vr_answers|exact w_report]. Qed.

(** C67: nothing is reported exactly when every code point of the repertoire is
    accepted by the database, in the validating repertoire and of the script,
    and those of the variants are accepted by the database. *)
Theorem C67_silent : forall script scripts g d db vr is, proper g -> lg_db g = Some d -> answers db vr ->
  rebuild_lgr script scripts g db vr = Ok (true, is) ->
  ((forall i, In i is -> nothing i) <->
   (forall c ch x, lookup (lg_rep g) c = Some ch -> In x c ->
      ~ bad db x /\ (forall v, vr = Some v -> present v [x]) /\ of_script (script d) scripts x) /\
   (forall c ch v x, lookup (lg_rep g) c = Some ch -> In v (get_variants ch) -> In x (v_cp v) -> ~ bad db x)).
Proof. exact rebuild_silent. Qed.
Print Assumptions C67_silent.
Example C67_silent_ex : exists is, rebuild_lgr get_script [] w_src (Some all_valid) None = Ok (true, is) /\ length is = 6%nat /\ (forall i, In i is -> nothing i).
Proof.
  eexists. split; [vm_compute; reflexivity|]. split; [reflexivity|]. intros i H. cbn [In] in H.
  repeat (destruct H as [H|H]; [subst i; repeat split|]). destruct H.
Qed.

(** C67, refuted: the answer is True although errors are reported. *)
Theorem C67_success_refuted : exists g db is, proper g /\ rebuild_lgr get_script [] g (Some db) None = Ok (true, is) /\
  exists i, In i is /\ ri_errors i = [CharInvalidIdnaProperty [170]].
Proof. exact success_with_errors. Qed.
Print Assumptions C67_success_refuted.
(** C67, refuted: an LGR without a Unicode database of its own cannot be
    rebuilt with another one. *)
Theorem C67_database_refuted : exists g db, proper g /\ rebuild_lgr get_script [] g (Some db) None = Raise TypeError.
Proof. exact no_database. Qed.
Print Assumptions C67_database_refuted.
(** C67, refuted: with a validating repertoire that refuses to answer about a
    code point, rebuilding fails. *)
Theorem C67_answers_refuted : exists g db v, proper g /\ proper v /\ ~ answers (Some db) (Some v) /\
  rebuild_lgr get_script [] g (Some db) (Some v) = Raise (NotInLGR [170]).
Proof. exact other_database. Qed.
Print Assumptions C67_answers_refuted.
(** C67, refuted: once a member of a range has been deleted and added again,
    rebuilding fails. *)
Theorem C67_range_refuted : exists ops, unforced_ops ops /\ noerror ops /\
  rebuild_lgr get_script [] (lgr_with (Some all_valid) ops) (Some all_valid) None = Raise (CharAlreadyExists [11]).
Proof. exact broken_range. Qed.
Print Assumptions C67_range_refuted.
(** C67, refuted: errors are reported about a deleted code point. *)
Theorem C67_deleted_refuted : exists ops db is, unforced_ops ops /\ noerror ops /\
  lookup (lg_rep (lgr_with (Some all_valid) ops)) [150] = None /\
  rebuild_lgr get_script [] (lgr_with (Some all_valid) ops) (Some db) None = Ok (true, is) /\
  exists i, In i is /\ ri_errors i = [CharInvalidIdnaProperty [150]].
Proof. exact deleted_member. Qed.
Print Assumptions C67_deleted_refuted.
