(** Property theorems about the report that compares two LGRs on a list of labels
    (C92).  Statements only.  The indexes and listings of the LGRs are any functions
    that list no label twice and the label itself; [labels] is any list of the labels
    given. *)
From Verif Require Import Base CharModel ActionModel LabelModel RepSpec RangeProofs LabelFinal AnnotateModel CollisionModel CollisionSpec CollisionWitness CollideModel CollideSpec CollideWitness DiffRepModel DiffRepSpec DiffRepFinal DiffRepTool.
Open Scope string_scope.
Open Scope list_scope.

(** C92: a complete report shows the lines that are no labels, the labels that are not
    in one of the LGRs, what has changed for each label that is in both, each change
    once, and the collisions in each LGR. *)
Theorem C92_report : forall lower decode order index1 index2 listing1 listing2 lines, reorders order ->
  obedient listing1 -> obedient listing2 -> shows_itself listing1 -> shows_itself listing2 ->
  forall labels, (forall l, In l labels <-> given decode lines l) ->
  forall show dump quiet out, diff lower decode order index1 index2 listing1 listing2 lines show dump quiet = (out, Ok tt) ->
  exists m1 m2 n ls say s1 d1 s2 d2,
    out = map (fun q => RBad (fst q) (snd q)) (refused_in decode lines) ++ missing_part m1 m2 ++
          RComparison :: map (fun q => RNotIn (fst q) (snd q)) n ++ flat_map (block say) ls ++
          (if show then collision_part false dump s1 d1 ++ collision_part true dump s2 d2 else []) /\
    (NoDup m1 /\ forall l, In l m1 <-> In l labels /\ not_in_lgr index1 l) /\
    (NoDup m2 /\ forall l, In l m2 <-> In l labels /\ not_in_lgr index2 l) /\
    (NoDup n /\ forall b l, In (b, l) n <-> In l labels /\ if b then (exists i, index1 l = Ok i) /\ not_in_lgr index2 l else not_in_lgr index1 l) /\
    (NoDup ls /\ forall l, In l ls <-> in_both index1 index2 labels l) /\
    (forall l, In l ls -> says_right index1 index2 listing1 listing2 labels l (say l)) /\
    (show = true -> pairs_right index1 listing1 labels s1 /\ pairs_right index2 listing2 labels s2 /\
       as_alone lower decode index1 listing1 order lines dump quiet s1 d1 /\ as_alone lower decode index2 listing2 order lines dump quiet s2 d2).
Proof. exact report_made. Qed.
Print Assumptions C92_report.

(** When the report is complete. *)
Theorem C92_completes : forall lower decode order index1 index2 listing1 listing2 lines, reorders order ->
  obedient listing1 -> obedient listing2 -> shows_itself listing1 -> shows_itself listing2 ->
  forall labels, (forall l, In l labels <-> given decode lines l) ->
  forall show dump quiet, snd (diff lower decode order index1 index2 listing1 listing2 lines show dump quiet) = Ok tt <->
  (forall l, In l labels -> answers index1 listing1 l /\ answers index2 listing2 l) /\
  (forall l, in_both index1 index2 labels l -> agreeing labels index1 listing1 l /\ agreeing labels index2 listing2 l) /\
  (show = true -> dump = true -> forall l, In l labels -> disposing labels index1 listing1 l /\ disposing labels index2 listing2 l).
Proof. exact report_completes. Qed.
Print Assumptions C92_completes.

(** In any case the lines that are no labels come first, with their errors. *)
Theorem C92_reading : forall lower decode order index1 index2 listing1 listing2 lines show dump quiet out r,
  diff lower decode order index1 index2 listing1 listing2 lines show dump quiet = (out, r) ->
  exists rest, out = map (fun q => RBad (fst q) (snd q)) (refused_in decode lines) ++ rest /\ forall l e, ~ In (RBad l e) rest.
Proof. exact refused_first. Qed.
Print Assumptions C92_reading.

(** An LGR compared with itself has no changes. *)
Theorem C92_itself : forall lower decode order index listing lines, reorders order -> obedient listing -> shows_itself listing ->
  forall show dump quiet out, diff lower decode order index index listing listing lines show dump quiet = (out, Ok tt) ->
  (forall c v b a, ~ In (RChanged c v b a) out) /\ (forall c v, ~ In (RAdded c v) out /\ ~ In (RRemoved c v) out).
Proof. exact same_lgr. Qed.
Print Assumptions C92_itself.

(** One label that cannot be compared, and no collision is shown for any. *)
Theorem C92_stops : forall lower decode order index1 index2 listing1 listing2 lines, reorders order ->
  obedient listing1 -> obedient listing2 -> shows_itself listing1 -> shows_itself listing2 ->
  forall labels, (forall l, In l labels <-> given decode lines l) ->
  forall l, in_both index1 index2 labels l -> ~ (agreeing labels index1 listing1 l /\ agreeing labels index2 listing2 l) ->
  forall show dump quiet out r, diff lower decode order index1 index2 listing1 listing2 lines show dump quiet = (out, r) ->
  r <> Ok tt /\ forall b x, ~ In (RCollisions b) out /\ ~ In (RFound x) out.
Proof. exact nothing_found. Qed.
Print Assumptions C92_stops.

(** The tool prints this report for two LGRs, the collisions for one, and of a file that
    the schema refuses only that. *)
Theorem C92_tool : forall lower order lines generate no_rules,
  (forall a b, diff_tool lower order (Ok (Some a)) (Some (Ok (Some b))) lines generate no_rules =
     (map TDiff (fst (diff lower (dl_decode a) order (dl_index a) (dl_index b) (dl_listing a) (dl_listing b) lines true generate no_rules)),
      snd (diff lower (dl_decode a) order (dl_index a) (dl_index b) (dl_listing a) (dl_listing b) lines true generate no_rules))) /\
  (forall a, diff_tool lower order (Ok (Some a)) None lines generate no_rules =
     (TOnlyCollisions :: map TCollision (fst (collision lower (dl_decode a) (dl_index a) (dl_listing a) order lines None generate no_rules)),
      snd (collision lower (dl_decode a) (dl_index a) (dl_listing a) order lines None generate no_rules))) /\
  (forall second, (forall e, second <> Some (Raise e)) -> exists o, diff_tool lower order (Ok None) second lines generate no_rules = (o ++ [TRefused false], Ok tt) /\ (forall x, In x o -> x = TOnlyCollisions)) /\
  (forall a, diff_tool lower order (Ok (Some a)) (Some (Ok None)) lines generate no_rules = ([TRefused true], Ok tt)) /\
  (forall e second, diff_tool lower order (Raise e) second lines generate no_rules = ([], Raise e)) /\
  (forall first e, diff_tool lower order (Ok first) (Some (Raise e)) lines generate no_rules = ([], Raise e)).
Proof. exact tool_cases. Qed.
Print Assumptions C92_tool.

Example C92_sample : reorders as_given /\ obedient sample_listing /\ obedient less_listing /\ shows_itself sample_listing /\ shows_itself less_listing /\
  exists out, two_report true = (out, Ok tt) /\
    In (RChanged CPrimary [97; 100]%N (Some "blocked") (Some "valid")) out /\ In (RRemoved CVariant [99; 100]%N) out /\
    In (RNotIn false [120]%N) out /\ In (RFound (Pair false [97; 100]%N CPrimary [98; 100]%N CPrimary)) out.
Proof.
  split; [exact as_given_reorders|]. split; [apply listing_obedient; exact (built_reachable simple_ops)|]. split; [apply listing_obedient; exact (built_reachable less_ops)|].
  split; [apply listing_itself; exact (built_reachable simple_ops)|]. split; [apply listing_itself; exact (built_reachable less_ops)|]. exact two_shown.
Qed.

(** The collisions of an LGR are not shown although they can be found. *)
Theorem C92_lost_refuted : exists lines e, snd (collision as_is no_decode lop_index lop_listing as_given lines None false true) = Ok tt /\
  (exists out, collision as_is no_decode sample_index sample_listing as_given lines None true true = (out, Ok tt) /\ exists f a ca b cb, In (Pair f a ca b cb) out) /\
  exists out, diff as_is no_decode as_given lop_index sample_index lop_listing sample_listing lines true true true = (out, Raise e) /\ forall b x, ~ In (RCollisions b) out /\ ~ In (RFound x) out.
Proof. exact collisions_lost. Qed.
Print Assumptions C92_lost_refuted.
