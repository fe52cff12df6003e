(** Property theorems about the short collision report of a label list (C98).
    Statements only.  [decode], [index], [listing] and [rm] are any functions
    unless said otherwise. *)
From Verif Require Import Base CharModel ActionModel LabelModel RepSpec RangeProofs LabelFinal AnnotateModel CollisionModel CollisionSpec CollisionWitness CollideModel CollideSpec CollideWitness
  BasicRepModel BasicRepSpec BasicRepFinal.
Open Scope N_scope.
Open Scope string_scope.
Open Scope list_scope.

(** C98: the labels that are TLDs, sorted; the pairs announced are those with the
    same index; that there is no collision is said exactly when there is none. *)
Theorem C98_collisions : forall decode rm r acts index listing order, reorders order -> obedient listing -> forall lines f w out,
  basic_report decode rm r acts index listing order lines (Some f) w = (out, Ok tt) ->
  ascending (tlds_shown out) /\ (forall l, In l (tlds_shown out) <-> given decode lines l /\ given decode f l) /\
  (forall a b, In (WithLabel a b) out \/ In (WithLabel b a) out <-> given decode lines a /\ given decode lines b /\ collide index a b) /\
  (forall a b, In (WithTld a b) out <-> given decode lines a /\ given decode f b /\ collide index a b) /\
  (In NoCollisionHere out <-> forall a, given decode lines a -> ~ given decode f a /\ forall b, given decode lines b \/ given decode f b -> ~ collide index a b).
Proof. exact collisions_shown. Qed.
Print Assumptions C98_collisions.

(** Every line that is no label is reported, and every label not in the LGR; the
    annotations are those of the annotation tool. *)
Theorem C98_errors : forall decode rm r acts index listing order, reorders order -> obedient listing -> forall lines f w out,
  basic_report decode rm r acts index listing order lines (Some f) w = (out, Ok tt) ->
  errors_shown out = refused_in decode lines /\ tld_errors_shown out = refused_in decode f /\
  ascending (missing_shown out) /\ (forall l, In l (missing_shown out) <-> given decode lines l /\ not_in_lgr index l) /\
  (In ErrorsTitle out <-> errors_shown out <> [] \/ missing_shown out <> []) /\
  In CollisionsTitle out /\ notes_shown out = (if w then fst (annotate decode rm r acts lines) else []) /\ (w = true <-> In ValidityTitle out).
Proof. exact errors_listed. Qed.
Print Assumptions C98_errors.

(** The sections come in order, also when the report stops. *)
Theorem C98_sections : forall decode rm r acts index listing order lines tld_lines w out o,
  basic_report decode rm r acts index listing order lines tld_lines w = (out, o) -> in_sections out.
Proof. exact sections_kept. Qed.
Print Assumptions C98_sections.

Theorem C98_completes : forall decode rm r acts index listing order, reorders order -> forall lines f w,
  (w = true -> snd (annotate decode rm r acts lines) = Ok tt) ->
  (forall l, given decode lines l \/ given decode f l -> settled index l) ->
  exists out, basic_report decode rm r acts index listing order lines (Some f) w = (out, Ok tt).
Proof. exact report_completes. Qed.
Print Assumptions C98_completes.

Example C98_nontrivial : reorders as_given /\ obedient sample_listing /\
  basic_report no_decode no_rules (built simple_ops) [] sample_index sample_listing as_given sample_lines (Some [[99; 100]; [100]; [85; 43; 122]]) false =
    ([TldError [85; 43; 122] (Some ValueError); CollisionsTitle; IsATld [100];
      WithLabel [97; 100] [98; 100]; WithTld [97; 100] [99; 100]; WithTld [98; 100] [99; 100];
      ErrorsTitle; LabelError [85; 43; 122] (Some ValueError); LabelMissing [120]], Ok tt) /\
  (exists ns, annotate no_decode no_rules (built simple_ops) [] [[97; 100]] = (ns, Ok tt) /\ ns <> [] /\
     basic_report no_decode no_rules (built simple_ops) [] sample_index sample_listing as_given [[97; 100]] (Some []) true =
       (ValidityTitle :: map Annotation ns ++ [Gap; CollisionsTitle; NoCollisionHere], Ok tt)).
Proof.
  split; [exact as_given_reorders|]. split; [apply listing_obedient; exact (built_reachable simple_ops)|]. split; [vm_compute; reflexivity|].
  eexists. split; [vm_compute; reflexivity|]. split; [discriminate|vm_compute; reflexivity].
Qed.

(** Without a list of TLDs there is no report at all. *)
Theorem C98_without_tlds_refuted : forall decode rm r acts index listing order lines w, exists e,
  snd (basic_report decode rm r acts index listing order lines None w) = Raise e.
Proof. exact report_fails. Qed.
Print Assumptions C98_without_tlds_refuted.
