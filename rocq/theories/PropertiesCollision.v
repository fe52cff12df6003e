(** Property theorems about collisions between labels (C34) and the comparison
    of labels under two LGRs (C48).  Statements only.  [index] and [listing]
    are any functions unless said otherwise. *)
From Coq Require Import Permutation.
From Verif Require Import Base CharModel ActionModel LabelModel RepSpec RangeProofs LabelSpec LabelFinal CollisionModel CollisionSpec CollisionFinal CollisionDiff CollisionWitness.
Open Scope N_scope.
Open Scope string_scope.
Open Scope list_scope.

(** C34: the pairs announced are exactly the pairs of different labels with
    the same index; the labels left out are exactly those not in the LGR. *)
Theorem C34_collisions_exact : forall index listing order, reorders order -> forall labels tlds pl pt missing,
  NoDup labels -> NoDup tlds -> obedient listing ->
  basic_collision index listing order labels tlds = Ok (pl, pt, missing) ->
  (forall l, In l missing <-> In l labels /\ not_in_lgr index l) /\
  (forall a b, In (a, b) pl \/ In (b, a) pl <-> In a labels /\ In b labels /\ collide index a b) /\
  (forall a b, In (a, b) pt <-> In a labels /\ In b tlds /\ collide index a b) /\
  NoDup pl /\
  ((forall a b c, In a labels -> In b labels -> In c labels -> collide index a b -> collide index a c -> collide index b c -> False) ->
     forall a b, In (a, b) pl -> ~ In (b, a) pl).
Proof. exact basic_collisions. Qed.
Print Assumptions C34_collisions_exact.

Theorem C34_search_completes : forall index listing order labels tlds, NoDup labels -> NoDup tlds ->
  (forall l, subject labels tlds l -> settled index l) ->
  exists x, basic_collision index listing order labels tlds = Ok x.
Proof. exact basic_total. Qed.
Print Assumptions C34_search_completes.

(** For the index labels and listings of an LGR of single code points without
    context rules, symmetric and transitive: exactly the variant labels. *)
Theorem C34_collisions_are_variants : forall rm r acts script max_rec, reachable r -> forall order labels tlds,
  simple_lgr r -> reorders order -> NoDup labels -> NoDup tlds -> (forall l, subject labels tlds l -> in_lgr r l) ->
  exists pl pt, basic_collision (index_of rm r max_rec) (listing_of rm r acts script) order labels tlds = Ok (pl, pt, []) /\
    (forall a b, In (a, b) pl \/ In (b, a) pl <-> In a labels /\ In b labels /\ a <> b /\ Forall2 (interchangeable r) a b) /\
    (forall a b, In (a, b) pt <-> In a labels /\ In b tlds /\ a <> b /\ Forall2 (interchangeable r) a b).
Proof. exact simple_collisions. Qed.
Print Assumptions C34_collisions_are_variants.

(** What is required of [listing] holds of the listings of any LGR. *)
Theorem C34_listings_fit : forall rm r acts script, reachable r ->
  obedient (listing_of rm r acts script) /\ shows_itself (listing_of rm r acts script).
Proof. exact (fun rm r acts script H => conj (listing_obedient rm r acts script H) (listing_itself rm r acts script H)). Qed.
Print Assumptions C34_listings_fit.

(** The table of collisions: the shared indexes, each with its labels. *)
Theorem C34_table_exact : forall index listing labels tlds, NoDup labels -> NoDup tlds -> forall quiet t missing, obedient listing ->
  generate_indexes index listing labels tlds false quiet [] = Ok (t, missing) ->
  (forall l, In l missing <-> In l labels /\ not_in_lgr index l) /\
  NoDup (dkeys t) /\
  (forall i, dget cps_eqb i t <> None <-> exists a b, a <> b /\ has_index index labels tlds i a /\ has_index index labels tlds i b) /\
  (forall i es, dget cps_eqb i t = Some es -> NoDup (map ce_cp es) /\
     forall l, In l (map ce_cp es) <-> has_index index labels tlds i l).
Proof. exact collisions_found. Qed.
Print Assumptions C34_table_exact.

Example C34_nontrivial : simple_lgr (built simple_ops) /\ reorders as_given /\
  basic_collision sample_index sample_listing as_given [[97; 100]; [100]; [98; 100]; [120]] [[99; 100]; [100]] =
  Ok ([([97; 100], [98; 100])], [([97; 100], [99; 100]); ([98; 100], [99; 100])], [[120]]).
Proof. split; [exact simple_sample|]. split; [exact as_given_reorders|]. vm_compute. reflexivity. Qed.

(** Three labels with one index: a pair is announced in both directions. *)
Theorem C34_pair_twice_refuted : exists labels pl pt missing a b, NoDup labels /\
  basic_collision sample_index sample_listing as_given labels [] = Ok (pl, pt, missing) /\ In (a, b) pl /\ In (b, a) pl.
Proof. exact three_labels_twice. Qed.
Print Assumptions C34_pair_twice_refuted.

(** A label whose index is cached collides with itself, or stops the search. *)
Theorem C34_cached_label_refuted : exists l i t, sample_index l = Ok i /\
  get_collisions sample_index sample_listing [l] true [(l, CachedIndex i)] = Ok t /\ t <> [] /\
  get_collisions sample_index sample_listing [l] false [(l, CachedIndex i)] = Raise AssertionError.
Proof. exact cached_label_collides_with_itself. Qed.
Print Assumptions C34_cached_label_refuted.

(** Annotation of a label against a set: exact if the set has no collision
    inside; in general a collision inside the set is blamed on every label. *)
Theorem C34_annotation_partial : forall index listing filtered label v, obedient listing ->
  set_annotation index listing filtered label = Ok v ->
  (forall a b, In a filtered -> In b filtered -> ~ collide index a b) ->
  (v = Collides <-> exists a, In a filtered /\ collide index label a).
Proof. exact set_annotation_exact. Qed.
Print Assumptions C34_annotation_partial.
Theorem C34_annotation_general : forall index listing filtered label v, obedient listing ->
  set_annotation index listing filtered label = Ok v ->
  (v = Collides <-> exists a b, In a (filtered ++ [label]) /\ In b (filtered ++ [label]) /\ collide index a b) /\
  (v = InSet -> In label filtered) /\ (v = NoCollision -> ~ In label filtered).
Proof. exact set_annotation_spec. Qed.
Print Assumptions C34_annotation_general.
Example C34_annotation_nontrivial :
  set_annotation sample_index sample_listing [[97]; [100]] [98] = Ok Collides /\
  set_annotation sample_index sample_listing [[97]; [100]] [100] = Ok InSet /\
  set_annotation sample_index sample_listing [[97]] [100] = Ok NoCollision.
Proof. vm_compute. auto. Qed.
Theorem C34_annotation_refuted : exists filtered label, set_annotation sample_index sample_listing filtered label = Ok Collides /\
  ~ In label filtered /\ forall a, In a filtered -> ~ collide sample_index label a.
Proof. exact annotation_blames_label. Qed.
Print Assumptions C34_annotation_refuted.

(** C48: the comparison of a label under two LGRs tells exactly the variants
    listed by one only, and those listed by both with another disposition. *)
Theorem C48_diff_exact : forall index1 index2 listing1 listing2 labels quiet, NoDup labels -> shows_itself listing1 -> shows_itself listing2 ->
  (forall l ws, NoDup (map fst (fst (listing1 l ws)))) -> (forall l ws, NoDup (map fst (fst (listing2 l ws)))) ->
  forall out, diff_labels index1 index2 listing1 listing2 labels quiet = Ok out ->
  (forall l, In l (map fst out) <-> In l labels /\ (exists i, index1 l = Ok i) /\ (exists i, index2 l = Ok i)) /\
  forall l c, In (l, c) out ->
    (forall v b a, In (v, b, a) (cg_disp c) <-> listed_as listing1 [] l v a /\ listed_as listing2 [] l v b /\ a <> b) /\
    (forall v, In v (cg_added c) <-> (exists d, listed_as listing2 [] l v d) /\ ~ exists d, listed_as listing1 [] l v d) /\
    (forall v, In v (cg_removed c) <-> (exists d, listed_as listing1 [] l v d) /\ ~ exists d, listed_as listing2 [] l v d) /\
    NoDup (cg_added c) /\ NoDup (cg_removed c).
Proof. exact diff_exact. Qed.
Print Assumptions C48_diff_exact.

Theorem C48_diff_completes : forall index1 index2 listing1 listing2 labels quiet, NoDup labels -> shows_itself listing1 -> shows_itself listing2 ->
  (forall l ws, NoDup (map fst (fst (listing1 l ws)))) -> (forall l ws, NoDup (map fst (fst (listing2 l ws)))) ->
  (forall l, In l labels -> settled index1 l /\ settled index2 l) ->
  (forall l, In l labels -> snd (listing1 l []) = Ok tt /\ snd (listing2 l []) = Ok tt) ->
  (forall l m i v, In l labels -> In m labels -> index1 l = Ok i -> index1 m = Ok i ->
     In v (map fst (fst (listing1 l []))) -> In v (map fst (fst (listing1 m [])))) ->
  (forall l m i v, In l labels -> In m labels -> index2 l = Ok i -> index2 m = Ok i ->
     In v (map fst (fst (listing2 l []))) -> In v (map fst (fst (listing2 m [])))) ->
  exists out, diff_labels index1 index2 listing1 listing2 labels quiet = Ok out.
Proof. exact diff_total. Qed.
Print Assumptions C48_diff_completes.

(** The dump succeeds exactly when labels with the same index have the same variants. *)
Theorem C48_dump_completes : forall index listing labels, NoDup labels -> shows_itself listing ->
  forall quiet t m, generate_indexes index listing labels [] true quiet [] = Ok (t, m) ->
  (forall l ws, NoDup (map fst (fst (listing l ws)))) ->
  ((exists out, full_dump t = Ok out) <->
   forall l m i v, In l labels -> In m labels -> index l = Ok i -> index m = Ok i ->
     In v (map fst (fst (listing l []))) -> In v (map fst (fst (listing m [])))).
Proof. exact full_dump_iff. Qed.
Print Assumptions C48_dump_completes.

Definition changed_ops := [addc [97]; addc [98]; addc [99]; addc [100]; addv [97] [98] None; addv [98] [97] None; addv [97] [100] (Some "blocked"); addv [100] [97] None].
Example C48_nontrivial :
  diff_labels sample_index (index_of no_rules (built changed_ops) 5)
    sample_listing (listing_of no_rules (built changed_ops) [] (fun _ => "Latin")) [[97]; [120]] true =
  Ok [([97], mkChanges [([98], Some "valid", Some "blocked")] [[100]] [[99]])].
Proof. vm_compute. reflexivity. Qed.

(** Labels with the same index need not have the same variants: an LGR cannot
    always be compared, even with itself. *)
Theorem C48_diff_refused_refuted : exists ops labels, NoDup labels /\
  diff_labels (index_of no_rules (built ops) 5) (index_of no_rules (built ops) 5)
    (listing_of no_rules (built ops) [] (fun _ => "Latin")) (listing_of no_rules (built ops) [] (fun _ => "Latin")) labels true = Raise LGRException.
Proof. exact diff_refused. Qed.
Print Assumptions C48_diff_refused_refuted.
