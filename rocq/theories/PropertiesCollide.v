(** Property theorems about the collision report of a label list (C79).
    Statements only.  [index], [listing], [decode] and [lower] are any functions
    unless said otherwise; [labels] and [tlds] any lists of the labels given. *)
From Verif Require Import Base CharModel ActionModel LabelModel RepSpec RangeProofs LabelFinal AnnotateModel CollisionModel CollisionSpec CollisionWitness CollideModel CollideSpec CollideReport CollideWitness.
Open Scope string_scope.
Open Scope list_scope.
Open Scope nat_scope.

(** C79: the lines that are no labels are reported with their errors, and so are
    the labels that are TLDs, sorted; also when the search fails. *)
Theorem C79_reading : forall lower decode index listing order lines tld_lines, reorders order -> forall show quiet out r,
  collision lower decode index listing order lines tld_lines show quiet = (out, r) ->
  refusals out = refused_in decode lines /\
  tld_refusals out = (match tld_lines with Some f => refused_in decode f | None => [] end) /\
  ascending (tld_labels out) /\ (forall l, In l (tld_labels out) <-> given decode lines l /\ given_tld decode tld_lines l).
Proof. exact reading_shown. Qed.
Print Assumptions C79_reading.

(** The labels not in the LGR, sorted, and the indexes shown, each once. *)
Theorem C79_left_out : forall lower decode index listing order lines tld_lines, reorders order -> obedient listing ->
  forall labels tlds, (forall l, In l labels <-> given decode lines l) -> (forall l, In l tlds <-> given_tld decode tld_lines l) -> forall show quiet out,
  collision lower decode index listing order lines tld_lines show quiet = (out, Ok tt) ->
  ascending (missing_labels out) /\ (forall l, In l (missing_labels out) <-> given decode lines l /\ not_in_lgr index l) /\
  NoDup (headers out) /\ (forall i, In i (headers out) <-> shown index labels tlds show i).
Proof. exact left_out_shown. Qed.
Print Assumptions C79_left_out.

(** Without a dump: the pairs announced are those with the same index, between
    two labels or a label and a TLD. *)
Theorem C79_collisions : forall lower decode index listing order lines tld_lines, reorders order -> obedient listing ->
  forall labels tlds, (forall l, In l labels <-> given decode lines l) -> (forall l, In l tlds <-> given_tld decode tld_lines l) -> forall quiet out,
  collision lower decode index listing order lines tld_lines false quiet = (out, Ok tt) ->
  (forall a b, (exists f ca cb, In (Pair f a ca b cb) out \/ In (Pair f b ca a cb) out) <->
     collide index a b /\ (In a labels /\ subject labels tlds b \/ In b labels /\ subject labels tlds a)) /\
  (In NoneHere out <-> ~ exists a b, In a labels /\ In b labels /\ collide index a b).
Proof. exact pairs_collide. Qed.
Print Assumptions C79_collisions.

(** With or without a dump: a pair stands below an index that both labels belong
    to, with the kinds they have there. *)
Theorem C79_pairs_sound : forall lower decode index listing order lines tld_lines, reorders order -> obedient listing ->
  forall labels tlds, (forall l, In l labels <-> given decode lines l) -> (forall l, In l tlds <-> given_tld decode tld_lines l) -> forall show quiet out,
  collision lower decode index listing order lines tld_lines show quiet = (out, Ok tt) ->
  forall pre post f a ca b cb, out = pre ++ Pair f a ca b cb :: post ->
  exists i, last_index pre = Some i /\ a <> b /\ In a labels /\ (In b labels \/ In b tlds) /\
    belongs index listing labels tlds show i a /\ belongs index listing labels tlds show i b /\
    kind_below index labels tlds i a ca /\ kind_below index labels tlds i b cb /\ (f = true <-> ca = CTld \/ cb = CTld).
Proof. exact pairs_sound. Qed.
Print Assumptions C79_pairs_sound.
Theorem C79_pairs_complete : forall lower decode index listing order lines tld_lines, reorders order -> obedient listing ->
  forall labels tlds, (forall l, In l labels <-> given decode lines l) -> (forall l, In l tlds <-> given_tld decode tld_lines l) -> forall show quiet out,
  collision lower decode index listing order lines tld_lines show quiet = (out, Ok tt) ->
  forall i a b, a <> b -> belongs index listing labels tlds show i a -> belongs index listing labels tlds show i b -> In a labels ->
  (In b labels -> exists pre post f ca cb, last_index pre = Some i /\ (out = pre ++ Pair f a ca b cb :: post \/ out = pre ++ Pair f b ca a cb :: post)) /\
  (In b tlds -> exists pre post f ca cb, last_index pre = Some i /\ out = pre ++ Pair f a ca b cb :: post).
Proof. exact pairs_complete. Qed.
Print Assumptions C79_pairs_complete.
Theorem C79_none : forall lower decode index listing order lines tld_lines, reorders order -> obedient listing ->
  forall labels tlds, (forall l, In l labels <-> given decode lines l) -> (forall l, In l tlds <-> given_tld decode tld_lines l) -> forall show quiet out,
  collision lower decode index listing order lines tld_lines show quiet = (out, Ok tt) ->
  (In NoneHere out <-> ~ exists i a b, a <> b /\ In a labels /\ In b labels /\
     belongs index listing labels tlds show i a /\ belongs index listing labels tlds show i b).
Proof. exact none_reported. Qed.
Print Assumptions C79_none.

(** The dump: for each label in the LGR the labels listed for it, each with its
    disposition, and how often each disposition occurs. *)
Theorem C79_dump : forall lower decode index listing order lines tld_lines, reorders order -> obedient listing ->
  forall labels tlds, (forall l, In l labels <-> given decode lines l) -> (forall l, In l tlds <-> given_tld decode tld_lines l) ->
  shows_itself listing -> forall quiet out, collision lower decode index listing order lines tld_lines true quiet = (out, Ok tt) ->
  (forall p, In (DumpHeader p) out <-> In p labels /\ exists i, index p = Ok i) /\
  (forall pre post c l, out = pre ++ DumpVariant c l :: post -> exists p i d post', last_dump pre = Some p /\ index p = Ok i /\
     post = DumpDisposition (Some d) :: post' /\ l <> p /\ listed_as listing [] p l (Some d) /\ kind_below index labels tlds i l c) /\
  (forall p i l d, In p labels -> index p = Ok i -> l <> p -> listed_as listing [] p l d ->
     exists pre c post, out = pre ++ DumpVariant c l :: DumpDisposition d :: post /\ last_dump pre = Some p) /\
  (forall pre post d n, out = pre ++ Count d n :: post -> exists p, last_dump pre = Some p /\ n = disposed lower listing p d /\ 0 < n) /\
  (forall p i l d, In p labels -> index p = Ok i -> listed_as listing [] p l (Some d) ->
     exists pre post, out = pre ++ Count (lower d) (disposed lower listing p (lower d)) :: post /\ last_dump pre = Some p).
Proof. exact dump_shown. Qed.
Print Assumptions C79_dump.

(** The counts of a label: each disposition once, the most common first. *)
Theorem C79_counts : forall lower decode index listing order lines tld_lines quiet out,
  collision lower decode index listing order lines tld_lines true quiet = (out, Ok tt) ->
  forall pre mid post d n d' m, out = pre ++ Count d n :: mid ++ Count d' m :: post -> last_dump mid = None -> m <= n /\ d <> d'.
Proof. exact counts_shown. Qed.
Print Assumptions C79_counts.

(** When the report is complete. *)
Theorem C79_completes : forall lower decode index listing order lines tld_lines, reorders order -> obedient listing ->
  forall labels tlds, (forall l, In l labels <-> given decode lines l) -> (forall l, In l tlds <-> given_tld decode tld_lines l) ->
  (snd (collision lower decode index listing order lines tld_lines false true) = Ok tt <-> forall l, subject labels tlds l -> settled index l).
Proof. exact report_quiet. Qed.
Print Assumptions C79_completes.
Theorem C79_dump_completes : forall lower decode index listing order lines tld_lines, reorders order -> obedient listing ->
  forall labels tlds, (forall l, In l labels <-> given decode lines l) -> (forall l, In l tlds <-> given_tld decode tld_lines l) ->
  shows_itself listing -> forall quiet,
  (snd (collision lower decode index listing order lines tld_lines true quiet) = Ok tt <->
   (forall l, subject labels tlds l -> settled index l) /\ (forall i p, has_index index labels tlds i p -> snd (listing p []) = Ok tt) /\
   (forall i p v, In p labels -> has_index index labels tlds i p -> belongs index listing labels tlds true i v -> exists d, listed_as listing [] p v (Some d))).
Proof. exact report_dump. Qed.
Print Assumptions C79_dump_completes.

Example C79_nontrivial : reorders as_given /\ obedient sample_listing /\ shows_itself sample_listing /\ exists out, sample_report true = (out, Ok tt) /\
  In (Pair true [97; 100]%N CPrimary [99; 100]%N CTld) out /\ In (Count "blocked" 1) out /\ missing_labels out = [[120%N]].
Proof.
  split; [exact as_given_reorders|]. split; [apply listing_obedient; exact (built_reachable simple_ops)|]. split; [apply listing_itself; exact (built_reachable simple_ops)|].
  eexists. split; [exact sample_shown|]. split; [cbn; tauto|]. split; [cbn; tauto|reflexivity].
Qed.

(** With a dump, labels with different indexes are announced as collisions, if
    one is a variant of the other but not the other way round. *)
Theorem C79_dump_pairs_refuted : exists lines out a b, collision as_is no_decode lop_index lop_listing as_given lines None true true = (out, Ok tt) /\
  given no_decode lines a /\ given no_decode lines b /\ (exists f ca cb, In (Pair f a ca b cb) out) /\ ~ collide lop_index a b.
Proof. exact dump_announces. Qed.
Print Assumptions C79_dump_pairs_refuted.

(** The report with a dump stops in the middle although the collisions were found. *)
Theorem C79_dump_stops_refuted : exists lines, snd (collision as_is no_decode lop_index lop_listing as_given lines None true true) = Raise LGRException /\
  snd (collision as_is no_decode lop_index lop_listing as_given lines None false true) = Ok tt.
Proof. exact dump_stops. Qed.
Print Assumptions C79_dump_stops_refuted.

(** A collision with a TLD that is also in the label list is not reported as one
    with an existing TLD. *)
Theorem C79_tld_refuted : exists lines tlds out a b, collision as_is no_decode sample_index sample_listing as_given lines (Some tlds) false true = (out, Ok tt) /\
  given no_decode lines a /\ given no_decode tlds b /\ collide sample_index a b /\ forall f x cx y cy, In (Pair f x cx y cy) out -> f = false.
Proof. exact tld_hidden. Qed.
Print Assumptions C79_tld_refuted.
