(** Property theorems about the collision tool (C87).  Statements only. *)
From Verif Require Import Base UtilsModel CharModel ActionModel LabelModel RepSpec LabelSpec LabelFinal CollToolModel CollToolSpec CollToolProofs CollToolFinal.
Open Scope N_scope.
Open Scope string_scope.
Open Scope list_scope.

(** C87: for each label the tool names the last reference label with the same index,
    or says that there is none; with the option it lists exactly the variants of the
    label that are variants of that reference label, with their disposition.  It stops
    at the first label outside of the LGR or without disposition. *)
Theorem C87_answers : forall rm r acts script db, reachable r -> forall generate refs labels out o,
  collision_tool rm r acts script db generate refs labels = (out, o) ->
  match o with
  | Ok _ => exists groups, out = List.concat groups /\ Forall2 (answers rm r acts script db generate refs) labels groups
  | Raise e => exists before label after groups last, labels = before ++ label :: after /\ out = List.concat groups ++ KCheck label :: last /\
               Forall2 (answers rm r acts script db generate refs) before groups /\ stopped rm r acts script db generate refs label e
  end.
Proof. exact tool_answers. Qed.
Print Assumptions C87_answers.
Example C87_answers_ex : k_tool true k_refs [[98; 100]; [97; 97; 97]; [100]] =
  ([KCheck [98; 100]; KCollision [98; 100] [97; 100]; KBlock [99; 100] [] (Some "valid"); KBlock [98; 100] [] (Some "valid");
    KCheck [97; 97; 97]; KNone [97; 97; 97]; KCheck [100]; KCollision [100] [100]], Ok tt).
Proof. exact k_sample. Qed.

(** C87: it gets to the end if all labels are in the LGR and, with the option, short
    enough. *)
Theorem C87_completes : forall rm r acts script db, reachable r -> forall generate refs labels,
  (forall l, In l labels -> (exists i, has_index rm r l i) /\ (generate = true -> db = true /\ l <> [] /\ (List.length l <= 63)%nat)) ->
  exists out, collision_tool rm r acts script db generate refs labels = (out, Ok tt).
Proof. exact tool_completes. Qed.
Print Assumptions C87_completes.
Example C87_completes_ex : forall l, In l [[98; 100]; [97; 97; 97]; [100]] ->
  (exists i, has_index no_rules (built simple_ops) l i) /\ (true = true -> true = true /\ l <> [] /\ (List.length l <= 63)%nat).
Proof. exact k_indexed. Qed.

(** C87: in LGRs of single code points without contexts, symmetric and transitive, a
    collision is announced exactly if the label is a variant of a reference label, or
    is one. *)
Theorem C87_variants : forall rm r acts script db, reachable r -> simple_lgr r -> forall generate refs label group,
  in_lgr r label -> (forall l, In l refs -> in_lgr r (strip l)) -> answers rm r acts script db generate refs label group ->
  ((exists ref, In (KCollision label ref) group) <-> exists l, In l refs /\ Forall2 (interchangeable r) label (strip l)) /\
  (In (KNone label) group <-> forall l, In l refs -> ~ Forall2 (interchangeable r) label (strip l)) /\
  (forall ref, In (KCollision label ref) group -> Forall2 (interchangeable r) label ref).
Proof. exact simple_announced. Qed.
Print Assumptions C87_variants.
(** C87: and all the listed variants of the label are to be blocked, the reference
    label apart. *)
Theorem C87_blocks_partial : forall rm r acts script, reachable r -> simple_lgr r -> forall ref label blocks items,
  in_lgr r label -> in_lgr r ref -> label <> [] -> (List.length label <= 63)%nat -> Forall2 (interchangeable r) label ref ->
  compute_label_disposition rm r acts script true label false false false [] = (items, Ok tt) ->
  to_block rm r acts script true ref label blocks ->
  forall z, In z items -> ls_cp z <> ref -> In (KBlock (ls_cp z) (ls_types z) (ls_disp z)) blocks.
Proof. exact simple_blocks. Qed.
Print Assumptions C87_blocks_partial.
Example C87_variants_ex : reachable (built simple_ops) /\ simple_lgr (built simple_ops) /\ forall l, In l [[98; 100]; [97; 97; 97]; [100]] -> in_lgr (built simple_ops) l.
Proof. exact (conj k_reachable (conj simple_sample k_in)). Qed.

(** The reference label itself, which is taken, may be missing among the variants to
    block, though the label has it as a variant that is not blocked. *)
Theorem C87_taken_refuted : exists refs label out ref d, simple_lgr (built simple_ops) /\ In ref refs /\ k_tool true refs [label] = (out, Ok tt) /\ In (KCollision label ref) out /\
  (exists z, In z (fst (compute_label_disposition no_rules (built simple_ops) [] (fun _ => "Latin") true label false false false [])) /\ ls_cp z = ref /\ ls_disp z = Some d /\ d <> "blocked") /\
  forall types d', ~ In (KBlock ref types d') out.
Proof. exact taken_not_blocked. Qed.
Print Assumptions C87_taken_refuted.
(** A label outside of the LGR stops the tool; labels after it are not checked. *)
Theorem C87_outside_refuted : exists refs before label after,
  k_tool false refs (before ++ label :: after) = (fst (k_tool false refs before) ++ [KCheck label], Raise (NotInLGR label)) /\
  after <> [] /\ (forall l, In l after -> In l refs).
Proof. exact stops_early. Qed.
Print Assumptions C87_outside_refuted.
(** Of several reference labels that collide with a label only one is named, even if
    the label is one of the others. *)
Theorem C87_named_refuted : exists refs label a b out, In a refs /\ In b refs /\ a <> b /\
  Forall2 (interchangeable (built simple_ops)) label a /\ Forall2 (interchangeable (built simple_ops)) label b /\
  k_tool false refs [label] = (out, Ok tt) /\ In (KCollision label b) out /\ ~ In (KCollision label a) out.
Proof. exact one_is_named. Qed.
Print Assumptions C87_named_refuted.
(** An empty line collides with an empty line. *)
Theorem C87_empty_refuted : exists refs, k_tool false refs [[]] = ([KCheck []; KCollision [] []], Ok tt) /\
  k_tool true refs [[]] = ([KCheck []; KCollision [] []], Raise (LGRApiInvalidParameter "label")).
Proof. exact empty_lines. Qed.
Print Assumptions C87_empty_refuted.

(** C87: a parser accepts its options exactly if none is declared twice.  All tools
    start, except this one. *)
Theorem C87_options : forall l, (forall a, In a l -> NoDup a) -> ((exists k, declare l = Ok k) <-> NoDup ("-h" :: "--help" :: List.concat l)).
Proof. exact declare_iff. Qed.
Print Assumptions C87_options.
Theorem C87_others_start : Forall (fun t => exists k, declare (snd t) = Ok k) other_tools.
Proof. exact others_start. Qed.
Print Assumptions C87_others_start.
Theorem C87_starts_refuted : declare collision_args = Raise ValueError.
Proof. exact collision_args_conflict. Qed.
Print Assumptions C87_starts_refuted.
