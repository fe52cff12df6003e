(** The collision tool on simple LGRs, and the cases that fail. *)
From Verif Require Import Base BaseFacts UtilsModel CharModel ActionModel LabelModel RepSpec RangeProofs RepProofs ActionSpec LabelSpec LabelProofs LabelElig LabelIndex LabelGen LabelVar LabelList LabelFinal
  CollToolModel CollToolSpec CollToolProofs.
Open Scope N_scope.
Open Scope string_scope.
Open Scope list_scope.

Section Simple.
  Variables (rm : rule_oracle) (r : repertoire) (acts : list action) (script : N -> string) (db : bool).
  Hypotheses (Hr : reachable r) (Hs : simple_lgr r).
  Let Hwf : wf_rep r := reachable_wf r Hr.

  Lemma simple_same_index : forall a b, in_lgr r a -> in_lgr r b -> forall i, has_index rm r a i -> (has_index rm r b i <-> Forall2 (interchangeable r) a b).
  Proof.
    intros a b Ha Hb i I. destruct (simple_index_collision rm r Hr Hs a b Ha Hb) as (ia & ib & A & B & E).
    assert (X : forall l j, index_once rm r l = Ok j -> has_index rm r l j).
    { intros l j K. apply (index_iff rm r Hr). unfold tool_index. cbn [index_label]. rewrite K. destruct l; [|reflexivity]. cbn in K. injection K as <-. reflexivity. }
    pose proof (has_index_fun rm r a _ _ I (X _ _ A)) as ->. rewrite <- E. split.
    - intro K. exact (has_index_fun rm r b _ _ K (X _ _ B)).
    - intros ->. exact (X _ _ B).
  Qed.
  Lemma simple_indexed : forall a, in_lgr r a -> exists i, has_index rm r a i.
  Proof.
    intros a Ha. destruct (simple_index_canonical rm r Hr Hs a Ha) as (m & M & _). exists m. apply (index_iff rm r Hr). unfold tool_index. cbn [index_label]. rewrite M.
    destruct a; [|reflexivity]. cbn in M. injection M as <-. reflexivity.
  Qed.
  (** A collision is announced exactly for a variant label, or the same label. *)
  Theorem simple_announced : forall generate refs label group, in_lgr r label -> (forall l, In l refs -> in_lgr r (strip l)) ->
    answers rm r acts script db generate refs label group ->
    ((exists ref, In (KCollision label ref) group) <-> exists l, In l refs /\ Forall2 (interchangeable r) label (strip l)) /\
    (In (KNone label) group <-> forall l, In l refs -> ~ Forall2 (interchangeable r) label (strip l)) /\
    (forall ref, In (KCollision label ref) group -> Forall2 (interchangeable r) label ref).
  Proof.
    intros generate refs label group Hl Hrefs (i & I & [(ref & blocks & N & -> & B)|(N & ->)]).
    - pose proof N as N'. destruct N' as (pre & line & post & E & S & H & _). assert (L : In line refs) by (rewrite E; apply in_or_app; right; left; reflexivity).
      assert (F : Forall2 (interchangeable r) label ref). { rewrite <- S. apply (simple_same_index label (strip line) Hl (Hrefs line L) i I). rewrite S. exact H. }
      assert (NB : forall k, In k blocks -> exists v t d, k = KBlock v t d).
      { destruct generate; [|subst blocks; intros k []]. destruct B as (items & _ & B & _). exact B. }
      split; [|split].
      + split; [|intros _; exists ref; right; left; reflexivity]. intros _. exists line. split; [exact L|]. rewrite S. exact F.
      + split.
        * intros [K|[K|K]]; [discriminate|discriminate|]. destruct (NB _ K) as (v & t & d & Q). discriminate.
        * intro K. exfalso. apply (K line L). rewrite S. exact F.
      + intros ref' [K|[K|K]]; [discriminate|injection K as ->; exact F|]. destruct (NB _ K) as (v & t & d & Q). discriminate.
    - assert (NF : forall l, In l refs -> ~ Forall2 (interchangeable r) label (strip l)).
      { intros l L F. apply (N l L). apply (simple_same_index label (strip l) Hl (Hrefs l L) i I). exact F. }
      split; [|split].
      + split; [intros (ref & [K|[K|[]]]); discriminate|]. intros (l & L & F). exfalso. exact (NF l L F).
      + split; [intros _; exact NF|]. intros _. right. left. reflexivity.
      + intros ref [K|[K|[]]]; discriminate.
  Qed.

  (** Variant labels of simple LGRs. *)
  Lemma simple_cp : forall ch x, entry r ch -> ch_cp ch = [x] -> lookup r [x] = Some ch.
  Proof. intros ch x E C. unfold entry in E. rewrite C in E. exact E. Qed.
  Lemma simple_results : forall done l p, replacement rm (considered rm r) done l p -> Forall2 (interchangeable r) l (result p).
  Proof.
    intros done l p H. induction H as [done|done ch tail p A B H IH|done ch v tail p A B H IH].
    - constructor.
    - destruct (sl_single r Hs ch) as [x C]; [exact (proj1 (considered_entry _ _ _ _ _ A))|]. unfold result. cbn [flat_map snd piece_cp]. rewrite C. constructor; [left; reflexivity|exact IH].
    - pose proof (proj1 (considered_entry _ _ _ _ _ A)) as En. destruct (sl_single r Hs ch En) as [x C]. destruct B as [B1 B2]. destruct (sl_variants r Hs ch v En B1) as (_ & _ & y & Y & _).
      unfold result. cbn [flat_map snd piece_cp]. rewrite C, Y. constructor; [right|exact IH]. exists ch, v. split; [exact (simple_cp ch x En C)|]. auto.
  Qed.
  Lemma no_context : forall c lb n, context_holds rm None None c lb n.
  Proof. intros c lb n. unfold context_holds. split; intros rule K; discriminate. Qed.
  Lemma simple_free : forall a b, in_lgr r a -> Forall2 (interchangeable r) a b -> forall done, exists p, free_replacement rm r done a p /\ result p = b.
  Proof.
    intros a b Ha F. induction F as [|x y a b X F IH]; intro done.
    - exists []. split; [constructor|reflexivity].
    - assert (Ha' : in_lgr r a) by (intros z Hz; apply Ha; right; exact Hz). destruct (lookup_entry r x (Ha x (or_introl eq_refl))) as (ch & En & C).
      destruct X as [<-|(ch' & v & L & V & Y)].
      + destruct (IH Ha' (done ++ ch_cp ch)) as (p & P1 & P2). exists ((ch, PChar ch) :: p). split.
        * change (x :: a) with ([x] ++ a). rewrite <- C. apply fr_keep; [exact En|exact P1].
        * unfold result. cbn [flat_map snd piece_cp]. rewrite C. cbn [app]. f_equal. exact P2.
      + assert (ch' = ch). { pose proof (simple_cp ch x En C) as Q. congruence. } subst ch'. destruct (IH Ha' (done ++ v_cp v)) as (p & P1 & P2). exists ((ch, PVar v) :: p). split.
        * change (x :: a) with ([x] ++ a). rewrite <- C. apply fr_variant; [exact En| |exact P1]. split; [exact V|].
          destruct (sl_variants r Hs ch v En V) as (W & NW & _). rewrite W, NW. apply no_context.
        * unfold result. cbn [flat_map snd piece_cp]. rewrite Y. cbn [app]. f_equal. exact P2.
  Qed.
  (** Every variant that is listed for the label is one to block, the reference
      label apart. *)
  Theorem simple_blocks : forall ref label blocks items, in_lgr r label -> in_lgr r ref -> label <> [] -> (List.length label <= 63)%nat -> Forall2 (interchangeable r) label ref ->
    compute_label_disposition rm r acts script true label false false false [] = (items, Ok tt) ->
    to_block rm r acts script true ref label blocks ->
    forall z, In z items -> ls_cp z <> ref -> In (KBlock (ls_cp z) (ls_types z) (ls_disp z)) blocks.
  Proof.
    intros ref label blocks items Hl Hrf Hne Hlen F E (items' & E' & _ & B) z Hz Hd. rewrite E in E'. injection E' as <-. apply B. split; [|exists z; auto].
    assert (Hseq : sequences_mapped r). { intros ch He Hc. destruct (sl_single r Hs ch He) as [x C]. rewrite C in Hc. cbn in Hc. lia. }
    assert (Rne : ref <> []) by (intros ->; inversion F; subst; contradiction).
    assert (V : Forall2 (interchangeable r) label (ls_cp z)).
    { destruct (listing_spec rm r acts script Hr label false false false [] Hne Hlen) as (ws & zs & o & W & L & O & _ & _ & J & _). rewrite E in L. injection L as ->.
      apply in_app_iff in Hz. destruct Hz as [Hz|[<-|[]]].
      - destruct (J z Hz) as (w & Hw & _ & [K _] & _). destruct (variants_exact rm r script Hwf label Hne) as (ws' & V1 & V2 & _). assert (ws' = ws) by congruence. subst ws'.
        destruct (V2 w Hw) as (p & P1 & _ & P2 & _). rewrite K, P2. exact (simple_results _ _ _ P1).
      - rewrite O. clear. induction label; constructor; [left; reflexivity|assumption]. }
    assert (G : Forall2 (interchangeable r) ref (ls_cp z)).
    { clear - F V Hs. revert V. generalize (ls_cp z). intro c. revert c. induction F as [|x y a b X F IH]; intros c V; inversion V; subst; constructor; auto.
      eapply (interchangeable_trans r Hs); [apply (interchangeable_sym r Hs); exact X|assumption]. }
    destruct (simple_free ref (ls_cp z) Hrf G []) as (p & P1 & P2).
    destruct (variants_complete rm r script Hwf Hseq ref p Rne P1) as (ws & w & W1 & W2 & W3); [congruence|].
    destruct (variant_labels_In rm r script Hr ref) as (ws' & V1 & V2). assert (ws' = ws) by congruence. subst ws'. apply V2. apply in_map_iff. exists w. split; [|exact W2]. rewrite W3. exact P2.
  Qed.
End Simple.

(** ** Examples *)
Definition k_tool := collision_tool no_rules (built simple_ops) [] (fun _ => "Latin") true.
Definition k_refs : list cps := [[97; 100; 10]; [120; 10]; [32; 98; 98; 10]; [100; 10]].
Lemma k_sample : k_tool true k_refs [[98; 100]; [97; 97; 97]; [100]] =
  ([KCheck [98; 100]; KCollision [98; 100] [97; 100]; KBlock [99; 100] [] (Some "valid"); KBlock [98; 100] [] (Some "valid");
    KCheck [97; 97; 97]; KNone [97; 97; 97]; KCheck [100]; KCollision [100] [100]], Ok tt).
Proof. vm_compute. reflexivity. Qed.
Lemma k_reachable : reachable (built simple_ops).
Proof. apply built_reachable. Qed.
Lemma k_in : forall l, In l [[98; 100]; [97; 97; 97]; [100]] -> in_lgr (built simple_ops) l.
Proof. intros l H x Hx. repeat destruct H as [<-|H]; try contradiction; repeat destruct Hx as [<-|Hx]; try contradiction; vm_compute; discriminate. Qed.
Lemma k_indexed : forall l, In l [[98; 100]; [97; 97; 97]; [100]] -> (exists i, has_index no_rules (built simple_ops) l i) /\ (true = true -> true = true /\ l <> [] /\ (List.length l <= 63)%nat).
Proof.
  intros l H. split; [exact (simple_indexed no_rules _ k_reachable simple_sample l (k_in l H))|]. intros _. split; [reflexivity|].
  repeat destruct H as [<-|H]; try contradiction; (split; [discriminate|apply Nat.leb_le; reflexivity]).
Qed.
(** The label that is taken is not among those to block. *)
Lemma taken_not_blocked : exists refs label out ref d, simple_lgr (built simple_ops) /\ In ref refs /\ k_tool true refs [label] = (out, Ok tt) /\ In (KCollision label ref) out /\
  (exists z, In z (fst (compute_label_disposition no_rules (built simple_ops) [] (fun _ => "Latin") true label false false false [])) /\ ls_cp z = ref /\ ls_disp z = Some d /\ d <> "blocked") /\
  forall types d', ~ In (KBlock ref types d') out.
Proof.
  exists [[97; 100]], [98; 100]. eexists _, [97; 100], "valid". split; [exact simple_sample|]. split; [left; reflexivity|]. split; [vm_compute; reflexivity|].
  split; [right; left; reflexivity|]. split.
  - eexists. split; [vm_compute; left; reflexivity|]. split; [reflexivity|]. split; [reflexivity|discriminate].
  - intros types d' K. repeat destruct K as [K|K]; try discriminate; try contradiction.
Qed.
(** A label outside of the LGR stops the tool, which says nothing of the labels after
    it. *)
Lemma stops_early : exists refs before label after, k_tool false refs (before ++ label :: after) = (fst (k_tool false refs before) ++ [KCheck label], Raise (NotInLGR label)) /\
  after <> [] /\ (forall l, In l after -> In l refs).
Proof. exists [[97; 100]], [[97]], [120], [[97; 100]]. split; [vm_compute; reflexivity|]. split; [discriminate|]. intros l H. exact H. Qed.
(** Other reference labels with the same index are not named; a reference label
    collides, with another one or itself. *)
Lemma one_is_named : exists refs label a b out, In a refs /\ In b refs /\ a <> b /\ Forall2 (interchangeable (built simple_ops)) label a /\ Forall2 (interchangeable (built simple_ops)) label b /\
  k_tool false refs [label] = (out, Ok tt) /\ In (KCollision label b) out /\ ~ In (KCollision label a) out.
Proof.
  exists [[97; 100]; [98; 100]], [97; 100], [97; 100], [98; 100]. eexists. split; [left; reflexivity|]. split; [right; left; reflexivity|]. split; [discriminate|].
  split; [repeat constructor|]. split.
  - constructor; [right; apply maps_to_dec; vm_compute; reflexivity|]. constructor; [left; reflexivity|constructor].
  - split; [vm_compute; reflexivity|]. split; [right; left; reflexivity|]. intros [K|[K|[]]]; discriminate.
Qed.
(** An empty line among the reference labels and in the input. *)
Lemma empty_lines : exists refs, k_tool false refs [[]] = ([KCheck []; KCollision [] []], Ok tt) /\ k_tool true refs [[]] = ([KCheck []; KCollision [] []], Raise (LGRApiInvalidParameter "label")).
Proof. exists [[10]]. split; vm_compute; reflexivity. Qed.
