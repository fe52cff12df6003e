From Coq Require Import Permutation.
From Verif Require Import Base BaseFacts CharModel RepSpec UtilsModel RefModel ActionModel LgrModel LgrSpec LgrInv LgrFinal MetaModel ValidateFinal CompareModel CompareSpec CompareProofs CompareFinal.
Open Scope string_scope.
Open Scope list_scope.

Definition in_order : orders := mkOrders (fun l => l) (fun l => l) (fun l => l) (fun l => l) (fun l => l).
Definition backwards : orders := mkOrders (@rev cps) (@rev variant) (@rev string) (@rev action) (@rev scope).
Lemma in_order_permutes : permutes in_order.
Proof. unfold permutes. cbn. auto 10. Qed.
Lemma backwards_permutes : permutes backwards.
Proof. unfold permutes, backwards. cbn [ord_cps ord_variants ord_names ord_actions ord_scopes]. repeat split; intro l; apply Permutation_sym; apply Permutation_rev. Qed.

Definition unforcedb (x : lgr_op) : bool :=
  match x with
  | LAddCp _ _ _ _ _ _ _ _ f => negb f
  | LAddRange _ _ _ _ _ _ _ _ _ f => negb f
  | LAddVariant _ _ _ _ _ _ _ _ _ f => negb f
  | _ => true
  end.
Lemma unforcedb_sound : forall x, unforcedb x = true -> unforced x.
Proof. intros x H. destruct x; cbn in *; auto; apply negb_true_iff; exact H. Qed.
Definition doc_of (ops : list lgr_op) (m : metadata) (acts : list (action * string)) (rules : list (string * string)) : doc :=
  mkDoc "sample" (fst (lgr_run (new_lgr None true) ops)) m (map fst acts) (map snd acts) (map fst rules) (map snd rules) [] [].
Lemma doc_of_ok : forall ops m acts rules,
  each_stepb tidy_opb (new_lgr None true) ops = true -> forallb unforcedb ops = true -> input_ok (doc_of ops m acts rules).
Proof.
  intros ops m acts rules H1 H2. split; [apply ranges_tidy; exact H1|]. split.
  - apply unforced_orderly. rewrite forallb_forall in H2. intros x Hx. apply unforcedb_sound. apply H2. exact Hx.
  - unfold aligned, doc_of. cbn. rewrite !map_length. auto.
Qed.

Definition tag_cp (c : cps) (tags : list string) (w : option string) := LAddCp c None [] tags w None None false false.
Definition act (d : string) (mat : option string) : action := mkAction d mat None None None None.
Definition lang_meta (l : list cps) (st en : option cps) : metadata :=
  mkMeta None None l [] st en (Some (txt "6.3.0")) None [].

(** Two documents with common and own code points, ranges, sequences, variants. *)
Definition doc_a : doc := doc_of
  [LAddReference "book" None None; LAddReference "page" None None; tag_cp [1] ["t"; "u"] (Some "r"); lcp [2]; lcp [7; 8];
   LAddRange 20 23 None ["0"] ["v"] None None None false false; lvar [1] [2]; lvar [2] [1]; lvarw [1] [7; 8] (Some "r")]
  (lang_meta [txt "fr"; txt "de"] (Some (txt "2020-01-01")) None)
  [(act "invalid" (Some "r"), "a1"); (act "blocked" None, "a2")] [("r", "x"); ("s", "y")].
Definition doc_b : doc := doc_of
  [LAddReference "page" None None; tag_cp [1] ["u"; "w"] (Some "r"); lcp [3]; lcp [7; 8];
   LAddRange 22 24 None [] ["z"] None None None false false; lvar [1] [3]; lvar [3] [1]; lvarw [1] [7; 8] (Some "r")]
  (lang_meta [txt "fr"; txt "it"] (Some (txt "2021-01-01")) (Some (txt "2022-01-01")))
  [(act "blocked" None, "a2"); (act "valid" (Some "s"), "a3")] [("r", "x'"); ("q", "z")].
Lemma doc_a_ok : input_ok doc_a.
Proof. apply doc_of_ok; vm_compute; reflexivity. Qed.
Lemma doc_b_ok : input_ok doc_b.
Proof. apply doc_of_ok; vm_compute; reflexivity. Qed.

Definition result (x : doc * doc * res doc) : doc := match x with (_, _, Ok d) => d | (d, _, Raise _) => d end.
Definition succeeded (x : doc * doc * res doc) : bool := match x with (_, _, Ok _) => true | _ => false end.
Lemma union_result : forall o t a b, succeeded (union_lgrs o t a b) = true -> union_is o t a b (result (union_lgrs o t a b)).
Proof. intros o t a b H. unfold union_is. destruct (union_lgrs o t a b) as [[x y] [d|e]]; [|discriminate]. exists x, y. reflexivity. Qed.
Lemma inter_result : forall o t a b, succeeded (intersect_lgrs o t a b) = true -> intersection_is o t a b (result (intersect_lgrs o t a b)).
Proof. intros o t a b H. unfold intersection_is. destruct (intersect_lgrs o t a b) as [[x y] [d|e]]; [|discriminate]. exists x, y. reflexivity. Qed.

Definition today : cps := txt "2026-11-17".
Definition u_ab : doc := result (union_lgrs backwards today doc_a doc_b).
Definition u_ba : doc := result (union_lgrs backwards today doc_b doc_a).
Definition i_ab : doc := result (intersect_lgrs backwards today doc_a doc_b).
Lemma u_ab_is : union_is backwards today doc_a doc_b u_ab.
Proof. apply union_result. vm_compute. reflexivity. Qed.
Lemma u_ba_is : union_is backwards today doc_b doc_a u_ba.
Proof. apply union_result. vm_compute. reflexivity. Qed.
Lemma i_ab_is : intersection_is backwards today doc_a doc_b i_ab.
Proof. apply inter_result. vm_compute. reflexivity. Qed.

(** Decidable readings of the entries. *)
Definition vkeys (o : option char) : list (cps * option string * option string) :=
  match o with Some ch => map vkey (get_variants ch) | None => [] end.
Lemma vkeys_spec : forall o k, In k (vkeys o) <-> has_vkey o k.
Proof. intros [ch|] k; cbn [vkeys]; [symmetry; apply some_vkey|]. rewrite none_vkey. tauto. Qed.

Lemma union_variants_refuted : exists o t d1 d2 d d' c k, permutes o /\ input_ok d1 /\ input_ok d2 /\
  union_is o t d1 d2 d /\ union_is o t d2 d1 d' /\
  has_vkey (entry_of d1 c) k /\ ~ has_vkey (entry_of d c) k /\ has_vkey (entry_of d' c) k.
Proof.
  exists backwards, today, doc_a, doc_b, u_ab, u_ba, [2], ([1], None, None).
  split; [exact backwards_permutes|]. split; [exact doc_a_ok|]. split; [exact doc_b_ok|]. split; [exact u_ab_is|]. split; [exact u_ba_is|].
  rewrite <- !vkeys_spec. vm_compute. split; [left; reflexivity|]. split; [intros []|left; reflexivity].
Qed.
Lemma union_contexts_refuted : exists o t d1 d2 d c a b ch, permutes o /\ input_ok d1 /\ input_ok d2 /\ union_is o t d1 d2 d /\
  entry_of d1 c = Some a /\ entry_of d2 c = Some b /\ ch_when a = Some "r" /\ ch_when b = Some "r" /\
  entry_of d c = Some ch /\ ch_when ch = None /\ ch_not_when ch = None.
Proof.
  exists backwards, today, doc_a, doc_b, u_ab, [1]. do 3 eexists.
  split; [exact backwards_permutes|]. split; [exact doc_a_ok|]. split; [exact doc_b_ok|]. split; [exact u_ab_is|].
  split; [vm_compute; reflexivity|]. split; [vm_compute; reflexivity|]. split; [reflexivity|]. split; [reflexivity|].
  split; [vm_compute; reflexivity|]. split; reflexivity.
Qed.
Lemma union_rules_refuted : exists o t d1 d2 d c a, permutes o /\ input_ok d1 /\ input_ok d2 /\ union_is o t d1 d2 d /\
  In "r" (doc_rules d1) /\ In "r" (doc_rules d2) /\ entry_of d c = Some a /\
  (exists v, In v (get_variants a) /\ v_when v = Some "r") /\ ~ In "r" (doc_rules d).
Proof.
  exists backwards, today, doc_a, doc_b, u_ab, [1]. eexists.
  split; [exact backwards_permutes|]. split; [exact doc_a_ok|]. split; [exact doc_b_ok|]. split; [exact u_ab_is|].
  split; [vm_compute; auto|]. split; [vm_compute; auto|]. split; [vm_compute; reflexivity|]. split.
  - eexists. split; [vm_compute; right; right; left; reflexivity|]. reflexivity.
  - vm_compute. intuition discriminate.
Qed.

(** Rules named r and r_1 in the first, another r in the second. *)
Definition doc_r1 : doc := doc_of [] new_metadata [] [("r", "<rule name=""r"">1</rule>"); ("r_1", "one")].
Definition doc_r2 : doc := doc_of [] new_metadata [] [("r", "<rule name=""r"">2</rule>")].
Lemma union_rule_names_refuted : exists o t d1 d2 d, permutes o /\ input_ok d1 /\ input_ok d2 /\ union_is o t d1 d2 d /\
  NoDup (doc_rules d1) /\ NoDup (doc_rules d2) /\ ~ NoDup (doc_rules d).
Proof.
  exists in_order, today, doc_r1, doc_r2. eexists.
  split; [exact in_order_permutes|]. split; [apply doc_of_ok; reflexivity|]. split; [apply doc_of_ok; reflexivity|].
  split; [apply union_result; vm_compute; reflexivity|].
  split; [repeat constructor; cbn; intuition discriminate|]. split; [repeat constructor; cbn; intuition discriminate|].
  vm_compute. intro H. inversion H as [|x l H1 H2]. apply H1. right. left. reflexivity.
Qed.
Lemma union_rule_text_refuted : exists o t d1 d2 d, permutes o /\ input_ok d1 /\ input_ok d2 /\ union_is o t d1 d2 d /\
  In ("r", "<rule name=""r"">1</rule>") (combine (doc_rules d1) (doc_rules_xml d1)) /\
  In ("r_1", "<r_1ule name=""r_1"">1</r_1ule>") (combine (doc_rules d) (doc_rules_xml d)).
Proof.
  exists in_order, today, doc_r1, doc_r2. eexists.
  split; [exact in_order_permutes|]. split; [apply doc_of_ok; reflexivity|]. split; [apply doc_of_ok; reflexivity|].
  split; [apply union_result; vm_compute; reflexivity|]. split; vm_compute; auto.
Qed.

(** The same action written in two ways. *)
Definition doc_t1 : doc := doc_of [] new_metadata [(mkAction "blocked" None None (Some ["x"; "y"]) None None, "any-variant=""x y""")] [].
Definition doc_t2 : doc := doc_of [] new_metadata [(mkAction "blocked" None None (Some ["y"; "x"]) None None, "any-variant=""y x""")] [].
Lemma union_actions_refuted : exists o t d1 d2 d, permutes o /\ input_ok d1 /\ input_ok d2 /\ union_is o t d1 d2 d /\
  length (doc_actions d) <> length (doc_actions_xml d).
Proof.
  exists in_order, today, doc_t1, doc_t2. eexists.
  split; [exact in_order_permutes|]. split; [apply doc_of_ok; reflexivity|]. split; [apply doc_of_ok; reflexivity|].
  split; [apply union_result; vm_compute; reflexivity|]. vm_compute. discriminate.
Qed.

(** Scopes, version and description of the second document. *)
Definition scoped : metadata :=
  mkMeta (Some (mkVersion (txt "1") None)) None [] [mkScope (txt "example") (Some (txt "domain"))] None None None (Some (mkDesc (txt "text") None)) [].
Definition doc_s : doc := doc_of [] scoped [] [].
Definition doc_n : doc := doc_of [] new_metadata [] [].
Lemma union_metadata_refuted : exists o t d1 d2 d, permutes o /\ input_ok d1 /\ input_ok d2 /\ union_is o t d1 d2 d /\
  (exists s, In s (md_scopes (doc_meta d2)) /\ ~ In s (md_scopes (doc_meta d))) /\
  md_version (doc_meta d1) = None /\ md_version (doc_meta d2) <> None /\ md_version (doc_meta d) = None /\
  md_description (doc_meta d2) <> None /\ md_description (doc_meta d) = None.
Proof.
  exists in_order, today, doc_n, doc_s. eexists.
  split; [exact in_order_permutes|]. split; [apply doc_of_ok; reflexivity|]. split; [apply doc_of_ok; reflexivity|].
  split; [apply union_result; vm_compute; reflexivity|]. split; [eexists; split; [left; reflexivity|vm_compute; intros []]|].
  vm_compute. repeat split; discriminate.
Qed.
Lemma inter_metadata_refuted : exists o t d1 d2 d, permutes o /\ input_ok d1 /\ input_ok d2 /\ intersection_is o t d1 d2 d /\
  exists s, In s (md_scopes (doc_meta d)) /\ ~ In s (md_scopes (doc_meta d2)).
Proof.
  exists in_order, today, doc_s, doc_n. eexists.
  split; [exact in_order_permutes|]. split; [apply doc_of_ok; reflexivity|]. split; [apply doc_of_ok; reflexivity|].
  split; [apply inter_result; vm_compute; reflexivity|]. eexists. split; [vm_compute; left; reflexivity|vm_compute; intros []].
Qed.

(** The intersection of a document with itself. *)
Lemma inter_types_refuted : exists o t d1 d c v u, permutes o /\ input_ok d1 /\ intersection_is o t d1 d1 d /\
  has_variant (entry_of d1 c) v /\ v_type v = Some "blocked" /\ has_variant (entry_of d c) u /\ vkey u = vkey v /\ v_type u = None /\
  forall z, has_variant (entry_of d c) z -> v_type z = None.
Proof.
  exists in_order, today, doc_a, (result (intersect_lgrs in_order today doc_a doc_a)), [2],
    (mkVariant [1] (Some "blocked") None None None []), (mkVariant [1] None None None None []).
  split; [exact in_order_permutes|]. split; [exact doc_a_ok|]. split; [apply inter_result; vm_compute; reflexivity|].
  split; [eexists; split; [vm_compute; reflexivity|vm_compute; left; reflexivity]|]. split; [reflexivity|].
  split; [eexists; split; [vm_compute; reflexivity|vm_compute; left; reflexivity]|]. split; [reflexivity|]. split; [reflexivity|].
  intros z [ch [H1 H2]]. vm_compute in H1. injection H1 as <-. vm_compute in H2. destruct H2 as [<-|[]]. reflexivity.
Qed.
Lemma inter_actions_refuted : exists o t d1 d rm label ds only, permutes o /\ input_ok d1 /\ intersection_is o t d1 d1 d /\
  fst (apply_actions rm (doc_actions d1) label ds only) = Some "invalid" /\
  fst (apply_actions rm (doc_actions d) label ds only) = Some "blocked".
Proof.
  exists backwards, today, doc_a, (result (intersect_lgrs backwards today doc_a doc_a)), (fun _ _ _ => true), [1], [], false.
  split; [exact backwards_permutes|]. split; [exact doc_a_ok|]. split; [apply inter_result; vm_compute; reflexivity|].
  split; vm_compute; reflexivity.
Qed.
