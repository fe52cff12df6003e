From Coq Require Import Permutation.
From Verif Require Import Base BaseFacts CharModel RepSpec RepProofs UtilsModel RefModel ActionModel LgrModel LgrSpec LgrProofs LgrReach LgrRange LgrInv LgrTags LgrRefs LgrFinal VariantProofs MetaModel MetaSpec
  CompareModel CompareSpec CompareProofs CompareFinal CompareWitness SerialModel SerialSpec SerialFinal SerialWitness CmpToolModel CmpToolSpec CmpToolProofs.
Open Scope string_scope.
Open Scope list_scope.

(** ** The tool *)
Section Tool.
  Variable read_file : string -> res (option doc).
  Variable schema : option (string -> bool).
  Variable merge_set : list doc -> string -> res doc.
  Variable diff : doc -> doc -> bool -> res string.
  Variable diff_sets : doc -> doc -> list doc -> list doc -> bool -> res string.
  Variable o : orders.
  Variable today : cps.
  Let tool := compare_tool read_file schema merge_set diff diff_sets o today.

  Lemma parse_ok : forall f d, (forall ok, schema = Some ok -> ok f = true) -> read_file f = Ok (Some d) -> parse_file read_file schema f = Ok (Some d).
  Proof. intros f d H K. unfold parse_file, refused. destruct schema as [ok|]; [rewrite (H ok eq_refl)|]; exact K. Qed.
  Lemma parse_none : forall f, (exists ok, schema = Some ok /\ ok f = false) \/ read_file f = Ok None -> parse_file read_file schema f = Ok None.
  Proof.
    intros f [[ok [H K]]|H]; unfold parse_file, refused; [rewrite H, K; reflexivity|]. rewrite H. destruct (match schema with Some ok => negb (ok f) | None => false end); reflexivity.
  Qed.

  Section Lgrs.
    Variable lang : cps -> option bool.
    Variable dig : N -> bool.
    Hypothesis Hdig : dig 46%N = false.
    Hypothesis Ho : permutes o.
    Hypothesis Ht : full_date today.
    Variables (f1 f2 : string) (d1 d2 : doc).
    Hypothesis V1 : forall ok, schema = Some ok -> ok f1 = true.
    Hypothesis V2 : forall ok, schema = Some ok -> ok f2 = true.
    Hypothesis R1 : read_file f1 = Ok (Some d1).
    Hypothesis R2 : read_file f2 = Ok (Some d2).
    Hypothesis P1 : presentable lang dig d1.
    Hypothesis P2 : presentable lang dig d2.
    Lemma tool_union : forall generate n1 n2, exists d x, tool Union generate [f1] [f2] n1 n2 = Ok (PrintedLgr x (doc_classes_xml d) (doc_rules_xml d) (doc_actions_xml d)) /\
      union_is o today d1 d2 d /\
      forall db allow, admits db allow (doc_lgr d1) -> admits db allow (doc_lgr d2) -> reads_as lang dig db allow x d.
    Proof.
      intros generate n1 n2. destruct P1 as [I1 _]. destruct P2 as [I2 _]. destruct (union_total o today d1 d2 Ho I1 I2) as [a [b [d [E _]]]].
      exists d, (serialize_lgr (doc_meta d) (doc_lgr d)). unfold tool, compare_tool, compare_two. rewrite (parse_ok f1 d1 V1 R1), (parse_ok f2 d2 V2 R2). cbn [bind]. rewrite E. cbn [snd bind].
      split; [reflexivity|]. assert (U : union_is o today d1 d2 d) by (exists a, b; exact E). split; [exact U|]. intros db allow A1 A2.
      exact (union_reads_back lang dig Hdig o today d1 d2 d db allow Ho Ht P1 P2 U A1 A2).
    Qed.
    Lemma tool_inter : forall generate n1 n2, exists d x, tool Intersect generate [f1] [f2] n1 n2 = Ok (PrintedLgr x (doc_classes_xml d) (doc_rules_xml d) (doc_actions_xml d)) /\
      intersection_is o today d1 d2 d /\
      forall db allow, admits db allow (doc_lgr d1) -> reads_as lang dig db allow x d.
    Proof.
      intros generate n1 n2. destruct P1 as [I1 _]. destruct P2 as [I2 _]. destruct (intersect_total o today d1 d2 Ho I1 I2) as [a [b [d [E _]]]].
      exists d, (serialize_lgr (doc_meta d) (doc_lgr d)). unfold tool, compare_tool, compare_two. rewrite (parse_ok f1 d1 V1 R1), (parse_ok f2 d2 V2 R2). cbn [bind]. rewrite E. cbn [snd bind].
      split; [reflexivity|]. assert (U : intersection_is o today d1 d2 d) by (exists a, b; exact E). split; [exact U|]. intros db allow A1.
      exact (inter_reads_back lang dig Hdig o today d1 d2 d db allow Ho Ht P1 P2 U A1).
    Qed.
  End Lgrs.

  (** A file without LGR, or refused by the schema. *)
  Lemma tool_refuses : forall a generate f1 f2 n1 n2,
    ((exists ok, schema = Some ok /\ ok f1 = false) \/ read_file f1 = Ok None -> (forall e, parse_file read_file schema f2 <> Raise e) ->
       tool a generate [f1] [f2] n1 n2 = Ok (Said ["Error while parsing first LGR file."; "Please check compliance with RNG."])) /\
    (forall d1, (forall ok, schema = Some ok -> ok f1 = true) -> read_file f1 = Ok (Some d1) ->
       (exists ok, schema = Some ok /\ ok f2 = false) \/ read_file f2 = Ok None ->
       tool a generate [f1] [f2] n1 n2 = Ok (Said ["Error while parsing second LGR file."; "Please check compliance with RNG."])).
  Proof.
    intros a generate f1 f2 n1 n2. unfold tool, compare_tool, compare_two. split.
    - intros H K. rewrite (parse_none f1 H). cbn [bind]. destruct (parse_file read_file schema f2) as [p|e]; [reflexivity|]. exfalso. exact (K e eq_refl).
    - intros d1 H R K. rewrite (parse_ok f1 d1 H R), (parse_none f2 K). reflexivity.
  Qed.

  (** Sets. *)
  Lemma tool_sets : forall a generate l1 l2 n1 n2, (length l1 = 1 /\ 1 < length l2 \/ 1 < length l1 /\ length l2 = 1)%nat ->
    tool a generate l1 l2 n1 n2 = Ok (Said ["Cannot compare LGR with LGR sets"]).
  Proof.
    intros a generate [|x [|y l1]] [|z [|w l2]] n1 n2 H; cbn [length] in H; try (exfalso; lia); reflexivity.
  Qed.
  Lemma tool_sets_deed : forall generate l1 l2 n1 n2, (1 < length l1 /\ 1 < length l2)%nat ->
    (forall a, a <> Diff -> tool a generate l1 l2 n1 n2 = Ok (Said ["Cannot perform intersection or union with LGR sets"])) /\
    tool Diff generate l1 l2 n1 n2 = tool Diff (negb generate) l1 l2 n1 n2.
  Proof.
    intros generate [|x [|y l1]] [|z [|w l2]] n1 n2 H; cbn [length] in H; try (exfalso; lia). split; [|reflexivity].
    intros [| |] Ha; [reflexivity|reflexivity|congruence].
  Qed.

  (** The members of the sets, in the order given, each read once whatever the schema says of it. *)
  Lemma read_set_spec : forall l, (exists ds, read_set read_file l = Ok (Some ds) /\ Forall2 (fun f d => read_file f = Ok (Some d)) l ds) \/
    (exists a f b, l = a ++ f :: b /\ (forall g, In g a -> exists d, read_file g = Ok (Some d)) /\
       (read_file f = Ok None /\ read_set read_file l = Ok None \/ exists e, read_file f = Raise e /\ read_set read_file l = Raise e)).
  Proof.
    induction l as [|f l IH]; [left; exists []; split; [reflexivity|constructor]|]. cbn [read_set].
    destruct (read_file f) as [[d|]|e] eqn:E; cbn [bind].
    - destruct IH as [[ds [H1 H2]]|[a [g [b [-> [H2 H3]]]]]].
      + left. exists (d :: ds). rewrite H1. split; [reflexivity|]. constructor; assumption.
      + right. exists (f :: a), g, b. split; [reflexivity|]. split; [intros x [<-|Hx]; [exists d; exact E|auto]|].
        destruct H3 as [[H3 H4]|[e [H3 H4]]]; rewrite H4; [left|right; exists e]; auto.
    - right. exists [], f, l. split; [reflexivity|]. split; [intros g []|]. left. auto.
    - right. exists [], f, l. split; [reflexivity|]. split; [intros g []|]. right. exists e. auto.
  Qed.
  Lemma tool_diff_sets : forall generate l1 l2 n1 n2 ds1 ds2 m1 m2 t, (1 < length l1 /\ 1 < length l2)%nat ->
    Forall2 (fun f d => read_file f = Ok (Some d)) l1 ds1 -> Forall2 (fun f d => read_file f = Ok (Some d)) l2 ds2 ->
    merge_set ds1 (set_name n1) = Ok m1 -> merge_set ds2 (set_name n2) = Ok m2 -> diff_sets m1 m2 ds1 ds2 true = Ok t ->
    tool Diff generate l1 l2 n1 n2 = Ok (PrintedText t).
  Proof.
    intros generate l1 l2 n1 n2 ds1 ds2 m1 m2 t Hl F1 F2 M1 M2 D.
    assert (G : forall l ds, Forall2 (fun f d => read_file f = Ok (Some d)) l ds -> read_set read_file l = Ok (Some ds)).
    { intros l ds F. induction F as [|f d l ds H F IH]; [reflexivity|]. cbn [read_set]. rewrite H. cbn [bind]. rewrite IH. reflexivity. }
    destruct l1 as [|x [|y l1]], l2 as [|z [|w l2]]; cbn [length] in Hl; try (exfalso; lia).
    unfold tool, compare_tool, compare_sets, merge_lgrs. rewrite (G _ _ F1), (G _ _ F2). cbn [bind]. rewrite M1, M2. cbn [bind unpack fst snd]. rewrite D. reflexivity.
  Qed.
  Lemma tool_member_missing : forall generate l1 l2 n1 n2 a f b, (1 < length l1 /\ 1 < length l2)%nat ->
    l1 = a ++ f :: b -> (forall g, In g a -> exists d, read_file g = Ok (Some d)) -> read_file f = Ok None ->
    tool Diff generate l1 l2 n1 n2 = Raise TypeError.
  Proof.
    intros generate l1 l2 n1 n2 a f b Hl E Ha Hf.
    assert (R : read_set read_file l1 = Ok None).
    { rewrite E. clear E Hl. induction a as [|g a IH]; cbn [app read_set]; [rewrite Hf; reflexivity|]. destruct (Ha g (or_introl eq_refl)) as [d Hd]. rewrite Hd. cbn [bind]. rewrite IH; [reflexivity|]. intros x Hx. apply Ha. right. exact Hx. }
    destruct l1 as [|x [|y l1]], l2 as [|z [|w l2]]; cbn [length] in Hl; try (exfalso; lia).
    unfold tool, compare_tool, compare_sets, merge_lgrs. rewrite R. reflexivity.
  Qed.
End Tool.

(** ** The result can be combined again *)
Lemma proper_orderly : forall g, proper g -> orderly g.
Proof.
  intros g H. assert (G : allch orderly_char (lg_rep g)).
  { induction H as [db al|g op H IH H1 H2]; [apply allch_empty|]. apply orderly_step; [|exact IH|exact H2]. exact (lgr_reachable_wf g (tidy_reachable _ (proper_tidy g H))). }
  intros c ch E. rewrite lookup_lk in E. exact (G c ch E).
Qed.
Lemma mapM_res_length : forall A B (f : A -> res B) l r, mapM_res f l = Ok r -> length r = length l.
Proof.
  intros A B f l. induction l as [|x l IH]; intros r H; cbn [mapM_res] in H; [injection H as <-; reflexivity|].
  destruct (f x); [|discriminate]. cbn [bind] in H. destruct (mapM_res f l) as [r0|]; [|discriminate]. cbn [bind] in H. injection H as <-. cbn [length]. rewrite (IH _ eq_refl). reflexivity.
Qed.
Section Chain.
  Variable lang : cps -> option bool.
  Variable dig : N -> bool.
  Theorem inter_presentable : forall o today d1 d2 d, permutes o -> full_date today -> presentable lang dig d1 -> presentable lang dig d2 ->
    intersection_is o today d1 d2 d -> presentable lang dig d.
  Proof.
    intros o today d1 d2 d Ho Ht [I1 [M1 [T1 N1]]] [I2 [M2 [T2 N2]]] H.
    destruct (intersect_ok o today d1 d2 Ho I1 I2) as [x [y [z [E [_ [_ F]]]]]]. pose proof H as [x' [y' E']]. rewrite E in E'. injection E' as _ _ <-.
    destruct (inter_built _ _ _ _ _ H) as [B _]. pose proof I1 as [_ [_ [L1 [L2 L3]]]]. pose proof I2 as [_ [_ [K1 [K2 K3]]]].
    assert (FM : fair_meta lang dig (doc_meta z)) by (rewrite (if_meta _ _ _ _ _ F); apply inter_fair; try assumption; split; assumption). destruct FM as [FM1 FM2].
    split; [split; [exact (proper_tidy _ B)|split; [exact (proper_orderly _ B)|]]|split; [exact FM1|split; [exact FM2|exact (tags_from o today d1 d2 z Ho I1 I2 (or_intror H) N1 N2)]]].
    split; [|split].
    - destruct (intersect_names_ok o _ _ _ _ Ho L1 K1) as [ns [xs [A1 [A2 _]]]]. rewrite (if_rules _ _ _ _ _ F) in A1. injection A1 as -> ->. exact A2.
    - destruct (intersect_names_ok o _ _ _ _ Ho L2 K2) as [ns [xs [A1 [A2 _]]]]. rewrite (if_classes _ _ _ _ _ F) in A1. injection A1 as -> ->. exact A2.
    - pose proof (if_actions _ _ _ _ _ F) as A. unfold intersect_actions in A. cbv zeta in A. destruct (mapM_res _ _) as [r|] eqn:Q; [|discriminate]. cbn [bind] in A. injection A as <- <-.
      symmetry. exact (mapM_res_length _ _ _ _ _ Q).
  Qed.
  Theorem union_presentable : forall o today d1 d2 d, permutes o -> full_date today -> presentable lang dig d1 -> presentable lang dig d2 ->
    union_is o today d1 d2 d -> length (doc_actions d) = length (doc_actions_xml d) -> presentable lang dig d.
  Proof.
    intros o today d1 d2 d Ho Ht [I1 [M1 [T1 N1]]] [I2 [M2 [T2 N2]]] H LA.
    destruct (union_ok o today d1 d2 Ho I1 I2) as [x [y [z [E [_ [_ F]]]]]]. pose proof H as [x' [y' E']]. rewrite E in E'. injection E' as _ _ <-.
    destruct (union_built _ _ _ _ _ H) as [B _]. pose proof I1 as [_ [_ [L1 [L2 L3]]]]. pose proof I2 as [_ [_ [K1 [K2 K3]]]].
    assert (FM : fair_meta lang dig (doc_meta z)) by (rewrite (uf_meta _ _ _ _ _ F); apply union_fair; try assumption; split; assumption). destruct FM as [FM1 FM2].
    split; [split; [exact (proper_tidy _ B)|split; [exact (proper_orderly _ B)|]]|split; [exact FM1|split; [exact FM2|exact (tags_from o today d1 d2 z Ho I1 I2 (or_introl H) N1 N2)]]].
    split; [|split; [|exact LA]].
    - destruct (union_names_ok o _ _ _ _ Ho L1 K1) as [ns [xs [A1 [A2 _]]]]. rewrite (uf_rules _ _ _ _ _ F) in A1. injection A1 as -> ->. exact A2.
    - destruct (union_names_ok o _ _ _ _ Ho L2 K2) as [ns [xs [A1 [A2 _]]]]. rewrite (uf_classes _ _ _ _ _ F) in A1. injection A1 as -> ->. exact A2.
  Qed.
End Chain.

(** ** Witnesses *)
Lemma day_2020 : full_date (txt "2020-01-01").
Proof. exists (mkDay 2020 1 1). split; [split; [cbn [d_year]; lia|cbn [d_year d_month d_day]; apply Day_31; [left; reflexivity|lia]]|reflexivity]. Qed.
Lemma day_2021 : full_date (txt "2021-01-01").
Proof. exists (mkDay 2021 1 1). split; [split; [cbn [d_year]; lia|cbn [d_year d_month d_day]; apply Day_31; [left; reflexivity|lia]]|reflexivity]. Qed.
Lemma day_2022 : full_date (txt "2022-01-01").
Proof. exists (mkDay 2022 1 1). split; [split; [cbn [d_year]; lia|cbn [d_year d_month d_day]; apply Day_31; [left; reflexivity|lia]]|reflexivity]. Qed.
Lemma lang_meta_writable : forall l st en, NoDup l -> full_date_or_none st -> full_date_or_none en -> meta_writable every_lang ascii_digit (lang_meta l st en) /\ neat_type (lang_meta l st en).
Proof.
  intros l st en Hl Hs He. split; [|intros d t H; discriminate]. split; [intros s H; discriminate|]. split; [exact Hs|]. split; [exact He|].
  split; [exists (txt "6.3.0"); split; [reflexivity|]; exists [54%N], [51%N], [48%N], []; unfold digit_run; repeat split; try discriminate; repeat constructor|].
  split; [exact Hl|]. split; [reflexivity|]. intros d H. discriminate.
Qed.
Definition neat_tagsb (g : lgr) : bool :=
  forallb (fun ch => forallb (fun t => negb (String.eqb t "") && negb (existsb (N.eqb 32) (txt t))) (ch_tags ch)) (all_chars (lg_rep g)).
Lemma neat_tagsb_sound : forall g, lgr_reachable g -> neat_tagsb g = true -> neat_tags g.
Proof.
  intros g R H c ch t E Ht. rewrite lookup_lk in E. apply (lk_in_all _ _ _ (lgr_reachable_wf g R)) in E.
  unfold neat_tagsb in H. rewrite forallb_forall in H. specialize (H ch E). rewrite forallb_forall in H. specialize (H t Ht). apply andb_prop in H. destruct H as [H1 H2].
  apply negb_true_iff in H1. apply negb_true_iff in H2. split.
  - intro K. subst t. discriminate.
  - intro K. assert (X : existsb (N.eqb 32) (txt t) = true) by (apply existsb_exists; exists 32%N; split; [exact K|reflexivity]). congruence.
Qed.
Lemma doc_a_presentable : presentable every_lang ascii_digit doc_a.
Proof.
  split; [exact doc_a_ok|]. split; [|split].
  - apply lang_meta_writable; [repeat constructor; cbn; intuition discriminate|intros s H; injection H as <-; exact day_2020|intros s H; discriminate].
  - apply lang_meta_writable; [repeat constructor; cbn; intuition discriminate|intros s H; injection H as <-; exact day_2020|intros s H; discriminate].
  - apply neat_tagsb_sound; [exact (tidy_reachable _ (proj1 doc_a_ok))|vm_compute; reflexivity].
Qed.
Lemma doc_b_presentable : presentable every_lang ascii_digit doc_b.
Proof.
  split; [exact doc_b_ok|]. split; [|split].
  - apply lang_meta_writable; [repeat constructor; cbn; intuition discriminate|intros s H; injection H as <-; exact day_2021|intros s H; injection H as <-; exact day_2022].
  - apply lang_meta_writable; [repeat constructor; cbn; intuition discriminate|intros s H; injection H as <-; exact day_2021|intros s H; injection H as <-; exact day_2022].
  - apply neat_tagsb_sound; [exact (tidy_reachable _ (proj1 doc_b_ok))|vm_compute; reflexivity].
Qed.
Lemma today_full : full_date today.
Proof. exists (mkDay 2026 11 17). split; [split; [cbn [d_year]; lia|cbn [d_year d_month d_day]; apply Day_30; [cbn; tauto|lia]]|reflexivity]. Qed.

(** Actions of the union answered with the text of another. *)
Definition doc_c : doc := doc_of [lcp [1%N]] (lang_meta [] None None) [(act "invalid" (Some "r"), "x1"); (act "blocked" None, "x2")] [].
Definition doc_d : doc := doc_of [lcp [1%N]] (lang_meta [] None None) [(act "invalid" (Some "r"), "x1 with a comment"); (act "valid" None, "x3")] [].
Lemma doc_c_presentable : presentable every_lang ascii_digit doc_c.
Proof.
  split; [apply doc_of_ok; vm_compute; reflexivity|]. split; [|split].
  - apply lang_meta_writable; [constructor|intros s H; discriminate|intros s H; discriminate].
  - apply lang_meta_writable; [constructor|intros s H; discriminate|intros s H; discriminate].
  - intros c ch t. unfold doc_c, doc_of. cbn [doc_lgr]. intros E Ht. apply (neat_tagsb_sound (doc_lgr doc_c)) with (c := c) (ch := ch); try assumption; [exists None, true, [lcp [1%N]]; reflexivity|vm_compute; reflexivity].
Qed.
Lemma doc_d_presentable : presentable every_lang ascii_digit doc_d.
Proof.
  split; [apply doc_of_ok; vm_compute; reflexivity|]. split; [|split].
  - apply lang_meta_writable; [constructor|intros s H; discriminate|intros s H; discriminate].
  - apply lang_meta_writable; [constructor|intros s H; discriminate|intros s H; discriminate].
  - exact (proj2 (proj2 (proj2 doc_c_presentable))).
Qed.
Lemma chain_refuted : exists o t d1 d2 d3 d, permutes o /\ full_date t /\ presentable every_lang ascii_digit d1 /\ presentable every_lang ascii_digit d2 /\
  union_is o t d1 d2 d3 /\ length (doc_actions d3) <> length (doc_actions_xml d3) /\ intersection_is o t d3 d2 d /\
  In (act "valid" None, "x3") (combine (doc_actions d2) (doc_actions_xml d2)) /\ In (act "valid" None, "x1 with a comment") (combine (doc_actions d) (doc_actions_xml d)).
Proof.
  exists in_order, today, doc_c, doc_d, (result (union_lgrs in_order today doc_c doc_d)), (result (intersect_lgrs in_order today (result (union_lgrs in_order today doc_c doc_d)) doc_d)).
  split; [exact in_order_permutes|]. split; [exact today_full|]. split; [exact doc_c_presentable|]. split; [exact doc_d_presentable|].
  split; [apply union_result; vm_compute; reflexivity|]. split; [vm_compute; discriminate|]. split; [apply inter_result; vm_compute; reflexivity|].
  split; vm_compute; auto.
Qed.

(** Files for the samples: two LGRs, a document without metadata. *)
Definition files (f : string) : res (option doc) :=
  if String.eqb f "a.xml" then Ok (Some doc_a) else if String.eqb f "b.xml" then Ok (Some doc_b) else if String.eqb f "empty.xml" then Ok None else Raise ValueError.
Definition stub_merge (l : list doc) (n : string) : res doc := match l with d :: _ => Ok d | [] => Raise IndexError end.
Definition stub_diff (a b : doc) (g : bool) : res string := Ok (if g then "all" else "differences").
Definition stub_sets (a b : doc) (l1 l2 : list doc) (g : bool) : res string := Ok (if g then "all" else "differences").
Definition sample_tool := compare_tool files None stub_merge stub_diff stub_sets backwards today.
Definition strict_tool := compare_tool files (Some (fun f => String.eqb f "a.xml")) stub_merge stub_diff stub_sets backwards today.

Lemma member_refuted : exists read merge diff sets o t l1 l2, (1 < length l1)%nat /\ (1 < length l2)%nat /\
  (forall f, In f (l1 ++ l2) -> exists r, read f = Ok r) /\
  compare_tool read None merge diff sets o t Diff false l1 l2 None None = Raise TypeError.
Proof.
  exists files, stub_merge, stub_diff, stub_sets, backwards, today, ["a.xml"; "empty.xml"], ["a.xml"; "b.xml"].
  split; [cbn; lia|]. split; [cbn; lia|]. split; [|reflexivity].
  intros f [<-|[<-|[<-|[<-|[]]]]]; eexists; reflexivity.
Qed.
Lemma schema_refuted : exists read ok merge diff sets o t f, ok f = false /\
  compare_tool read (Some ok) merge diff sets o t Diff false [f] [f] None None = Ok (Said ["Error while parsing first LGR file."; "Please check compliance with RNG."]) /\
  compare_tool read (Some ok) merge diff sets o t Diff false [f; f] [f; f] None None = Ok (PrintedText "all").
Proof.
  exists files, (fun f => String.eqb f "a.xml"), stub_merge, stub_diff, stub_sets, backwards, today, "b.xml". split; [reflexivity|]. split; reflexivity.
Qed.
