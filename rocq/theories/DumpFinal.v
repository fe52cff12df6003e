(** What the dump tools print reads back as the table says. *)
From Verif Require Import Base BaseFacts UtilsModel CharModel RepSpec RefModel LgrModel LgrSpec LgrProofs LgrReach Rfc7940Model MetaModel MetaSpec
  ValidateModel PopulateSpec CompareSpec AnnotateModel AnnotateSpec SerialModel SerialSpec SerialProofs SerialFinal
  TableModel TableSpec TableProofs TableDoc TableEnding ForceProofs DumpModel DumpSpec DumpProofs.
Open Scope string_scope.
Open Scope list_scope.

Lemma default_version : forall dig, knows_digits dig -> starts_with_version dig (txt "6.3.0").
Proof.
  intros dig [_ H]. exists [54], [51], [48], []. unfold digit_run. repeat split; try discriminate; repeat constructor; apply H; unfold digit; lia.
Qed.
Definition undated (m : metadata) : metadata := set_md_date m None.
Lemma table_writable : forall lc dig t, knows_digits dig -> meta_writable lc dig (undated (table_metadata t)).
Proof.
  intros lc dig t H. split; [intros s E; discriminate|]. split; [intros s E; discriminate|]. split; [intros s E; discriminate|].
  split; [exists (txt "6.3.0"); split; [reflexivity|apply default_version; exact H]|]. split; [constructor|]. split; [intros l []|intros d E; discriminate].
Qed.
Lemma no_tags : forall g, (forall c ch, lookup (lg_rep g) c = Some ch -> ch_tags ch = []) -> tags_writable g.
Proof. intros g H c ch Hl. rewrite (H c ch Hl). split; [discriminate|intros w []]. Qed.

(** ** The date *)
Definition dateless (e : meta_elem) : Prop := match e with MDateE _ => False | _ => True end.
Lemma elem_date : forall lc dig fo m rm e d, dateless e -> process_meta_elem lc dig fo (set_md_date m d) rm e =
  let '(m', rm', x) := process_meta_elem lc dig fo m rm e in (set_md_date m' d, rm', x).
Proof.
  intros lc dig fo m rm e d H. destruct e as [t c|t|t|t|t|t|t ty|t ty|l|]; cbn [process_meta_elem dateless] in *; try contradiction; try reflexivity.
  - destruct t as [v|]; [|reflexivity]. cbn [needs_text]. unfold md_set_start. destruct (validate_date v fo); reflexivity.
  - destruct t as [v|]; [|reflexivity]. cbn [needs_text]. unfold md_set_end. destruct (validate_date v fo); reflexivity.
  - destruct t as [v|]; [|reflexivity]. cbn [needs_text]. unfold md_set_unicode_version. destruct (version_prefix dig v); [reflexivity|]. destruct fo; reflexivity.
  - unfold md_add_language. destruct (lc (value_of t)) as [ok|]; [|reflexivity]. destruct ok; cbn [negb andb].
    + cbn. destruct (memb cps_eqb (value_of t) (md_languages m)); reflexivity.
    + destruct fo; cbn; [|reflexivity]. destruct (memb cps_eqb (value_of t) (md_languages m)); reflexivity.
  - destruct t as [v|]; reflexivity.
  - destruct (process_references rm l); reflexivity.
Qed.
Lemma loop_date : forall lc dig fo l m rm d, Forall dateless l -> process_meta_loop lc dig fo (set_md_date m d) rm l =
  let '(m', rm', x) := process_meta_loop lc dig fo m rm l in (set_md_date m' d, rm', x).
Proof.
  intros lc dig fo l. induction l as [|e l IH]; intros m rm d H; [reflexivity|]. inversion H as [|? ? H1 H2]; subst. cbn [process_meta_loop].
  rewrite elem_date by exact H1. destruct (process_meta_elem lc dig fo m rm e) as [[m' rm'] [x|x]]; [|reflexivity]. apply IH. exact H2.
Qed.
Definition later (refs : refman) : list meta_elem :=
  MUnicodeE (Some (txt "6.3.0")) :: match rm_refs refs with [] => [] | l => [MReferencesE (map ref_elem_of l)] end.
Lemma later_dateless : forall refs, Forall dateless (later refs).
Proof. intro refs. unfold later. constructor; [exact I|]. destruct (rm_refs refs); repeat constructor. Qed.
Lemma written_meta : forall t refs, serialize_meta (table_metadata t) refs =
  match tm_version t with Some p => [MVersion (Some [fst p]) (snd p)] | None => [] end ++ opt_elem MDateE (tm_date t) ++ later refs.
Proof. intros [[p|] [d|]] refs; reflexivity. Qed.
Lemma written_undated : forall t refs, serialize_meta (undated (table_metadata t)) refs =
  match tm_version t with Some p => [MVersion (Some [fst p]) (snd p)] | None => [] end ++ later refs.
Proof. intros [[p|] [d|]] refs; reflexivity. Qed.

Lemma date_kept : forall d, validate_date d true = Ok d \/ exists e, validate_date d true = Raise e.
Proof. intro d. destruct (validate_date d true) as [x|e] eqn:E; [|eauto]. left. rewrite (date_free _ _ E) at 1. reflexivity. Qed.
Lemma undashed : forall d fo, ~ In 45 d -> validate_date d fo = invalid_date d fo.
Proof.
  intros d fo H. unfold validate_date. assert (E : split_on 45 d = [d]).
  { apply TableParts.split_on_is. split; [discriminate|]. split; [reflexivity|]. repeat constructor. exact H. }
  rewrite E. reflexivity.
Qed.
Definition plain_date (t : table_meta) : Prop := forall d, tm_date t = Some d -> d <> [] /\ ~ In 45 d.
Lemma meta_dated : forall lc dig t refs m rm, plain_date t ->
  process_meta lc dig true (serialize_meta (undated (table_metadata t)) refs) = (m, rm, Ok tt) -> md_date m = None ->
  process_meta lc dig true (serialize_meta (table_metadata t) refs) = (set_md_date m (tm_date t), rm, Ok tt).
Proof.
  intros lc dig t refs m rm Hp H Hm.
  destruct (tm_date t) as [d|] eqn:Ed.
  2:{ assert (E : undated (table_metadata t) = table_metadata t) by (unfold undated, table_metadata; rewrite Ed; reflexivity). rewrite E in H. rewrite H.
      destruct m; cbn in Hm; subst; reflexivity. }
  destruct (Hp d Ed) as [Hd Hn].
  unfold process_meta in *. rewrite written_undated in H. rewrite written_meta, Ed. cbn [opt_elem].
  assert (Ht : text_node d = Some d) by (destruct d; [contradiction|reflexivity]). rewrite Ht. clear Ht.
  assert (L : forall mm, process_meta_loop lc dig true mm empty_refman ([MDateE (Some d)] ++ later refs) =
     let '(m', rm', x) := process_meta_loop lc dig true mm empty_refman (later refs) in (set_md_date m' (Some d), rm', x)).
  { intro mm. cbn [app process_meta_loop process_meta_elem needs_text]. unfold md_set_date. rewrite undashed by exact Hn. cbn [invalid_date fst snd].
    apply loop_date. apply later_dateless. }
  assert (X : forall pre, existsb is_unicode_elem (pre ++ [MDateE (Some d)] ++ later refs) = existsb is_unicode_elem (pre ++ later refs)).
  { intro pre. rewrite !existsb_app. reflexivity. }
  rewrite X. destruct (tm_version t) as [[n c]|]; cbn [fst snd] in *.
  - cbn [app] in L |- *. cbn [app] in H. cbn [process_meta_loop process_meta_elem] in H |- *. cbn [process_meta_loop process_meta_elem] in L. rewrite L.
    destruct (process_meta_loop lc dig true _ empty_refman (later refs)) as [[m' rm'] [[]|e]]; [|discriminate]. injection H as <- <-. reflexivity.
  - cbn [app] in L, H |- *. rewrite L. destruct (process_meta_loop lc dig true new_metadata empty_refman (later refs)) as [[m' rm'] [[]|e]]; [|discriminate].
    injection H as <- <-. reflexivity.
Qed.

(** ** Reading what was written *)
Section Reads.
  Variable lc : cps -> option bool.
  Variable dig : N -> bool.
  Hypothesis Hdig : knows_digits dig.

  Lemma written_reads : forall t g db allow force, fine g -> (forall c ch, lookup (lg_rep g) c = Some ch -> ch_tags ch = []) ->
    comments_writable (lg_refs g) -> admits db allow g -> plain_date t -> force = true \/ tm_date t = None ->
    reads lc dig db allow force (serialize_lgr (table_metadata t) g) (fun m' g' =>
      same_metadata (table_metadata t) m' /\ same_repertoire g g' /\ rm_refs (lg_refs g') = rm_refs (lg_refs g)).
  Proof.
    intros t g db allow force [Hf He] Ht Hc Ha Hpl Hfo.
    destruct (document_roundtrip lc dig (proj1 Hdig) (undated (table_metadata t)) g db allow (table_writable lc dig t Hdig) Hc Hf (no_tags g Ht)
      (fun K => K He) Ha) as [m' [g' [E [E1 [E2 [E3 _]]]]]].
    destruct Hfo as [->|Hn].
    - apply parse_forced in E. unfold parse_document in E. cbn [serialize_lgr x_meta x_data] in E.
      destruct (process_meta lc dig true (serialize_meta (undated (table_metadata t)) (lg_refs g))) as [[m1 rm1] [[]|e]] eqn:Em; [|discriminate].
      destruct (process_data true _ (md_checks m1) (serialize_data g)) as [[g1 r1] [[]|e]] eqn:Ed in E; [|discriminate]. injection E as <- <-.
      assert (Hd : md_date m1 = None) by (destruct E1 as [_ [K _]]; exact K).
      exists (set_md_checks (set_md_date m1 (tm_date t)) (report_tested r1 "parse_xml")), g1. split.
      + unfold parse_document. cbn [serialize_lgr x_meta x_data]. rewrite (meta_dated lc dig t (lg_refs g) m1 rm1 Hpl Em Hd).
        change (md_checks (set_md_date m1 (tm_date t))) with (md_checks m1). rewrite Ed. reflexivity.
      + split; [|auto]. destruct E1 as [K1 [_ [K3 [K4 [K5 [K6 [K7 K8]]]]]]]. repeat split; assumption.
    - assert (Eu : undated (table_metadata t) = table_metadata t) by (unfold undated, table_metadata; rewrite Hn; reflexivity). rewrite Eu in *.
      exists m', g'. split; [destruct force; [apply parse_forced|]; exact E|auto].
  Qed.
  Lemma blank_table : table_metadata (mkTm None None) = new_metadata.
  Proof. reflexivity. Qed.
  Lemma written_reads_plain : forall g db allow force, fine g -> (forall c ch, lookup (lg_rep g) c = Some ch -> ch_tags ch = []) ->
    comments_writable (lg_refs g) -> admits db allow g ->
    reads lc dig db allow force (serialize_lgr new_metadata g) (fun m' g' =>
      same_metadata new_metadata m' /\ same_repertoire g g' /\ rm_refs (lg_refs g') = rm_refs (lg_refs g)).
  Proof.
    intros g db allow force H1 H2 H3 H4. rewrite <- blank_table. apply written_reads; auto. intros d E. discriminate.
  Qed.

  Lemma same_repertoire_lookup : forall g g' c, same_repertoire g g' -> (lookup (lg_rep g') c <> None <-> lookup (lg_rep g) c <> None).
  Proof.
    intros g g' c H. specialize (H c). destruct (lookup (lg_rep g) c), (lookup (lg_rep g') c); try contradiction; split; congruence.
  Qed.
  Lemma same_repertoire_entry : forall g g' c ch', same_repertoire g g' -> lookup (lg_rep g') c = Some ch' ->
    exists ch, lookup (lg_rep g) c = Some ch /\ same_char ch ch'.
  Proof. intros g g' c ch' H E. specialize (H c). rewrite E in H. destruct (lookup (lg_rep g) c) as [ch|]; [eauto|contradiction]. Qed.
  Lemma no_references : forall g, rm_refs (lg_refs g) = [] -> comments_writable (lg_refs g).
  Proof. intros g H id r E. rewrite H in E. discriminate. Qed.

  (** *** One code point per line *)
  Theorem lines_dumped : forall lines db allow force,
    accepts db allow (fun x => exists line t c, In line lines /\ states line t /\ mentions t c /\ In x c) ->
    exists doc, dump_lines lines = Ok doc /\ reads lc dig db allow force doc (fun m g =>
      same_metadata new_metadata m /\
      (forall c, lookup (lg_rep g) c <> None <-> c <> [] /\ exists line t, In line lines /\ states line t /\ mentions t c) /\
      (forall c ch, lookup (lg_rep g) c = Some ch -> nothing_else ch /\ is_range ch = false) /\ rm_refs (lg_refs g) = []).
  Proof.
    intros lines db allow force Ha. destruct (line_list false lines) as [g [E [_ [K1 [K2 K3]]]]].
    exists (serialize_lgr new_metadata g). split; [unfold dump_lines; rewrite E; reflexivity|].
    assert (Hf : fine g).
    { pose proof (fine_lines lines _ (fine_new None false)) as K. unfold parse_line_doc in E. rewrite E in K. exact K. }
    destruct (written_reads_plain g db allow force Hf) as [m' [g' [R [R1 [R2 R3]]]]].
    - intros c ch Hl. apply (K2 c ch Hl).
    - apply no_references. exact K3.
    - destruct Ha as [Ha|Ha]; [left; exact Ha|]. right. intros x d [c [ch [Hl [Hx|[v [Hv _]]]]]] Hd; [|destruct (K2 c ch Hl) as [_ [_ [_ [_ [_ [_ K]]]]]]; rewrite K in Hv; destruct Hv].
      apply (Ha x d); [|exact Hd]. destruct (proj1 (K1 c)) as [_ [line [t [A [B C]]]]]; [congruence|]. exists line, t, c. auto.
    - exists m', g'. split; [exact R|]. split; [exact R1|]. split; [|split].
      + intro c. rewrite (same_repertoire_lookup _ _ c R2). apply K1.
      + intros c ch Hl. destruct (same_repertoire_entry _ _ _ _ R2 Hl) as [ch0 [L [[A1 [A2 [A3 [A4 [A5 [A6 A7]]]]]] A8]]].
        destruct (K2 c ch0 L) as [B1 [B2 [B3 [B4 [B5 [B6 B7]]]]]]. unfold nothing_else. rewrite A3, A4, A5, A6, A7, A8.
        unfold is_range in *. rewrite A2. tauto.
      + rewrite R3. exact K3.
  Qed.

  (** *** Tables *)
  Lemma holds_same : forall evs g g', holds evs g -> same_repertoire g g' -> rm_refs (lg_refs g') = rm_refs (lg_refs g) -> holds evs g'.
  Proof.
    intros evs g g' [H1 H2 H3 H4] Hs Hr. constructor.
    - intro c. rewrite (same_repertoire_lookup _ _ c Hs). apply H1.
    - intros c ch Hl. destruct (same_repertoire_entry _ _ _ _ Hs Hl) as [ch0 [L [[A1 [A2 [A3 [A4 [A5 [A6 A7]]]]]] A8]]].
      destruct (H2 c ch0 L) as [pre [refs K]]. exists pre, refs. unfold is_range in *. rewrite A2, A3, A4, A5, A6, A7. exact K.
    - intros c ch u Hl. destruct (same_repertoire_entry _ _ _ _ Hs Hl) as [ch0 [L [_ A8]]]. rewrite A8. apply (H3 c ch0 u L).
    - intros id r. rewrite Hr. apply H4.
  Qed.
  Lemma holds_admits : forall evs g db allow, holds evs g -> accepts db allow (asked evs) -> admits db allow g.
  Proof.
    intros evs g db allow H [Ha|Ha]; [left; exact Ha|]. right. intros x d [c [ch [Hl Hx]]] Hd. apply (Ha x d); [|exact Hd].
    destruct Hx as [Hx|[v [Hv Hx]]].
    - destruct (proj1 (h_cp _ _ H c)) as [e [E1 [refs ->]]]; [congruence|]. exists (ECp c refs). auto.
    - apply (h_var _ _ H c ch v Hl) in Hv. destruct Hv as [pre [ty [refs [[post [E _]] _]]]]. exists (EVar c (v_cp v) ty refs).
      split; [rewrite E; apply in_or_app; right; left; reflexivity|]. right. exact Hx.
  Qed.
  Lemma holds_no_tags : forall evs g, holds evs g -> forall c ch, lookup (lg_rep g) c = Some ch -> ch_tags ch = [].
  Proof. intros evs g H c ch Hl. destruct (h_entry _ _ H c ch Hl) as [pre [refs K]]. apply K. Qed.
  Lemma holds_comments : forall evs g, holds evs g -> (forall id value, ~ In (ERef id value (Some "")) evs) -> comments_writable (lg_refs g).
  Proof.
    intros evs g H Hc id r Hr K. apply (h_ref _ _ H) in Hr. destruct Hr as [pre [post [E _]]]. rewrite K in E.
    apply (Hc id (ref_value r)). rewrite E. apply in_or_app. right. left. reflexivity.
  Qed.

  Lemma no_refs_4290 : forall force lines last g, rm_refs (lg_refs g) = [] -> rm_refs (lg_refs (fst (doc_4290 force last g lines))) = [].
  Proof.
    assert (V : forall force last vars g, lg_refs (fst (vars_4290 force last g vars)) = lg_refs g).
    { intros force last vars. induction vars as [|v vars IH]; intro g; [reflexivity|]. cbn [vars_4290]. destruct (parse_char_4290 v) as [vc|e]; [|auto].
      destruct last as [c|]; [|reflexivity]. pose proof (tolerated_value_fst (lgr_add_variant g c vc None None None None [] None false force)) as K.
      apply (f_equal lg_refs) in K. rewrite step_refs_variant in K. destruct (tolerated_value _) as [g' [| |]]; cbn [fst] in *; auto. rewrite IH. exact K. }
    intros force. induction lines as [|l lines IH]; intros last g H; [exact H|]. cbn [doc_4290].
    assert (K : rm_refs (lg_refs (fst (snd (one_4290 force last g l)))) = []).
    { unfold one_4290. destruct (data_line l) as [t|]; [|exact H]. destruct (match_u t); [|exact H].
      destruct (split_on 124 (hd [] (split_on 35 t))) as [|char more]; [exact H|].
      assert (K : exists last' g' o, match parse_char_4290 char with
         | Raise _ => (last, (g, Done))
         | Ok c => (Some c, tolerated_value (lgr_add_cp g c None [] [] None None None false force))
         end = (last', (g', o)) /\ lg_refs g' = lg_refs g).
      { destruct (parse_char_4290 char) as [c|e]; [|eauto 6]. pose proof (tolerated_value_fst (lgr_add_cp g c None [] [] None None None false force)) as K.
        apply (f_equal lg_refs) in K. rewrite step_refs_cp in K. destruct (tolerated_value _) as [g' o]. eauto 6. }
      destruct K as [last' [g' [o [-> K]]]]. destruct o; cbn [fst snd]; try (rewrite K; exact H). destruct more as [|vars ?]; cbn [fst snd]; rewrite ?V, K; exact H. }
    destruct (one_4290 force last g l) as [last' [g' [| |]]]; cbn [fst snd] in *; auto.
  Qed.
  Theorem table_4290_dumped : forall lines evs db allow force, asks_4290 None lines evs true -> accepts db allow (asked evs) ->
    exists doc, dump_4290 lines = Ok doc /\ reads lc dig db allow force doc (fun m g => same_metadata new_metadata m /\ holds evs g).
  Proof.
    intros lines evs db allow force H Ha. destruct (proj2 (any_4290 lines) true false evs true H) as [g [E [_ K]]].
    exists (serialize_lgr new_metadata g). split; [unfold dump_4290; rewrite E; reflexivity|]. unfold parse_4290 in E.
    pose proof (fine_4290 true lines None _ (fine_new None false)) as Hf. pose proof (no_refs_4290 true lines None (new_lgr None false) eq_refl) as Hr.
    rewrite E in Hf, Hr. cbn [fst] in Hf, Hr.
    destruct (written_reads_plain g db allow force Hf (holds_no_tags _ _ K) (no_references g Hr) (holds_admits _ _ _ _ K Ha)) as [m' [g' [R [R1 [R2 R3]]]]].
    exists m', g'. split; [exact R|]. split; [exact R1|]. eapply holds_same; eauto.
  Qed.

  Section Rfc3743.
    Variable enc : cps -> string.
    Lemma versions_plain : forall lines evs vers, file_3743 enc lines evs vers -> forall d date cm, In (d, date, cm) vers -> Forall digit date /\ length date = 8%nat.
    Proof.
      intros lines evs vers H. induction H as [|line lines evs1 ver evs2 vers H1 H2 IH]; intros d date cm Hi; [destruct Hi|].
      destruct ver as [v|]; [|apply (IH d date cm Hi)]. destruct Hi as [->|Hi]; [|apply (IH d date cm Hi)]. inversion H1 as [| | |t ? ? ? Hs Hv|]; subst.
      destruct Hv as [w1 [w2 [w3 [tail [_ [_ [_ [_ [_ [_ [L [D _]]]]]]]]]]]]. auto.
    Qed.
    Lemma last_plain : forall lines evs vers, file_3743 enc lines evs vers -> plain_date (last_version vers).
    Proof.
      intros lines evs vers H d Hd. unfold last_version in Hd. destruct (rev vers) as [|[[n date] cm] r] eqn:E; [discriminate|]. injection Hd as ->.
      assert (Hi : In (n, d, cm) vers) by (apply in_rev; rewrite E; left; reflexivity).
      destruct (versions_plain _ _ _ H _ _ _ Hi) as [K1 K2]. split; [destruct d; [discriminate|discriminate]|].
      intro K. rewrite Forall_forall in K1. apply K1 in K. unfold digit in K. lia.
    Qed.
    Theorem table_3743_dumped : forall lines evs vers db allow force, file_3743 enc lines evs vers -> cites_once lines ->
      (forall id value, ~ In (ERef id value (Some "")) evs) -> accepts db allow (asked evs) -> force = true \/ vers = [] ->
      exists doc, dump_3743 enc lines = Ok doc /\ reads lc dig db allow force doc (fun m g =>
        same_metadata (table_metadata (last_version vers)) m /\ holds evs g).
    Proof.
      intros lines evs vers db allow force H Hc Hcm Ha Hfo. destruct (table_3743_force enc false lines evs vers H) as [st [E [_ [K M]]]].
      exists (serialize_lgr (table_metadata (last_version vers)) (st_lgr st)). split; [unfold dump_3743; rewrite E, M; reflexivity|].
      unfold parse_3743 in E.
      assert (Hf : fine (st_lgr st)).
      { pose proof (fine_3743 enc true lines (mkSt None (new_lgr None false) (mkTm None None)) (fine_new None false)) as F. rewrite E in F. cbn [fst] in F.
        apply F. intros l Hl p ds [a [b Hp]] Hci. apply (Hc l a p ds b Hl Hp Hci). }
      destruct (written_reads (last_version vers) (st_lgr st) db allow force Hf (holds_no_tags _ _ K) (holds_comments _ _ K Hcm) (holds_admits _ _ _ _ K Ha)
        (last_plain _ _ _ H)) as [m' [g' [R [R1 [R2 R3]]]]].
      - destruct Hfo as [->| ->]; [left; reflexivity|right; reflexivity].
      - exists m', g'. split; [exact R|]. split; [exact R1|]. eapply holds_same; eauto.
    Qed.
    (** With a version line, a reader that does not force refuses the date. *)
    Theorem version_refused : forall lines evs v vers db allow, file_3743 enc lines evs (v :: vers) ->
      exists doc, dump_3743 enc lines = Ok doc /\
        parse_document lc dig db allow false doc = (None, Raise (LGRFormatException INVALID_DATE_TAG)).
    Proof.
      intros lines evs v vers db allow H. destruct (table_3743_force enc false lines evs _ H) as [st [E [_ [K M]]]].
      pose proof (last_plain _ _ _ H) as P. fold (last_version (v :: vers)) in M. set (t := last_version (v :: vers)) in *.
      exists (serialize_lgr (table_metadata t) (st_lgr st)). split; [unfold dump_3743; rewrite E, M; reflexivity|].
      assert (T : exists n d cm, t = mkTm (Some (n, cm)) (Some d)).
      { unfold t, last_version. destruct (rev (v :: vers)) as [|[[n d] cm] r] eqn:R; [|eauto]. cbn [rev] in R. destruct (rev vers); discriminate. }
      destruct T as [n [d [cm T]]]. rewrite T in *. destruct (P d eq_refl) as [P1 P2].
      unfold parse_document, process_meta. cbn [serialize_lgr x_meta]. rewrite written_meta. cbn [tm_version tm_date opt_elem fst snd].
      assert (Ht : text_node d = Some d) by (destruct d; [contradiction|reflexivity]). rewrite Ht.
      cbn [app process_meta_loop process_meta_elem needs_text]. unfold md_set_date. rewrite undashed by exact P2. reflexivity.
    Qed.
  End Rfc3743.
End Reads.
