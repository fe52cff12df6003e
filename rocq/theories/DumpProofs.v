(** The tables parsed by the dump tools give LGRs that can be written and read
    back. *)
From Verif Require Import Base BaseFacts UtilsModel CharModel RepSpec RefModel LgrModel LgrSpec LgrProofs LgrReach Rfc7940Model MetaModel MetaSpec
  ValidateModel CompareSpec AnnotateModel AnnotateSpec AnnotateRead SerialModel SerialSpec SerialProofs SerialFinal
  TableModel TableSpec TableScan TableParts Table3743 TableProofs TableDoc TableEnding ForceProofs DumpModel DumpSpec.
Open Scope string_scope.
Open Scope list_scope.

(** ** Forced additions without repeated citations *)
Lemma collect_kept : forall m refs, collect_refs m true refs = Ok (filter (fun r => dmem String.eqb r (rm_refs m)) refs).
Proof.
  intros m refs. induction refs as [|r refs IH]; [reflexivity|]. cbn [collect_refs filter].
  destruct (dmem String.eqb r (rm_refs m)); rewrite IH; reflexivity.
Qed.
Lemma collect_all : forall m refs, (forall r, In r refs -> dmem String.eqb r (rm_refs m) = true) -> collect_refs m false refs = Ok refs.
Proof.
  intros m refs. induction refs as [|r refs IH]; intro H; [reflexivity|]. cbn [collect_refs].
  rewrite (H r (or_introl eq_refl)), IH by (intros; apply H; right; assumption). reflexivity.
Qed.

Lemma add_cp_kept : forall g c refs, NoDup refs ->
  lgr_add_cp g c None refs [] None None None false true =
  lgr_add_cp g c None (filter (fun r => dmem String.eqb r (rm_refs (lg_refs g))) refs) [] None None None false false.
Proof.
  intros g c refs H. unfold lgr_add_cp. destruct (check_convert g c) as [c'|e]; [|reflexivity].
  cbn [negb is_some andb]. cbn [check_validating]. rewrite collect_kept, collect_all by (intros r Hr; apply filter_In in Hr; apply Hr).
  rewrite (proj2 (has_dup_false _) (NoDup_filter _ H)). cbn [andb length]. rewrite !andb_false_r. cbn [andb].
  change (has_dup []) with false. reflexivity.
Qed.
Lemma add_variant_kept : forall g c v ty refs, NoDup refs ->
  lgr_add_variant g c v ty None None None refs None false true =
  lgr_add_variant g c v ty None None None (filter (fun r => dmem String.eqb r (rm_refs (lg_refs g))) refs) None false false.
Proof.
  intros g c v ty refs H. unfold lgr_add_variant.
  destruct (bind (check_convert g c) (fun c => bind (check_convert g v) (fun v => Ok (c, v)))) as [[c' v']|e]; [|reflexivity].
  cbn [negb is_some andb]. cbn [check_validating]. rewrite collect_kept, collect_all by (intros r Hr; apply filter_In in Hr; apply Hr).
  rewrite (proj2 (has_dup_false _) (NoDup_filter _ H)). reflexivity.
Qed.

(** What the parsers keep true of the LGR. *)
Definition fine (g : lgr) : Prop := proper g /\ dget String.eqb "" (rm_refs (lg_refs g)) = None.
Lemma fine_new : forall db allow, fine (new_lgr db allow).
Proof. intros. split; [constructor|reflexivity]. Qed.
Lemma step_refs_cp : forall g c cm rf tg w nw vr ov fo, lg_refs (fst (lgr_add_cp g c cm rf tg w nw vr ov fo)) = lg_refs g.
Proof.
  intros. destruct (add_cp_spec g c cm rf tg w nw vr ov fo) as [r [_ H]].
  destruct (lgr_add_cp g c cm rf tg w nw vr ov fo) as [g' x]. destruct r; [destruct H as [_ ->]; reflexivity|]. apply H.
Qed.
Lemma set_rep_refs : forall g r, lg_refs (set_rep g r) = lg_refs g.
Proof. reflexivity. Qed.
Lemma step_refs_variant : forall g c v ty w nw cm rf vr ov fo, lg_refs (fst (lgr_add_variant g c v ty w nw cm rf vr ov fo)) = lg_refs g.
Proof.
  intros. unfold lgr_add_variant.
  destruct (bind (check_convert g c) (fun c => bind (check_convert g v) (fun v => Ok (c, v)))) as [[c' v']|e]; [|reflexivity].
  destruct (negb fo && is_some w && is_some nw)%bool; [reflexivity|]. destruct (check_validating vr ov fo c' v'); [|reflexivity].
  destruct (collect_refs (lg_refs g) fo rf); [|reflexivity]. destruct (has_dup a0 && negb fo)%bool; [reflexivity|].
  destruct (rep_add_variant (lg_rep g) c' _) as [r [u|e]]; [|reflexivity]. cbn [fst]. unfold add_type. destruct ty; reflexivity.
Qed.
Lemma fine_cp : forall g c refs force, fine g -> NoDup refs -> fine (fst (lgr_add_cp g c None refs [] None None None false force)).
Proof.
  intros g c refs force [H1 H2] Hn. split; [|rewrite step_refs_cp; exact H2]. destruct force.
  - rewrite add_cp_kept by exact Hn. pose proof (pr_step g (LAddCp c None (filter (fun r => dmem String.eqb r (rm_refs (lg_refs g))) refs) [] None None None false false) H1 I eq_refl) as K.
    cbn [lgr_step] in K. destruct (lgr_add_cp g c None _ [] None None None false false) as [g' x]. exact K.
  - pose proof (pr_step g (LAddCp c None refs [] None None None false false) H1 I eq_refl) as K.
    cbn [lgr_step] in K. destruct (lgr_add_cp g c None _ [] None None None false false) as [g' x]. exact K.
Qed.
Lemma fine_variant : forall g c v ty refs force, fine g -> NoDup refs -> fine (fst (lgr_add_variant g c v ty None None None refs None false force)).
Proof.
  intros g c v ty refs force [H1 H2] Hn. split; [|rewrite step_refs_variant; exact H2]. destruct force.
  - rewrite add_variant_kept by exact Hn. pose proof (pr_step g (LAddVariant c v ty None None None (filter (fun r => dmem String.eqb r (rm_refs (lg_refs g))) refs) None false false) H1 I eq_refl) as K.
    cbn [lgr_step] in K. destruct (lgr_add_variant g c v ty None None None _ None false false) as [g' x]. exact K.
  - pose proof (pr_step g (LAddVariant c v ty None None None refs None false false) H1 I eq_refl) as K.
    cbn [lgr_step] in K. destruct (lgr_add_variant g c v ty None None None _ None false false) as [g' x]. exact K.
Qed.
Lemma fine_reference : forall g value cm id, fine g -> id <> "" -> fine (fst (lgr_add_reference g value cm (Some id))).
Proof.
  intros g value cm id [H1 H2] Hid. split.
  - pose proof (pr_step g (LAddReference value cm (Some id)) H1 I I) as K. cbn [lgr_step] in K. destruct (lgr_add_reference g value cm (Some id)). exact K.
  - unfold lgr_add_reference, rm_add. destruct (dmem String.eqb id (rm_refs (lg_refs g))); [exact H2|].
    destruct (negb (ref_id_ok id)); [exact H2|]. cbn [fst set_refs lg_refs rm_refs]. rewrite (dget_dset _ string_eqb_iff).
    destruct (String.eqb "" id) eqn:E; [apply String.eqb_eq in E; congruence|exact H2].
Qed.
Lemma tolerated_fst : forall x, fst (tolerated x) = fst x.
Proof. intros [g [u|e]]; [reflexivity|]. cbn. destruct (is_lgr_exception e); reflexivity. Qed.
Lemma tolerated_value_fst : forall x, fst (tolerated_value x) = fst x.
Proof. intros [g [u|e]]; [reflexivity|]. destruct e; try apply tolerated_fst; reflexivity. Qed.

(** ** One code point per line *)
Lemma fine_lines : forall lines g, fine g -> fine (fst (line_doc g lines)).
Proof.
  induction lines as [|l lines IH]; intros g H; [exact H|]. cbn [line_doc].
  assert (K : fine (fst (line_one g l))).
  { unfold line_one. destruct (data_line l); [|exact H]. rewrite tolerated_fst. apply fine_cp; [exact H|constructor]. }
  destruct (line_one g l) as [g' [| |]]; cbn [fst] in *; auto.
Qed.

(** ** RFC 4290 *)
Lemma fine_vars_4290 : forall force last vars g, fine g -> fine (fst (vars_4290 force last g vars)).
Proof.
  intros force last vars. induction vars as [|v vars IH]; intros g H; [exact H|]. cbn [vars_4290].
  destruct (parse_char_4290 v) as [vc|e]; [|auto]. destruct last as [c|]; [|exact H].
  pose proof (fine_variant g c vc None [] force H (NoDup_nil _)) as K. rewrite <- tolerated_value_fst in K.
  destruct (tolerated_value _) as [g' [| |]]; cbn [fst] in *; auto.
Qed.
Lemma fine_one_4290 : forall force last g line, fine g -> fine (fst (snd (one_4290 force last g line))).
Proof.
  intros force last g line H. unfold one_4290. destruct (data_line line) as [l|]; [|exact H]. destruct (match_u l) as [p|]; [|exact H].
  destruct (split_on 124 (hd [] (split_on 35 l))) as [|char more]; [exact H|].
  assert (K : exists last' g' o, match parse_char_4290 char with
     | Raise _ => (last, (g, Done))
     | Ok c => (Some c, tolerated_value (lgr_add_cp g c None [] [] None None None false force))
     end = (last', (g', o)) /\ fine g').
  { destruct (parse_char_4290 char) as [c|e]; [|eauto 6]. pose proof (fine_cp g c [] force H (NoDup_nil _)) as K. rewrite <- tolerated_value_fst in K.
    destruct (tolerated_value _) as [g' o]. eauto 6. }
  destruct K as [last' [g' [o [-> K]]]]. destruct o; cbn [fst snd]; auto. destruct more as [|vars ?]; [exact K|]. apply fine_vars_4290. exact K.
Qed.
Lemma fine_4290 : forall force lines last g, fine g -> fine (fst (doc_4290 force last g lines)).
Proof.
  intros force. induction lines as [|l lines IH]; intros last g H; [exact H|]. cbn [doc_4290].
  pose proof (fine_one_4290 force last g l H) as K. destruct (one_4290 force last g l) as [last' [g' [| |]]]; cbn [fst snd] in *; auto.
Qed.

(** ** RFC 3743 *)
(** [p] is part of the text [s]. *)
Definition part (p s : cps) : Prop := exists a b, s = a ++ p ++ b.
Lemma part_refl : forall s, part s s.
Proof. intro s. exists [], []. rewrite app_nil_r. reflexivity. Qed.
Lemma part_trans : forall a b c, part a b -> part b c -> part a c.
Proof. intros a b c [x [y ->]] [u [v ->]]. exists (u ++ x), (y ++ v). rewrite !app_assoc. reflexivity. Qed.
Lemma part_strip : forall s, part (strip s) s.
Proof.
  intro s. rewrite strip_is. destruct (lstrip_split s) as [p [H1 _]]. destruct (rstrip_split (lstrip s)) as [q [H2 _]].
  exists p, q. rewrite <- H2. exact H1.
Qed.
Lemma part_join : forall sep l p, In p l -> part p (join sep l).
Proof.
  intros sep l. induction l as [|x l IH]; intros p H; [destruct H|]. destruct l as [|y l].
  - destruct H as [->|[]]. apply part_refl.
  - change (join sep (x :: y :: l)) with (x ++ sep ++ join sep (y :: l)). destruct H as [->|H].
    + exists [], (sep ++ join sep (y :: l)). reflexivity.
    + destruct (IH p H) as [a [b E]]. exists (x ++ sep ++ a), b. rewrite E, !app_assoc. reflexivity.
Qed.
Lemma part_split : forall sep s p, In p (split_on sep s) -> part p s.
Proof.
  intros sep s p H. destruct (proj2 (split_on_is sep s _) eq_refl) as [_ [E _]]. rewrite E. apply part_join. exact H.
Qed.
Lemma part_nil : forall s, part [] s.
Proof. intro s. exists [], s. reflexivity. Qed.
Lemma part_hd : forall sep s, part (hd [] (split_on sep s)) s.
Proof. intros sep s. destruct (split_on sep s) as [|x l] eqn:E; [apply part_nil|]. apply (part_split sep). rewrite E. left. reflexivity. Qed.
Lemma part_suffix : forall a s, part s (a ++ s).
Proof. intros a s. exists a, []. rewrite app_nil_r. reflexivity. Qed.

Lemma hex_suffix : forall k s d t, take_hex k s = (d, t) -> s = d ++ t.
Proof.
  induction k as [|k IH]; intros s d t H; cbn in H; [injection H as <- <-; reflexivity|].
  destruct s as [|c s]; [injection H as <- <-; reflexivity|]. destruct (is_hex c); [|injection H as <- <-; reflexivity].
  destruct (take_hex k s) as [d' t'] eqn:E. injection H as <- <-. cbn. f_equal. apply IH. exact E.
Qed.
Lemma unit_suffix : forall s u t, match_unit s = Some (u, t) -> part t s.
Proof.
  intros s u t H. unfold match_unit in H.
  assert (K : exists p r, (match s with a :: b :: r => if N.eqb a 85 && N.eqb b 43 then ([85; 43], r) else ([], s) | _ => ([], s) end) = (p, r) /\ part r s).
  { destruct s as [|a [|b r]]; try (eexists _, _; split; [reflexivity|apply part_refl]). destruct (N.eqb a 85 && N.eqb b 43)%bool.
    - eexists _, _. split; [reflexivity|]. apply (part_suffix [a; b]).
    - eexists _, _. split; [reflexivity|apply part_refl]. }
  destruct K as [p [r [E K]]]. rewrite E in H. unfold match_hex in H. destruct (take_hex 6 r) as [d t'] eqn:Eh. apply hex_suffix in Eh.
  destruct (Nat.leb 4 (length d)); [|discriminate]. apply part_trans with r; [|exact K]. rewrite Eh.
  destruct t' as [|c t']; [injection H as _ <-; apply part_suffix|]. destruct (N.eqb c 32); injection H as _ <-.
  - apply part_trans with (c :: t'); [apply (part_suffix [c])|apply part_suffix].
  - apply part_suffix.
Qed.
Lemma units_suffix : forall fuel s u t, match_units fuel s = (u, t) -> part t s.
Proof.
  induction fuel as [|f IH]; intros s u t H; cbn [match_units] in H; [injection H as _ <-; apply part_refl|].
  destruct (match_unit s) as [[u1 t1]|] eqn:E; [|injection H as _ <-; apply part_refl]. apply unit_suffix in E.
  destruct (match_units f t1) as [us t'] eqn:E'. injection H as _ <-. apply IH in E'. eapply part_trans; eauto.
Qed.
Lemma ref_tail_text : forall n s ds t, (length s <= n)%nat -> match_ref_tail s = Some (ds, t) -> Forall digit ds /\ s = flat_map (fun d => [44; d]) ds ++ 41 :: t.
Proof.
  induction n as [|n IH]; intros s ds t Hn H; destruct s as [|a s]; cbn [match_ref_tail] in H; try discriminate; [cbn in Hn; lia|].
  destruct (N.eqb_spec a 41) as [->|Ea]; [injection H as <- <-; split; [constructor|reflexivity]|].
  destruct (N.eqb_spec a 44) as [->|Eb]; [|discriminate]. destruct s as [|d s]; [discriminate|].
  destruct (is_digit d) eqn:Ed; [|discriminate]. destruct (match_ref_tail s) as [[ds' t']|] eqn:Es; [|discriminate]. cbn [option_map fst snd] in H.
  injection H as <- <-. destruct (IH s ds' t') as [K1 K2]; [cbn in Hn; lia|exact Es|]. split; [constructor; [apply digit_is; exact Ed|exact K1]|].
  rewrite K2. reflexivity.
Qed.
Lemma refs_text : forall s ds t, match_refs s = Some (ds, t) -> exists p, s = p ++ t /\ citation p ds.
Proof.
  intros s ds t H. unfold match_refs in H. destruct s as [|a [|d r]]; try discriminate.
  destruct (N.eqb_spec a 40) as [->|Ea]; [|discriminate]. destruct (is_digit d) eqn:Ed; [|discriminate]. cbn [andb] in H.
  destruct (match_ref_tail r) as [[ds' t']|] eqn:E; [|discriminate]. cbn [option_map fst snd] in H. injection H as <- <-.
  destruct (ref_tail_text (length r) r ds' t' (le_n _) E) as [K1 K2].
  exists (40 :: join [44] (map (fun d => [d]) (d :: ds')) ++ [41]). split.
  - rewrite join_commas, K2. cbn [app]. rewrite <- app_assoc. reflexivity.
  - right. split; [discriminate|]. split; [constructor; [apply digit_is; exact Ed|exact K1]|reflexivity].
Qed.
(** In texts whose lists of citations have no digit twice. *)
Definition clean (s : cps) : Prop := forall p ds, part p s -> citation p ds -> NoDup ds.
Lemma clean_part : forall p s, part p s -> clean s -> clean p.
Proof. intros p s H K q ds Hq. apply K. eapply part_trans; eauto. Qed.
Lemma match_clean : forall s us ds t, match_3743 s = Some (us, ds, t) -> part t s /\ (clean s -> NoDup ds /\ Forall digit ds).
Proof.
  intros s us ds t H. unfold match_3743 in H. destruct (match_units (length s) s) as [u t1] eqn:E. apply units_suffix in E.
  destruct u as [|b u]; [discriminate|]. destruct (match_refs t1) as [[ds' t']|] eqn:Er; injection H as <- <- <-.
  - destruct (refs_text _ _ _ Er) as [p [E1 E2]]. subst t1. split; [eapply part_trans; [apply part_suffix|exact E]|].
    intro Hc. split.
    + apply (Hc p); [|exact E2]. eapply part_trans; [|exact E]. exists [], t'. reflexivity.
    + destruct E2 as [[_ ->]|[_ [K _]]]; [constructor|exact K].
  - split; [exact E|]. intros _. split; constructor.
Qed.
Lemma digit_names : forall ds, NoDup ds -> Forall digit ds -> NoDup (map digit_name ds).
Proof.
  intros ds H K. induction H as [|d ds Hd H IH]; [constructor|]. inversion K as [|? ? K1 K2]; subst. cbn [map]. constructor; [|auto].
  intro J. apply in_map_iff in J. destruct J as [e [E He]]. apply Hd.
  assert (Hde : digit e) by (rewrite Forall_forall in K2; auto).
  assert (d = e); [|congruence]. clear - E K1 Hde. unfold digit_name in E. apply (f_equal txt) in E.
  unfold digit in *.
  assert (A : forall x, 48 <= x <= 57 -> txt (untxt [x]) = [x]).
  { intros x Hx. assert (Ex : x = 48 \/ x = 49 \/ x = 50 \/ x = 51 \/ x = 52 \/ x = 53 \/ x = 54 \/ x = 55 \/ x = 56 \/ x = 57) by lia.
    repeat (destruct Ex as [->|Ex]; [reflexivity|]). subst x. reflexivity. }
  rewrite !A in E by assumption. congruence.
Qed.
Lemma parse_clean : forall fuel s l, clean s -> parse_char_3743_from fuel s = Ok l -> Forall (fun x => NoDup (snd x)) l.
Proof.
  induction fuel as [|f IH]; intros s l Hc H; cbn [parse_char_3743_from] in H; [injection H as <-; constructor|].
  destruct s as [|a r]; [injection H as <-; constructor|]. destruct (match_3743 (a :: r)) as [[[us ds] t]|] eqn:E.
  - destruct (match_clean _ _ _ _ E) as [K1 K2]. destruct (sequence_values us) as [c|e]; [|discriminate]. cbn [bind] in H.
    destruct (parse_char_3743_from f t) as [l'|e] eqn:El; [|discriminate]. cbn [bind] in H. injection H as <-. constructor.
    + cbn [snd]. destruct (K2 Hc). apply digit_names; assumption.
    + eapply IH; [|exact El]. eapply clean_part; eauto.
  - eapply IH; [|exact H]. eapply clean_part; [|exact Hc]. apply (part_suffix [a]).
Qed.

Section Rfc3743.
  Variable enc : cps -> string.
  Variable force : bool.
  Lemma fine_vars_3743 : forall c ty l g, fine g -> Forall (fun x : cps * list string => NoDup (snd x)) l -> fine (fst (add_vars_3743 force c ty g l)).
  Proof.
    intros c ty. induction l as [|[v refs] l IH]; intros g H Hl; [exact H|]. inversion Hl as [|? ? Hr Hl']; subst. cbn [snd] in Hr. cbn [add_vars_3743].
    pose proof (fine_variant g c v ty refs force H Hr) as K. rewrite <- tolerated_fst in K. destruct (tolerated _) as [g' [| |]]; cbn [fst] in *; auto.
  Qed.
  Lemma fine_column : forall last ty g col, fine g -> (forall t, col = Some t -> clean t) -> fine (fst (column_3743 force last ty g col)).
  Proof.
    intros last ty g col H Hc. unfold column_3743. destruct col as [t|]; [|exact H]. destruct (strip t) as [|c r] eqn:E; [exact H|].
    destruct (N.eqb c 35); [exact H|]. unfold insert_3743. destruct last as [d|]; [|exact H].
    destruct (parse_char_3743 (c :: r)) as [l|e] eqn:El; [|exact H]. apply fine_vars_3743; [exact H|].
    eapply parse_clean; [|exact El]. rewrite <- E. eapply clean_part; [apply part_strip|]. apply Hc. reflexivity.
  Qed.
  Lemma fine_row : forall st l, fine (st_lgr st) -> clean l -> fine (st_lgr (fst (TableModel.row_3743 force st l))).
  Proof.
    intros st l H Hc. unfold TableModel.row_3743. set (cols := split_on 59 (strip (hd [] (split_on 35 l)))).
    assert (Hp : forall t, In t cols -> clean t).
    { intros t Ht. eapply clean_part; [|exact Hc]. eapply part_trans; [eapply part_split; exact Ht|]. eapply part_trans; [apply part_strip|apply part_hd]. }
    assert (K : exists last' g' o, match parse_char_3743 (hd [] cols) with
       | Ok [(c, refs)] => (Some c, tolerated_value (lgr_add_cp (st_lgr st) c None refs [] None None None false force))
       | _ => (st_last st, (st_lgr st, Done))
       end = (last', (g', o)) /\ fine g').
    { destruct (parse_char_3743 (hd [] cols)) as [[|[c refs] [|? ?]]|e] eqn:El; try (eauto 6).
      assert (Hr : NoDup refs).
      { assert (Hh : clean (hd [] cols)).
        { destruct cols as [|t ?]; [|apply Hp; left; reflexivity]. eapply clean_part; [apply part_nil|exact Hc]. }
        pose proof (parse_clean _ _ _ Hh El) as K. inversion K; subst. assumption. }
      pose proof (fine_cp (st_lgr st) c refs force H Hr) as K. rewrite <- tolerated_value_fst in K. destruct (tolerated_value _) as [g' o]. eauto 6. }
    destruct K as [last' [g1 [o1 [-> K]]]]. destruct o1; cbn [fst st_lgr]; auto.
    pose proof (fine_column last' (Some "activated") g1 (nth_error cols 1) K) as K2.
    destruct (column_3743 force last' (Some "activated") g1 (nth_error cols 1)) as [g2 o2]. cbn [fst] in K2.
    assert (F2 : fine g2) by (apply K2; intros t Ht; apply Hp; eapply nth_error_In; exact Ht).
    destruct o2; cbn [fst st_lgr]; auto.
    pose proof (fine_column last' None g2 (nth_error cols 2) F2) as K3. destruct (column_3743 force last' None g2 (nth_error cols 2)) as [g3 o3].
    cbn [fst st_lgr] in *. apply K3. intros t Ht. apply Hp. eapply nth_error_In. exact Ht.
  Qed.
  Lemma named_nonempty : forall d, digit_name d <> "".
  Proof. intro d. unfold digit_name. cbn. discriminate. Qed.
  Lemma fine_line : forall st line, fine (st_lgr st) -> clean line -> fine (st_lgr (fst (one_3743 enc force st line))).
  Proof.
    intros st line H Hc. unfold one_3743. destruct (data_line line) as [l|] eqn:El; [|exact H].
    destruct (match_reference l) as [[[d v] cm]|].
    - cbn [fst st_lgr]. apply fine_reference; [exact H|apply named_nonempty].
    - destruct (match_version l) as [[[d date] cm]|]; [exact H|]. destruct (match_3743 l); [|exact H]. apply fine_row; [exact H|].
      apply data_line_states in El. destruct El as [[pre [post [E _]]] _]. eapply clean_part; [|exact Hc]. exists pre, post. exact E.
  Qed.
  Lemma fine_3743 : forall lines st, fine (st_lgr st) -> (forall l, In l lines -> clean l) -> fine (st_lgr (fst (doc_3743 enc force st lines))).
  Proof.
    induction lines as [|l lines IH]; intros st H Hc; [exact H|]. cbn [doc_3743].
    pose proof (fine_line st l H (Hc l (or_introl eq_refl))) as K. destruct (one_3743 enc force st l) as [st' [| |]]; cbn [fst] in *; auto.
    apply IH; auto. intros x Hx. apply Hc. right. exact Hx.
  Qed.
End Rfc3743.
