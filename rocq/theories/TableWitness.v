(** Sample tables, and tables that are read wrongly. *)
From Verif Require Import Base BaseFacts CharModel RepSpec RefModel LgrModel LgrSpec UtilsModel AnnotateModel AnnotateSpec AnnotateRead
  TableModel TableSpec TableScan TableParts TableProofs Table3743 TableDoc.
Open Scope string_scope.
Open Scope list_scope.

Definition plain (s : cps) : string := untxt s.

(** What an LGR holds of [c]: its variants with their types, its references. *)
Definition seen_at (g : lgr) (c : cps) : option (list (cps * option string) * list string) :=
  match lookup (lg_rep g) c with
  | Some ch => Some (map (fun v => (v_cp v, v_type v)) (get_variants ch), ch_refs ch)
  | None => None
  end.

(** ** One per line *)
Definition line_sample : list cps := [txt "# title"; txt " U+0061 "; txt ""; txt "U+0062 U+00DF"; txt "nothing here"].
Definition line_comment : list cps := [txt "U+0061 # not U+0062"].
Lemma line_comment_mixed : exists g line t,
  parse_line_doc true line_comment = (g, Done) /\ In line line_comment /\ states line t /\
  (exists u, uncommented t u /\ mentions u [97]) /\ lookup (lg_rep g) [97] = None /\ lookup (lg_rep g) [97; 98] <> None.
Proof.
  exists (fst (parse_line_doc true line_comment)), (txt "U+0061 # not U+0062"), (txt "U+0061 # not U+0062").
  split; [vm_compute; reflexivity|]. split; [left; reflexivity|]. split; [apply data_line_states; vm_compute; reflexivity|].
  split; [|split; vm_compute; congruence]. exists (txt "U+0061 "). split; [apply uncommented_hd; vm_compute; reflexivity|].
  pose proof (find_u_mentions 7 (txt "U+0061 ")) as H. apply H. vm_compute. auto.
Qed.

(** ** RFC 4290 *)
Definition sample_4290 : list cps :=
  [txt "# title"; txt "U+0061|U+0062:U+0063-U+0064"; txt "U+0065-U+0066 # e"; txt "U+0061|U+0067"].
Lemma states_only : forall line t, states line t -> data_line line = Some t.
Proof. intros. apply data_line_states. assumption. Qed.
(** Rows of a file, computed. *)
Definition row_of (line : cps) : option (cps * list cps) :=
  match data_line line with
  | None => None
  | Some t => match match_u t with
              | None => None
              | Some _ => match split_on 124 (hd [] (split_on 35 t)) with
                          | [] => None
                          | char :: [] => Some (char, [])
                          | char :: v :: _ => Some (char, split_on 58 v)
                          end
              end
  end.
Lemma row_of_iff : forall line char vars, (exists t, states line t /\ row_4290 t char vars) <-> row_of line = Some (char, vars).
Proof.
  intros line char vars. unfold row_of. split.
  - intros [t [H1 H2]]. apply states_only in H1. rewrite H1. apply row_4290_is in H2. destruct H2 as [H2 [more [H3 H4]]].
    destruct (match_u t); [|contradiction]. rewrite H3. destruct more; subst; reflexivity.
  - destruct (data_line line) as [t|] eqn:E; [|discriminate]. destruct (match_u t) eqn:Eu; [|discriminate]. intro H.
    exists t. split; [apply data_line_states; exact E|]. apply row_4290_is. split; [congruence|].
    destruct (split_on 124 (hd [] (split_on 35 t))) as [|ch [|v more]] eqn:Es; [discriminate| |]; injection H as <- <-; eexists; split; eauto; reflexivity.
Qed.
Definition rows_of (lines : list cps) : list (cps * list cps) :=
  flat_map (fun l => match row_of l with Some r => [r] | None => [] end) lines.
Lemma rows_of_iff : forall lines char vars, listed_4290 lines char vars <-> In (char, vars) (rows_of lines).
Proof.
  intros lines char vars. unfold listed_4290, rows_of. rewrite in_flat_map. split.
  - intros [line [t [H1 H2]]]. exists line. split; [exact H1|].
    assert (Hr : row_of line = Some (char, vars)) by (apply row_of_iff; eauto). rewrite Hr. left. reflexivity.
  - intros [line [H1 H2]]. destruct (row_of line) as [r|] eqn:E; [|contradiction]. destruct H2 as [->|[]].
    apply row_of_iff in E. destruct E as [t E]. exists line, t. auto.
Qed.
Definition dashedb (s : cps) : bool := match parse_char_4290 s with Ok _ => true | Raise _ => false end.
Definition readableb (lines : list cps) : bool :=
  forallb (fun r => if dashedb (fst r) then true else forallb (fun v => negb (dashedb v)) (snd r)) (rows_of lines).
Lemma dashedb_iff : forall s, dashedb s = true <-> exists c, dashed s c.
Proof.
  intro s. unfold dashedb. destruct (parse_char_4290 s) as [c|e] eqn:E.
  - split; auto. intros _. exists c. apply parse_char_4290_dashed. exact E.
  - split; [discriminate|]. intros [c H]. apply parse_char_4290_dashed in H. congruence.
Qed.
Lemma readableb_sound : forall lines, readableb lines = true ->
  forall char vars, listed_4290 lines char vars -> readable_row char vars.
Proof.
  intros lines H char vars Hl. apply rows_of_iff in Hl. unfold readableb in H. rewrite forallb_forall in H.
  specialize (H _ Hl). cbn [fst snd] in H. destruct (dashedb char) eqn:E; [left; apply dashedb_iff; exact E|].
  right. intros var v Hv Hd. rewrite forallb_forall in H. specialize (H _ Hv). apply negb_true_iff in H.
  assert (dashedb var = true) by (apply dashedb_iff; eauto). congruence.
Qed.
(** Does the file list [v] as a variant of [c]? *)
Definition says_variant (lines : list cps) (c v : cps) : bool :=
  existsb (fun r => match parse_char_4290 (fst r) with
                    | Ok d => if cps_eqb d c
                              then existsb (fun w => match parse_char_4290 w with Ok x => cps_eqb x v | Raise _ => false end) (snd r)
                              else false
                    | Raise _ => false
                    end) (rows_of lines).
Lemma says_variant_iff : forall lines c v,
  (exists char vars var, listed_4290 lines char vars /\ dashed char c /\ In var vars /\ dashed var v) -> says_variant lines c v = true.
Proof.
  intros lines c v [char [vars [var [H1 [H2 [H3 H4]]]]]]. unfold says_variant. apply existsb_exists. apply rows_of_iff in H1.
  exists (char, vars). split; [exact H1|]. cbn [fst snd]. apply parse_char_4290_dashed in H2. rewrite H2, cps_eqb_refl.
  apply existsb_exists. exists var. split; [exact H3|]. apply parse_char_4290_dashed in H4. rewrite H4. apply cps_eqb_refl.
Qed.
Definition misplaced_4290 : list cps := [txt "U+0061"; txt "U+0062-x|U+0063"].
Lemma misplaced : exists g ch u, parse_4290 true true misplaced_4290 = (g, Done) /\
  lookup (lg_rep g) [97] = Some ch /\ In u (get_variants ch) /\ v_cp u = [99] /\
  ~ exists char vars var, listed_4290 misplaced_4290 char vars /\ dashed char [97] /\ In var vars /\ dashed var [99].
Proof.
  eexists _, _, _. split; [vm_compute; reflexivity|]. split; [vm_compute; reflexivity|]. split; [left; reflexivity|]. split; [reflexivity|].
  intro H. apply says_variant_iff in H. vm_compute in H. discriminate.
Qed.
Lemma asks_misplaced : asks_4290 None misplaced_4290 [ECp [97] []; EVar [97] [99] None []] true.
Proof.
  destruct (proj2 (row_of_iff (txt "U+0061") (txt "U+0061") []) eq_refl) as [t1 [Hs1 Hr1]].
  destruct (proj2 (row_of_iff (txt "U+0062-x|U+0063") (txt "U+0062-x") [txt "U+0063"]) eq_refl) as [t2 [Hs2 Hr2]].
  apply (as_row None _ _ t1 (txt "U+0061") [] [97] [] [EVar [97] [99] None []] true Hs1 Hr1).
  - apply parse_char_4290_dashed. vm_compute. reflexivity.
  - constructor.
  - apply (as_nameless (Some [97]) _ _ t2 (txt "U+0062-x") [txt "U+0063"] [EVar [97] [99] None []] [] true Hs2 Hr2).
    + intros c Hc. apply parse_char_4290_dashed in Hc. vm_compute in Hc. discriminate.
    + apply (av_variant (Some [97]) [97] [99]); [reflexivity| |constructor]. apply parse_char_4290_dashed. vm_compute. reflexivity.
    + constructor.
Qed.
Lemma crash_4290 : snd (parse_4290 true true [txt "U+0062-x|U+0063"]) = Unbound.
Proof. vm_compute. reflexivity. Qed.
Lemma blank_4290 : seen_at (fst (parse_4290 true true [txt "U+0061| U+0062"])) [97] = Some ([], []) /\
  seen_at (fst (parse_4290 true true [txt "U+0061|U+0062"])) [97] = Some ([([98], None)], []).
Proof. vm_compute. auto. Qed.

(** ** RFC 3743 *)
Lemma hex_value_calc : forall d n, forallb is_hex d = true -> d <> [] -> int16 d = Ok n -> hex_value d n.
Proof.
  intros d n H1 H2 H3. destruct (int16_value d) as [m [H4 H5]]; auto.
  - apply Forall_forall. rewrite forallb_forall in H1. exact H1.
  - congruence.
Qed.
Definition sample_3743 : list cps :=
  [txt "# title"; txt "Reference 1 Unicode 3.2 # the standard"; txt "Version 1 20050331"; txt "Some text";
   txt "U+4E00(1);U+4E01(1,2); U+4E02,4E03 4E04(1) # row"].
Definition sample_events : list event :=
  [ERef "1" "Unicode 3.2 " (Some "the standard");
   ECp [19968] ["1"]; EVar [19968] [19969] (Some "activated") ["1"; "2"];
   EVar [19968] [19970] None []; EVar [19968] [19971; 19972] None ["1"]].
Lemma strip_same : forall t, strip t = t -> trimmed t.
Proof. intros t H. rewrite <- H. apply strip_trimmed. Qed.
Lemma unit_calc : forall d n, forallb is_hex d = true -> (4 <= length d <= 6)%nat -> int16 d = Ok n ->
  unit_of d n /\ unit_of (85 :: 43 :: d) n.
Proof.
  intros d n H1 H2 H3. assert (Hv : hex_value d n) by (apply hex_value_calc; auto; intro; subst; cbn in H2; lia).
  split; exists d; auto.
Qed.
Ltac unit_done :=
  match goal with |- unit_of ?s ?n =>
    let s' := eval vm_compute in s in change (unit_of s' n);
    match s' with
    | 85 :: 43 :: ?d => apply (proj2 (unit_calc d n eq_refl ltac:(cbn; lia) eq_refl))
    | _ => apply (proj1 (unit_calc s' n eq_refl ltac:(cbn; lia) eq_refl))
    end
  end.
Lemma sample_ref : line_3743 plain (txt "Reference 1 Unicode 3.2 # the standard") [ERef "1" "Unicode 3.2 " (Some "the standard")] None.
Proof.
  apply (l_ref plain _ (txt "Reference 1 Unicode 3.2 # the standard") 49 (txt "Unicode 3.2 ") (Some (txt "the standard")));
      [apply data_line_states; vm_compute; reflexivity|].
    exists [32], [32], (hash_mark :: [32] ++ txt "the standard"). split; [reflexivity|]. split; [unfold digit; lia|].
    split; [repeat constructor|]. split; [discriminate|]. split; [repeat constructor|]. split; [discriminate|]. split; [discriminate|].
    split; [vm_compute; intuition discriminate|]. split; [intros c v E; injection E as <- _; reflexivity|].
    exists [32]. split; [reflexivity|]. split; [repeat constructor|]. intros c v E. injection E as <- _. reflexivity.
Qed.
Lemma sample_row : line_3743 plain (txt "U+4E00(1);U+4E01(1,2); U+4E02,4E03 4E04(1) # row") (tl sample_events) None.
Proof.
  apply (l_row plain _ (txt "U+4E00(1);U+4E01(1,2); U+4E02,4E03 4E04(1) # row") [19968] [49]
           [([19969], [49; 50])] [([19970], []); ([19971; 19972], [49])]); [apply data_line_states; vm_compute; reflexivity|].
  exists (txt "U+4E00(1);U+4E01(1,2); U+4E02,4E03 4E04(1)"), [32], (txt "U+4E00(1)"), [txt "U+4E01(1,2)"; txt " U+4E02,4E03 4E04(1)"].
  split; [apply uncommented_hd; vm_compute; reflexivity|]. split; [repeat constructor|].
  split; [apply split_on_is; vm_compute; reflexivity|]. split; [apply strip_same; vm_compute; reflexivity|].
  assert (Hd1 : Forall digit [49]) by (repeat constructor; discriminate).
  assert (Hd2 : Forall digit [49; 50]) by (repeat constructor; discriminate).
  split; [|split].
  - exists [txt "U+4E00"], (txt "(1)"). split; [discriminate|]. split; [constructor; [unit_done|constructor]|].
    split; [right; split; [discriminate|split; [exact Hd1|reflexivity]]|reflexivity].
  - cbn [nth_error column]. right. exists [], [], (txt "U+4E01(1,2)"). split; [reflexivity|]. split; [constructor|]. split; [constructor|].
    apply en_one. exists [txt "U+4E01"], (txt "(1,2)"). split; [discriminate|]. split; [constructor; [unit_done|constructor]|].
    split; [right; split; [discriminate|split; [exact Hd2|reflexivity]]|reflexivity].
  - cbn [nth_error column]. right. exists [32], [], (txt "U+4E02,4E03 4E04(1)"). split; [reflexivity|]. split; [repeat constructor|]. split; [constructor|].
    apply (en_more (txt "U+4E02") [19970] [] 0 (txt "4E03 4E04(1)")).
    + exists [txt "U+4E02"], []. split; [discriminate|]. split; [constructor; [unit_done|constructor]|]. split; [left; auto|reflexivity].
    + apply en_one. exists [txt "4E03"; txt "4E04"], (txt "(1)"). split; [discriminate|].
      split; [constructor; [unit_done|constructor; [unit_done|constructor]]|].
      split; [right; split; [discriminate|split; [exact Hd1|reflexivity]]|reflexivity].
Qed.
Lemma sample_file : file_3743 plain sample_3743 sample_events [(49, txt "20050331", None)].
Proof.
  change sample_events with ([] ++ [ERef "1" "Unicode 3.2 " (Some "the standard")] ++ [] ++ [] ++ (tl sample_events ++ [])).
  apply (f_line plain _ _ [] None _ [(49, txt "20050331", None)]).
  { apply l_empty. intros t H. apply states_only in H. vm_compute in H. discriminate. }
  apply (f_line plain _ _ [ERef "1" "Unicode 3.2 " (Some "the standard")] None _ [(49, txt "20050331", None)]).
  { exact sample_ref. }
  apply (f_line plain _ _ [] (Some (49, txt "20050331", None)) _ []).
  { apply (l_version plain _ (txt "Version 1 20050331")); [apply data_line_states; vm_compute; reflexivity|].
    exists [32], [32], [], []. split; [reflexivity|]. split; [unfold digit; lia|]. split; [repeat constructor|]. split; [discriminate|].
    split; [repeat constructor|]. split; [discriminate|]. split; [reflexivity|]. split; [|split; [constructor|reflexivity]].
    apply Forall_forall. intros x Hx. apply digit_is. revert x Hx. apply Forall_forall. repeat constructor. }
  apply (f_line plain _ _ [] None _ []).
  { apply (l_other plain _ (txt "Some text")); [apply data_line_states; vm_compute; reflexivity|].
    split; [|split; intro r; cbn; discriminate]. intros p rest n E Hu. destruct (unit_starts _ _ Hu) as [a [r [-> Ha]]].
    cbn in E. injection E as <- _. destruct Ha as [Ha|Ha]; vm_compute in Ha; discriminate. }
  apply (f_line plain _ _ (tl sample_events) None [] []); [|constructor].
  exact sample_row.
Qed.
Lemma misplaced_3743 :
  seen_at (st_lgr (fst (parse_3743 plain true true [txt "U+0061"; txt "U+0062 ;U+0063;"]))) [97] = Some ([([99], Some "activated")], []) /\
  seen_at (st_lgr (fst (parse_3743 plain true true [txt "U+0061"; txt "U+0062;U+0063;"]))) [97] = Some ([], []) /\
  snd (parse_3743 plain true true [txt "U+0062 ;U+0063;"]) = Unbound.
Proof. vm_compute. auto. Qed.
Lemma two_digits : forall d, d = txt "Reference 10 Unicode" ->
  rm_refs (lg_refs (st_lgr (fst (parse_3743 plain true true [d])))) = [] /\
  seen_at (st_lgr (fst (parse_3743 plain true true [d; txt "U+0061(10)"]))) [97] = Some ([], []).
Proof. intros d ->. vm_compute. auto. Qed.
Lemma glued : seen_at (st_lgr (fst (parse_3743 plain true true [txt "U+0061U+0062"]))) [6357090] = Some ([], []) /\
  seen_at (st_lgr (fst (parse_3743 plain true true [txt "U+0061U+0062"]))) [97; 98] = None.
Proof. vm_compute. auto. Qed.

(** ** The choice *)
Definition undecided : list cps := [txt "Reference 1 Unicode"; txt "U+0061(1)"; txt "U+0061 U+0062"].
Lemma undecided_read : find_parser false undecided = F4290 /\
  seen_at (fst (parse_4290 true true undecided)) [97] = Some ([], []) /\
  seen_at (fst (parse_4290 true true undecided)) [97; 98] = None /\
  seen_at (st_lgr (fst (parse_3743 plain true true undecided))) [97] = Some ([], ["1"]) /\
  seen_at (st_lgr (fst (parse_3743 plain true true undecided))) [97; 98] = Some ([], []).
Proof. vm_compute. auto 10. Qed.
