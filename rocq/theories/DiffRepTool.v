(** What the report holds in any case; the tool; samples. *)
From Coq Require Import Permutation.
From Verif Require Import Base BaseFacts CharModel ActionModel LabelModel RepSpec RangeProofs LabelFinal AnnotateModel CollisionModel CollisionSpec CollisionProofs CollisionFinal CollisionDiff CollisionWitness CollideModel CollideSpec CollideProofs CollideFinal CollideReport CollideWitness DiffRepModel DiffRepSpec DiffRepProofs DiffRepLines DiffRepFinal.
Open Scope N_scope.
Open Scope string_scope.
Open Scope list_scope.

Lemma goes_on_all : forall (P : rline -> Prop) a b, Forall P (fst a) -> Forall P (fst b) -> Forall P (fst (goes_on a b)).
Proof. intros P [l [u|e]] b Ha Hb; cbn [goes_on fst]; [apply Forall_app; auto|exact Ha]. Qed.
Lemma in_turn_all : forall {A} (P : rline -> Prop) (f : A -> list rline * res unit) l, (forall x, Forall P (fst (f x))) -> Forall P (fst (in_turn f l)).
Proof. intros A P f l H. induction l as [|x l IH]; cbn [in_turn]; [constructor|]. apply goes_on_all; [apply H|exact IH]. Qed.
Lemma map_all : forall {A} (P : rline -> Prop) (f : A -> rline) l, (forall x, P (f x)) -> Forall P (map f l).
Proof. intros A P f l H. induction l; constructor; auto. Qed.

(** Lines of the comparison proper. *)
Definition comparing (x : rline) : Prop :=
  match x with RLabel _ | RDispositions | RChanged _ _ _ _ | RNoChange | RNumber | RAdded _ _ | RRemoved _ _ | RSameNumber => True | _ => False end.
Lemma compare_all : forall t1 t2 x, Forall comparing (fst (compare_lines t1 t2 x)).
Proof.
  intros t1 t2 [l [i1 i2]]. unfold compare_lines. cbn [fst snd]. apply goes_on_all; [repeat constructor|]. destruct (dget cps_eqb i2 t2) as [es2|]; [|constructor]. destruct (dget cps_eqb i1 t1) as [es1|]; [|constructor].
  apply goes_on_all; [|apply goes_on_all; [repeat constructor|]].
  - assert (C : Forall comparing (fst (changed_lines l es1 es2))).
    { unfold changed_lines. apply in_turn_all. intro q. destruct (compare_labels l (snd q) (fst q)) as [[[a b]|]|e]; repeat constructor. }
    unfold disposition_lines. destruct (changed_lines l es1 es2) as [[|y o] [u|e]]; cbn [fst] in *; try exact C; repeat constructor.
  - unfold number_lines, variant_number. apply goes_on_all; [apply in_turn_all; intro e; repeat constructor|]. apply goes_on_all; [apply in_turn_all; intro e; repeat constructor|].
    destruct (new_variants es2 es1), (new_variants es1 es2); repeat constructor.
Qed.
Lemma with_all : forall index1 index2 ls, Forall (fun x => match x with RNotIn _ _ => True | _ => False end) (fst (with_indexes index1 index2 ls)).
Proof.
  intros index1 index2. induction ls as [|l ls IH]; [constructor|]. cbn [with_indexes]. destruct (with_indexes index1 index2 ls) as [o d]. cbn [fst] in IH.
  destruct (index1 l) as [i1|e]; [|destruct e; cbn [fst]; repeat constructor; exact IH]. destruct (index2 l) as [i2|e]; [exact IH|destruct e; cbn [fst]; repeat constructor; exact IH].
Qed.
Lemma missing_all : forall m1 m2, Forall (fun x => match x with RMissingHeader _ | RMissing _ => True | _ => False end) (missing_lines m1 m2).
Proof.
  intros m1 m2. assert (K : Forall (fun x => match x with RMissingHeader _ | RMissing _ => True | _ => False end) (RMissingHeader false :: map RMissing m1 ++ RMissingHeader true :: map RMissing m2)).
  { constructor; [exact I|]. apply Forall_app. split; [apply map_all; intro; exact I|]. constructor; [exact I|]. apply map_all. intro. exact I. }
  unfold missing_lines. destruct m1, m2; try exact K. constructor.
Qed.

(** The lines that are no labels come first and are all shown, in any case. *)
Theorem refused_first : forall lower decode order index1 index2 listing1 listing2 lines show dump quiet out r,
  diff lower decode order index1 index2 listing1 listing2 lines show dump quiet = (out, r) ->
  exists rest, out = map (fun q => RBad (fst q) (snd q)) (refused_in decode lines) ++ rest /\ forall l e, ~ In (RBad l e) rest.
Proof.
  intros lower decode order index1 index2 listing1 listing2 lines show dump quiet out r H.
  assert (S : map (fun x => RBad (rd_label x) (rd_error x)) (filter (fun x => negb (rd_valid x)) (fst (read_labels decode false false lines))) = map (fun q => RBad (fst q) (snd q)) (refused_in decode lines)) by (unfold refused_in; rewrite map_map; reflexivity).
  unfold diff in H. rewrite S in H. destruct (generate_indexes index1 listing1 _ [] true quiet []) as [[t1 m1]|e]; [|injection H as <- _; exists []; rewrite app_nil_r; split; [reflexivity|intros l x []]].
  destruct (generate_indexes index2 listing2 _ [] true quiet []) as [[t2 m2]|e]; [|injection H as <- _; exists []; rewrite app_nil_r; split; [reflexivity|intros l x []]].
  set (L := order (valid_labels (fst (read_labels decode false false lines)))) in *. pose proof (with_all index1 index2 L) as W. destruct (with_indexes index1 index2 L) as [o d]. cbn [fst] in W.
  set (tl := match d with Raise e => ([], Raise e) | Ok d => goes_on (in_turn (compare_lines t1 t2) d) (if show then goes_on (collision_lines lower false dump L t1) (collision_lines lower true dump L t2) else ([], Ok tt)) end) in H.
  assert (T : Forall not_bad (fst tl)).
  { unfold tl. destruct d as [d|e]; [|constructor]. apply goes_on_all.
    - apply in_turn_all. intro x. eapply Forall_impl; [|apply compare_all]. intros y Hy. destruct y; try exact I; contradiction.
    - assert (Cn : forall b t, Forall not_bad (fst (collision_lines lower b dump L t))).
      { intros b t. unfold collision_lines. apply goes_on_all; [constructor; [exact I|]; apply map_all; intro; exact I|]. destruct dump; [|constructor]. apply goes_on_all; [repeat constructor|]. unfold found. cbn [fst]. apply map_all. intro. exact I. }
      destruct show; [apply goes_on_all; apply Cn|constructor]. }
  assert (B : Forall not_bad (missing_lines m1 m2 ++ RComparison :: o)).
  { apply Forall_app. split; [eapply Forall_impl; [|apply missing_all]; intros y Hy; destruct y; try exact I; contradiction|]. constructor; [exact I|]. eapply Forall_impl; [|exact W]. intros y Hy. destruct y; try exact I; contradiction. }
  assert (N : forall l, Forall not_bad l -> forall a e, ~ In (RBad a e) l) by (intros l F a e K; rewrite Forall_forall in F; exact (F _ K)).
  destruct d as [d|e]; cbn [bind goes_on] in H; injection H as <- _.
  - exists ((missing_lines m1 m2 ++ RComparison :: o) ++ fst tl). split; [rewrite <- app_assoc; reflexivity|]. apply N. apply Forall_app. auto.
  - exists (missing_lines m1 m2 ++ RComparison :: o). split; [reflexivity|]. apply N. exact B.
Qed.

(** When some label cannot be compared, no collision is shown. *)
Theorem nothing_found : forall lower decode order index1 index2 listing1 listing2 lines, reorders order ->
  obedient listing1 -> obedient listing2 -> shows_itself listing1 -> shows_itself listing2 ->
  forall gl, (forall l, In l gl <-> given decode lines l) ->
  forall l, in_both index1 index2 gl l -> ~ (agreeing gl index1 listing1 l /\ agreeing gl index2 listing2 l) ->
  forall show dump quiet out r, diff lower decode order index1 index2 listing1 listing2 lines show dump quiet = (out, r) ->
  r <> Ok tt /\ forall b x, ~ In (RCollisions b) out /\ ~ In (RFound x) out.
Proof.
  intros lower decode order index1 index2 listing1 listing2 lines Hor Ob1 Ob2 Self1 Self2 gl Hgl l Hl Hno show dump quiet out r H. split.
  - intros ->. assert (K : snd (diff lower decode order index1 index2 listing1 listing2 lines show dump quiet) = Ok tt) by (rewrite H; reflexivity).
    apply (report_completes lower decode order index1 index2 listing1 listing2 lines Hor Ob1 Ob2 Self1 Self2 gl Hgl) in K. destruct K as [_ [K _]]. apply Hno. apply K. exact Hl.
  - set (L := order (valid_labels (fst (read_labels decode false false lines)))).
    set (fine := fun x => match x with RCollisions _ | RFound _ => False | _ => True end).
    assert (F : Forall fine out).
    { assert (S : Forall fine (map (fun x => RBad (rd_label x) (rd_error x)) (filter (fun x => negb (rd_valid x)) (fst (read_labels decode false false lines))))) by (apply map_all; intro; exact I).
      destruct (generate_indexes index1 listing1 L [] true quiet []) as [[t1 m1]|e] eqn:E1; [|unfold diff in H; fold L in H; rewrite E1 in H; injection H as <- _; exact S].
      destruct (generate_indexes index2 listing2 L [] true quiet []) as [[t2 m2]|e] eqn:E2; [|unfold diff in H; fold L in H; rewrite E1, E2 in H; injection H as <- _; exact S].
      destruct (tables_out lower decode order index1 index2 listing1 listing2 lines Hor Ob1 Ob2 quiet t1 t2 m1 m2 E1 E2 show dump) as [_ [T _]]. rewrite H in T. fold L in T.
      assert (Q : snd (in_turn (compare_lines t1 t2) (flat_map (ds index1 index2) L)) <> Ok tt).
      { intro K. apply Hno. rewrite in_turn_snd in K. destruct Hl as [H1 [[i1 H2] [i2 H3]]].
        assert (HL : In l L) by (apply (L_given decode order lines Hor); apply Hgl; exact H1).
        apply (label_done decode order index1 index2 listing1 listing2 lines Hor Ob1 Ob2 Self1 Self2 gl Hgl quiet t1 t2 m1 m2 E1 E2 l i1 i2 HL H2 H3). apply K.
        apply (ds_In decode order index1 index2 lines l i1 i2). auto. }
      assert (Fo : out = fst (goes_on (map (fun x => RBad (rd_label x) (rd_error x)) (filter (fun x => negb (rd_valid x)) (fst (read_labels decode false false lines))) ++ missing_lines m1 m2 ++ RComparison :: map (fun q => RNotIn (fst q) (snd q)) (flat_map (ns index1 index2) L), Ok tt)
          (in_turn (compare_lines t1 t2) (flat_map (ds index1 index2) L)))).
      { apply (f_equal fst) in T. cbn [fst] in T. rewrite T. cbn [goes_on fst]. f_equal. destruct (in_turn (compare_lines t1 t2) (flat_map (ds index1 index2) L)) as [o [[]|e]]; [cbn [snd] in Q; congruence|reflexivity]. }
      rewrite Fo. apply goes_on_all.
      - cbn [fst]. apply Forall_app. split; [exact S|]. apply Forall_app. split; [eapply Forall_impl; [|apply missing_all]; intros y Hy; destruct y; try exact I; contradiction|]. constructor; [exact I|]. apply map_all. intro. exact I.
      - apply in_turn_all. intro x. eapply Forall_impl; [|apply compare_all]. intros y Hy. destruct y; try exact I; contradiction. }
    rewrite Forall_forall in F. intros b x. split; intro K; exact (F _ K).
Qed.

(** An LGR compared with itself. *)
Theorem same_lgr : forall lower decode order index listing lines, reorders order -> obedient listing -> shows_itself listing ->
  forall show dump quiet out, diff lower decode order index index listing listing lines show dump quiet = (out, Ok tt) ->
  (forall c v b a, ~ In (RChanged c v b a) out) /\ (forall c v, ~ In (RAdded c v) out /\ ~ In (RRemoved c v) out).
Proof.
  intros lower decode order index listing lines Hor Ob Self show dump quiet out H. set (gl := order (valid_labels (fst (read_labels decode false false lines)))).
  assert (Hgl : forall l, In l gl <-> given decode lines l) by (exact (L_given decode order lines Hor)).
  destruct (report_made lower decode order index index listing listing lines Hor Ob Ob Self Self gl Hgl show dump quiet out H) as [m1 [m2 [n [ls [say [s1 [d1 [s2 [d2 [E [_ [_ [_ [_ [R _]]]]]]]]]]]]]]].
  set (fine := fun x => match x with RChanged _ _ _ _ | RAdded _ _ | RRemoved _ _ => False | _ => True end).
  assert (F : Forall fine out).
  { rewrite E. apply Forall_app. split; [apply map_all; intro; exact I|]. apply Forall_app. split.
    - unfold missing_part. destruct (_ && _)%bool; [constructor|]. constructor; [exact I|]. apply Forall_app. split; [apply map_all; intro; exact I|]. constructor; [exact I|]. apply map_all. intro. exact I.
    - constructor; [exact I|]. apply Forall_app. split; [apply map_all; intro; exact I|]. apply Forall_app. split.
      + apply Forall_forall. intros x Hx. apply in_flat_map in Hx. destruct Hx as [l [Hl Hx]]. destruct (R l Hl) as [_ [_ [_ [R1 [R2 R3]]]]].
        assert (Z1 : sa_changed (say l) = []) by (destruct (sa_changed (say l)) as [|[[[c v] b] a] q]; [reflexivity|exfalso]; destruct (proj1 (R1 c v b a) (or_introl eq_refl)) as [A1 [A2 [A3 _]]]; apply A3;
          assert (D1 : dget cps_eqb v (fst (listing l [])) = Some a) by (apply (In_dget _ cps_eqb_eq); [apply Ob|exact A1]); assert (D2 : dget cps_eqb v (fst (listing l [])) = Some b) by (apply (In_dget _ cps_eqb_eq); [apply Ob|exact A2]); congruence).
        assert (Z2 : sa_added (say l) = []) by (destruct (sa_added (say l)) as [|[c v] q]; [reflexivity|exfalso]; destruct (proj1 (R2 c v) (or_introl eq_refl)) as [A1 [A2 _]]; contradiction).
        assert (Z3 : sa_removed (say l) = []) by (destruct (sa_removed (say l)) as [|[c v] q]; [reflexivity|exfalso]; destruct (proj1 (R3 c v) (or_introl eq_refl)) as [A1 [A2 _]]; contradiction).
        unfold block in Hx. rewrite Z1, Z2, Z3 in Hx. cbn in Hx. repeat (destruct Hx as [<-|Hx]; [exact I|]). contradiction.
      + destruct show; [|constructor]. assert (C : forall b s d, Forall fine (collision_part b dump s d)).
        { intros b s d. unfold collision_part. constructor; [exact I|]. apply Forall_app. split; [apply map_all; intro; exact I|]. destruct dump; [|constructor]. constructor; [exact I|]. apply map_all. intro. exact I. }
        apply Forall_app. split; apply C. }
  rewrite Forall_forall in F. split; [intros c v b a K; exact (F _ K)|]. intros c v. split; intro K; exact (F _ K).
Qed.

(** What the tool does with what was read. *)
Theorem tool_cases : forall lower order lines generate no_rules,
  (forall a b, diff_tool lower order (Ok (Some a)) (Some (Ok (Some b))) lines generate no_rules =
     (map TDiff (fst (diff lower (dl_decode a) order (dl_index a) (dl_index b) (dl_listing a) (dl_listing b) lines true generate no_rules)),
      snd (diff lower (dl_decode a) order (dl_index a) (dl_index b) (dl_listing a) (dl_listing b) lines true generate no_rules))) /\
  (forall a, diff_tool lower order (Ok (Some a)) None lines generate no_rules =
     (TOnlyCollisions :: map TCollision (fst (collision lower (dl_decode a) (dl_index a) (dl_listing a) order lines None generate no_rules)),
      snd (collision lower (dl_decode a) (dl_index a) (dl_listing a) order lines None generate no_rules))) /\
  (forall second, (forall e, second <> Some (Raise e)) -> exists o, diff_tool lower order (Ok None) second lines generate no_rules = (o ++ [TRefused false], Ok tt) /\ (forall x, In x o -> x = TOnlyCollisions)) /\
  (forall a, diff_tool lower order (Ok (Some a)) (Some (Ok None)) lines generate no_rules = ([TRefused true], Ok tt)) /\
  (forall e second, diff_tool lower order (Raise e) second lines generate no_rules = ([], Raise e)) /\
  (forall first e, diff_tool lower order (Ok first) (Some (Raise e)) lines generate no_rules = ([], Raise e)).
Proof.
  intros lower order lines generate no_rules. unfold diff_tool. split; [|split; [|split; [|split; [|split]]]]; try reflexivity.
  - intros a b. destruct (diff _ _ _ _ _ _ _ _ _ _ _) as [o r]. reflexivity.
  - intro a. destruct (collision _ _ _ _ _ _ _ _ _) as [o r]. reflexivity.
  - intros [[[b|]|e]|] H; [exists []|exists []|exfalso; exact (H e eq_refl)|exists [TOnlyCollisions]]; (split; [reflexivity|]); cbn; intuition.
Qed.

(** ** Samples *)
(** The first LGR without the variants of the last letter, and with another letter. *)
Definition less_ops := [addc [97]; addc [98]; addc [99]; addc [100]; addc [120]; addv [97] [98] (Some "blocked"); addv [98] [97] (Some "blocked")].
Definition less_index := index_of no_rules (built less_ops) 5.
Definition less_listing := listing_of no_rules (built less_ops) [] (fun _ => "Latin").
Definition two_lines : list cps := [[97; 100]; [98; 100]; [120]; [85; 43; 122]; [122]].
Definition two_report (show : bool) := diff as_is no_decode as_given sample_index less_index sample_listing less_listing two_lines true show true.
Lemma two_shown : exists out, two_report true = (out, Ok tt) /\
  In (RChanged CPrimary [97; 100] (Some "blocked") (Some "valid")) out /\ In (RRemoved CVariant [99; 100]) out /\
  In (RNotIn false [120]) out /\ In (RFound (Pair false [97; 100] CPrimary [98; 100] CPrimary)) out.
Proof. eexists. split; [vm_compute; reflexivity|]. cbn; tauto. Qed.
Lemma collisions_lost : exists lines e, snd (collision as_is no_decode lop_index lop_listing as_given lines None false true) = Ok tt /\
  (exists out, collision as_is no_decode sample_index sample_listing as_given lines None true true = (out, Ok tt) /\ exists f a ca b cb, In (Pair f a ca b cb) out) /\
  exists out, diff as_is no_decode as_given lop_index sample_index lop_listing sample_listing lines true true true = (out, Raise e) /\ forall b x, ~ In (RCollisions b) out /\ ~ In (RFound x) out.
Proof.
  exists [[97]; [98]], LGRException. split; [vm_compute; reflexivity|]. split.
  - eexists. split; [vm_compute; reflexivity|]. exists false, [97], CPrimary, [98], CPrimary. cbn. tauto.
  - eexists. split; [vm_compute; reflexivity|]. intros b x. cbn. intuition discriminate.
Qed.
