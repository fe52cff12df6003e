(** Reordering the lines of a label file; the pairs shown for one LGR. *)
From Coq Require Import Permutation.
From Verif Require Import Base BaseFacts UtilsModel AnnotateModel CollisionModel CollisionSpec CollisionProofs CollisionFinal CollisionDiff CollideModel CollideSpec CollideProofs CollideFinal CollideReport DiffRepModel DiffRepSpec DiffRepProofs.
Open Scope string_scope.
Open Scope list_scope.

Section Reading.
  Variable decode : cps -> res cps.
  Definition line_reads (x : cps) : list reading := match read_line decode false false x with Ok r => r | Raise _ => [] end.
  Lemma line_ok : forall x, read_line decode false false x = Ok [] \/ exists r, read_line decode false false x = Ok [r].
  Proof.
    assert (P : forall s, exists r, parse_label_input decode false false s = Ok r) by (intro s; unfold parse_label_input; destruct (parse_label decode false s); eexists; reflexivity).
    intro x. unfold read_line. destruct (before_hash (clean x)) as [[|p q]|]; [left; reflexivity| |]; (match goal with |- context [match ?m with [] => _ | _ => _ end] => destruct m as [|a b] eqn:Em end); try (left; reflexivity);
      right; match goal with |- context [parse_label_input decode false false ?m] => destruct (P m) as [r E]; rewrite E end; exists r; reflexivity.
  Qed.
  Lemma reads_flat : forall lines, fst (read_labels decode false false lines) = flat_map line_reads lines.
  Proof.
    induction lines as [|x lines IH]; [reflexivity|]. cbn [read_labels flat_map]. unfold line_reads at 1. destruct (line_ok x) as [E|[r E]]; rewrite E; rewrite <- IH; destruct (read_labels decode false false lines); reflexivity.
  Qed.
  (** The line gives the label [k]. *)
  Definition gives (k x : cps) : bool := existsb (fun r => rd_valid r && cps_eqb (rd_label r) k)%bool (line_reads x).
  Lemma gives_once : forall k k' x, gives k x = true -> gives k' x = true -> k = k'.
  Proof.
    intros k k' x. unfold gives, line_reads. destruct (line_ok x) as [E|[r E]]; rewrite E; cbn [existsb]; [discriminate|]. rewrite !Bool.orb_false_r, !Bool.andb_true_iff, !cps_eqb_eq. intros [_ H1] [_ H2]. congruence.
  Qed.
  Lemma gives_labels : forall k x, gives k x = true -> map rd_label (filter rd_valid (line_reads x)) = [k].
  Proof.
    intros k x. unfold gives, line_reads. destruct (line_ok x) as [E|[r E]]; rewrite E; cbn [existsb]; [discriminate|]. rewrite Bool.orb_false_r, Bool.andb_true_iff, cps_eqb_eq. intros [H1 H2]. cbn [filter]. rewrite H1. cbn. congruence.
  Qed.

  Lemma filter_split : forall {A} (f : A -> bool) l, Permutation l (filter f l ++ filter (fun x => negb (f x)) l).
  Proof.
    intros A f. induction l as [|x l IH]; [constructor|]. cbn [filter]. destruct (f x); cbn [negb app]; [constructor; exact IH|]. apply Permutation_cons_app. exact IH.
  Qed.
  Lemma filter_filter : forall {A} (f g : A -> bool) l, filter f (filter g l) = filter (fun x => f x && g x)%bool l.
  Proof. intros A f g. induction l as [|x l IH]; [reflexivity|]. cbn [filter]. destruct (g x) eqn:G; cbn [filter]; rewrite IH; destruct (f x); reflexivity. Qed.
  Definition rearranged (ks lines : list cps) : list cps :=
    flat_map (fun k => filter (gives k) lines) ks ++ filter (fun x => negb (existsb (fun k => gives k x) ks)) lines.
  Lemma rearranged_perm : forall ks lines, NoDup ks -> Permutation lines (rearranged ks lines).
  Proof.
    induction ks as [|k ks IH]; intros lines N.
    - unfold rearranged. cbn. clear N. induction lines as [|x lines IH]; [constructor|cbn; constructor; exact IH].
    - inversion N as [|? ? N1 N2]; subst. etransitivity; [apply (filter_split (gives k))|]. unfold rearranged. cbn [flat_map]. rewrite <- app_assoc. apply Permutation_app_head.
      etransitivity; [apply (IH _ N2)|]. unfold rearranged. apply Permutation_app.
      + assert (E : flat_map (fun k0 => filter (gives k0) (filter (fun x => negb (gives k x)) lines)) ks = flat_map (fun k0 => filter (gives k0) lines) ks).
        { clear -N1. induction ks as [|a ks IH]; [reflexivity|]. cbn [flat_map]. rewrite IH by (intro H; apply N1; right; exact H). f_equal. rewrite filter_filter. apply filter_ext_in. intros x _.
          destruct (gives a x) eqn:Ga; [|reflexivity]. destruct (gives k x) eqn:Gk; [|reflexivity]. exfalso. apply N1. left. apply (gives_once _ _ _ Ga Gk). }
        rewrite E. apply Permutation_refl.
      + rewrite filter_filter. erewrite filter_ext; [apply Permutation_refl|]. intro x. cbn [existsb]. rewrite Bool.negb_orb. apply Bool.andb_comm.
  Qed.
  Lemma dedup_app_seen : forall l m seen, (forall x, In x l -> In x seen) -> dedup_aux cps_eqb seen (l ++ m) = dedup_aux cps_eqb seen m.
  Proof.
    induction l as [|x l IH]; intros m seen H; [reflexivity|]. cbn [app dedup_aux]. rewrite (proj2 (memb_In _ _ cps_eqb_eq x seen)) by (apply H; left; reflexivity). apply IH. intros y Hy. apply H. right. exact Hy.
  Qed.
  Lemma dedup_runs : forall (f : cps -> list cps) ks seen, NoDup ks -> (forall k, In k ks -> ~ In k seen) -> (forall k, In k ks -> f k <> [] /\ forall x, In x (f k) -> x = k) ->
    dedup_aux cps_eqb seen (flat_map f ks) = ks.
  Proof.
    intros f ks. induction ks as [|k ks IH]; intros seen N Hs Hf; [reflexivity|]. inversion N as [|? ? N1 N2]; subst. cbn [flat_map]. destruct (Hf k (or_introl eq_refl)) as [F1 F2].
    destruct (f k) as [|y fs]; [congruence|]. assert (y = k) by (apply F2; left; reflexivity). subst y. cbn [app dedup_aux].
    destruct (memb cps_eqb k seen) eqn:M; [apply (memb_In _ _ cps_eqb_eq) in M; exfalso; apply (Hs k); [left; reflexivity|exact M]|]. f_equal.
    rewrite dedup_app_seen by (intros x Hx; left; symmetry; apply F2; right; exact Hx). apply IH; [exact N2| |].
    - intros x Hx [<-|K]; [contradiction|]. apply (Hs x); [right; exact Hx|exact K].
    - intros x Hx. apply Hf. right. exact Hx.
  Qed.
  Lemma rearranged_labels : forall ks lines, NoDup ks -> (forall k, In k ks <-> given decode lines k) ->
    valid_labels (fst (read_labels decode false false (rearranged ks lines))) = ks.
  Proof.
    intros ks lines N H. unfold valid_labels. rewrite reads_flat. unfold rearranged. rewrite flat_map_app, filter_app, map_app.
    assert (G : forall k, In k ks <-> exists x, In x lines /\ gives k x = true).
    { intro k. rewrite H. unfold given. rewrite reads_flat. split.
      - intros [r [R1 [R2 R3]]]. apply in_flat_map in R1. destruct R1 as [x [X1 X2]]. exists x. split; [exact X1|]. unfold gives. apply existsb_exists. exists r. split; [exact X2|]. rewrite R2. apply cps_eqb_eq. exact R3.
      - intros [x [X1 X2]]. unfold gives in X2. apply existsb_exists in X2. destruct X2 as [r [R1 R2]]. apply andb_prop in R2. destruct R2 as [R2 R3]. apply cps_eqb_eq in R3. exists r. split; [apply in_flat_map; eauto|auto]. }
    assert (Z : map rd_label (filter rd_valid (flat_map line_reads (filter (fun x => negb (existsb (fun k => gives k x) ks)) lines))) = []).
    { destruct (map _ _) as [|k m] eqn:E; [reflexivity|exfalso]. assert (K : In k (k :: m)) by (left; reflexivity). rewrite <- E in K. apply in_map_iff in K. destruct K as [r [R1 R2]]. apply filter_In in R2. destruct R2 as [R2 R3].
      apply in_flat_map in R2. destruct R2 as [x [X1 X2]]. apply filter_In in X1. destruct X1 as [X1 X3]. assert (Q : gives k x = true) by (unfold gives; apply existsb_exists; exists r; split; [exact X2|]; rewrite R3; apply cps_eqb_eq; exact R1).
      apply Bool.negb_true_iff in X3. assert (existsb (fun k => gives k x) ks = true); [|congruence]. apply existsb_exists. exists k. split; [apply G; eauto|exact Q]. }
    rewrite Z, app_nil_r.
    assert (E : map rd_label (filter rd_valid (flat_map line_reads (flat_map (fun k => filter (gives k) lines) ks))) = flat_map (fun k => map (fun _ => k) (filter (gives k) lines)) ks).
    { clear. induction ks as [|k ks IH]; [reflexivity|]. cbn [flat_map]. rewrite flat_map_app, filter_app, map_app, IH. f_equal. clear IH. induction lines as [|x lines IH2]; [reflexivity|]. cbn [filter]. destruct (gives k x) eqn:Q; [|exact IH2].
      cbn [flat_map map]. rewrite filter_app, map_app, (gives_labels _ _ Q). cbn [app]. f_equal. exact IH2. }
    rewrite E. unfold dedup. apply dedup_runs; [exact N|intros k _ []|]. intros k Hk. split.
    - apply G in Hk. destruct Hk as [x [X1 X2]]. intro K. assert (Y : In x (filter (gives k) lines)) by (apply filter_In; auto). destruct (filter (gives k) lines); [contradiction|discriminate].
    - intros y Hy. apply in_map_iff in Hy. destruct Hy as [x [<- _]]. reflexivity.
  Qed.
End Reading.

Section Pairs.
  Variable index : cps -> res cps.
  Variable listing : cps -> list cps -> list (cps * option string) * res unit.
  Variables labels gl : list cps.
  Hypothesis Hlab : NoDup labels.
  Hypothesis Hgl : forall l, In l labels <-> In l gl.
  Hypothesis Hob : obedient listing.
  Variables (quiet : bool) (t : ctable) (missing : list cps).
  Hypothesis Et : generate_indexes index listing labels [] true quiet [] = Ok (t, missing).

  Lemma nothing_same : forall x : cps, In x [] <-> In x [].
  Proof. reflexivity. Qed.
  Theorem shown_pairs : pairs_right index listing gl (complete_output labels [] t).
  Proof.
    destruct (table_kept index listing labels [] Hlab (NoDup_nil _) Hob true quiet t missing Et) as [_ [_ [T3 [T4 T5]]]].
    assert (Bs : forall i x, belongs index listing labels [] true i x <-> belongs index listing gl [] true i x) by (intros i x; apply (belongs_same _ _ _ _ _ _ Hgl nothing_same)).
    assert (Bk : forall i a, belongs index listing gl [] true i a -> exists es, In (i, es) t /\ In a (map ce_cp es)).
    { intros i a B. apply Bs in B. assert (Ki : In i (dkeys t)) by (apply T4; destruct B as [B|[_ [p [d [B _]]]]]; [exists a|exists p]; auto). unfold dkeys in Ki. apply in_map_iff in Ki. destruct Ki as [[j es] [Ej Hi]]. cbn [fst] in Ej. subst j.
      exists es. split; [exact Hi|]. apply (proj1 (proj2 (T5 i es Hi))). exact B. }
    assert (Key : forall i es es', In (i, es) t -> In (i, es') t -> es = es').
    { intros i es es' H1 H2. apply (In_dget _ cps_eqb_eq) in H1, H2; [congruence|exact T3|exact T3]. }
    unfold pairs_right. split; [|split; [|split; [|split]]].
    - unfold complete_output, headers. rewrite flat_map_app. fold (headers (flat_map (index_lines labels []) t)). rewrite body_headers. destruct (existsb _ t); cbn [flat_map]; rewrite app_nil_r; exact T3.
    - intro i. unfold complete_output, headers. rewrite flat_map_app. fold (headers (flat_map (index_lines labels []) t)). rewrite body_headers.
      assert (X : flat_map (fun x => match x with IndexHeader i => [i] | _ => [] end) (if existsb (fun q => Nat.ltb 1 (length (among labels (snd q)))) t then [] else [NoneHere]) = []) by (destruct (existsb _ t); reflexivity).
      rewrite X, app_nil_r, T4. unfold shown, has_index, subject. split.
      + intros [a [[[A|[]] B] _]]. exists a. rewrite <- Hgl. auto.
      + intros [a [A B]]. rewrite <- Hgl in A. exists a. auto.
    - intros pre post f a ca b cb Eo. unfold complete_output in Eo. apply split_right in Eo; [|destruct (existsb _ t); [intros []|intros [Q|[]]; discriminate]]. destruct Eo as [post2 [Eo _]].
      destruct (body_pair labels [] t _ _ _ _ _ _ _ Eo) as [i [es [ps [B1 [B2 [_ [_ [B3 [B4 [B5 B6]]]]]]]]]]. destruct (T5 i es B1) as [U1 [U2 [U3 _]]]. destruct (B6 U1) as [C1 [C2 [C3 [C4 C5]]]].
      assert (Lb : In b labels) by (destruct C4 as [C4|[]]; exact C4). pose proof (U3 a) as Ka. pose proof (U3 b) as Kb. rewrite <- B3 in Ka. rewrite <- B4 in Kb.
      exists i. split; [exact B2|]. split; [exact C5|]. split; [apply Hgl; exact C1|]. split; [apply Hgl; exact Lb|]. split; [apply Bs; apply U2; exact C2|]. split; [apply Bs; apply U2; exact C3|].
      split; [apply (kind_same _ _ _ _ _ Hgl nothing_same); exact Ka|]. split; [apply (kind_same _ _ _ _ _ Hgl nothing_same); exact Kb|].
      assert (NT : forall x c, kind_below index labels [] i x c -> is_tld c = false) by (intros x c [[_ [[_ ->]|[_ [[] _]]]]|[_ ->]]; reflexivity).
      rewrite B5, (NT a ca Ka), (NT b cb Kb). reflexivity.
    - intros i a b Hne La Lb Ba Bb. destruct (Bk i a Ba) as [es [Hi Ia]], (Bk i b Bb) as [es' [Hi' Ib]]. pose proof (Key _ _ _ Hi Hi') as E. subst es'. destruct (T5 i es Hi) as [U1 _].
      destruct (index_lines_pairs labels [] (i, es)) as [ps [Ei [_ [P2 _]]]]. cbn [fst snd] in *.
      assert (Ann : forall x y, In (x, y) ps -> exists pre post, last_index pre = Some i /\ complete_output labels [] t = pre ++ show_pair es (x, y) :: post).
      { intros x y Hxy. apply in_split in Hi. destruct Hi as [t1 [t2 E]]. apply in_split in Hxy. destruct Hxy as [p1 [p2 Ep]].
        exists (flat_map (index_lines labels []) t1 ++ IndexHeader i :: map (show_pair es) p1). eexists. split.
        - rewrite last_index_app. cbn [last_index]. assert (Z : last_index (map (show_pair es) p1) = None) by (clear; induction p1 as [|z p1 IH]; [reflexivity|]; cbn [map last_index]; rewrite IH; reflexivity).
          rewrite Z. reflexivity.
        - unfold complete_output. rewrite E at 1. rewrite flat_map_app. cbn [flat_map]. rewrite Ei, Ep, map_app. cbn [map]. repeat first [rewrite <- app_assoc | progress cbn [app]]. reflexivity. }
      rewrite <- Hgl in La, Lb.
      destruct (P2 U1 a b Hne) as [K|K]; [apply among_In; auto|apply among_In; auto| |];
        destruct (Ann _ _ K) as [pre [post [A1 A2]]]; exists pre, post; do 3 eexists; (split; [exact A1|]); [left|right]; exact A2.
    - rewrite none_iff. split; intros N [i K]; apply N.
      + destruct K as [a [b [Hne [La [Lb [Ba Bb]]]]]]. destruct (Bk i a Ba) as [es [Hi Ia]], (Bk i b Bb) as [es' [Hi' Ib]]. pose proof (Key _ _ _ Hi Hi') as E. subst es'. exists i, es. split; [exact Hi|].
        rewrite <- Hgl in La, Lb. assert (Ka : In a (among labels es)) by (apply among_In; auto). assert (Kb : In b (among labels es)) by (apply among_In; auto).
        destruct (among labels es) as [|x [|y l]]; cbn [length]; [contradiction| |lia]. destruct Ka as [<-|[]], Kb as [<-|[]]. congruence.
      + destruct K as [es [Hi L]]. destruct (T5 i es Hi) as [U1 [U2 _]]. assert (Na : NoDup (among labels es)) by (apply NoDup_filter; exact U1).
        pose proof (among_In labels es) as A. destruct (among labels es) as [|a [|b l]]; cbn [length] in L; [lia|lia|]. exists i, a, b. inversion Na as [|? ? N1 N2]; subst.
        pose proof (proj1 (A a) (or_introl eq_refl)) as [A1 A2]. pose proof (proj1 (A b) (or_intror (or_introl eq_refl))) as [B1 B2]. rewrite Hgl in A2, B2. rewrite U2, Bs in A1, B1.
        split; [intros ->; apply N1; left; reflexivity|]. auto.
  Qed.
End Pairs.
