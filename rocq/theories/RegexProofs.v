(** Facts on the pattern language: what the searches of [RuleModel] find, and
    how pieces of pattern are read. *)
From Verif Require Import Base BaseFacts ClassModel RuleModel.
Open Scope list_scope.
Open Scope nat_scope.

Fixpoint iter (R : nat -> nat -> Prop) (n : nat) (i j : nat) : Prop :=
  match n with O => i = j | S n' => exists m, R i m /\ iter R n' m j end.

Lemma iter_ext : forall (R R' : nat -> nat -> Prop) (D : nat -> Prop), (forall i j, D i -> (R i j <-> R' i j)) -> (forall i j, D i -> R i j -> D j) ->
  forall n i j, D i -> (iter R n i j <-> iter R' n i j).
Proof.
  intros R R' D HE HD. induction n as [|n IH]; intros i j Hi; [reflexivity|].
  cbn [iter]. split.
  - intros [m [H1 H2]]. exists m. split; [apply HE; auto|]. apply IH; [eapply HD; eauto|exact H2].
  - intros [m [H1 H2]]. assert (H1' : R i m) by (apply HE; auto). exists m. split; [exact H1'|]. apply IH; [eapply HD; eauto|exact H2].
Qed.
Lemma iter_one : forall (R : nat -> nat -> Prop) i j, iter R 1 i j <-> R i j.
Proof. intros R i j. cbn. split; [intros [m [H1 H2]]; subst; exact H1|intro H; exists j; auto]. Qed.

(** Repetitions that make no progress can be left out. *)
Lemma pump : forall (R : nat -> nat -> Prop) (D : nat -> Prop), (forall i j, D i -> R i j -> i <= j /\ D j) ->
  forall k lo i j, D i -> lo <= k -> iter R k i j -> i <= j /\ D j /\ exists k', lo <= k' /\ k' <= k /\ k' <= Nat.max lo (j - i) /\ iter R k' i j.
Proof.
  intros R D HR. induction k as [|k IH]; intros lo i j Hi Hlo H.
  - cbn in H. subst j. split; [lia|]. split; [exact Hi|]. exists 0. cbn. repeat split; lia.
  - cbn [iter] in H. destruct H as [m [H1 H2]]. destruct (HR i m Hi H1) as [Him Hm].
    destruct (Nat.eq_dec m i) as [E|E].
    + subst m. destruct (Nat.eq_dec lo (S k)) as [E2|E2].
      * destruct (IH k i j Hi (le_n _) H2) as [A [B [k' [C1 [C2 [C3 C4]]]]]].
        split; [exact A|]. split; [exact B|]. exists (S k). subst lo. split; [lia|]. split; [lia|]. split; [lia|]. exists i. auto.
      * destruct (IH lo i j Hi ltac:(lia) H2) as [A [B [k' [C1 [C2 [C3 C4]]]]]].
        split; [exact A|]. split; [exact B|]. exists k'. repeat split; try lia. exact C4.
    + destruct (IH (lo - 1) m j Hm ltac:(lia) H2) as [A [B [k' [C1 [C2 [C3 C4]]]]]].
      split; [lia|]. split; [exact B|]. exists (S k'). split; [lia|]. split; [lia|]. split; [lia|]. exists m. auto.
Qed.

Section Search.
  Variable w : cps.
  Notation n := (length w).
  Lemma positions_In : forall k, In k (positions w) <-> k <= n.
  Proof. intro k. unfold positions. rewrite in_seq. lia. Qed.
  Lemma exists_position : forall (f : nat -> bool), existsb f (positions w) = true <-> exists k, k <= n /\ f k = true.
  Proof. intro f. rewrite existsb_exists. split; intros [k [H1 H2]]; exists k; [rewrite positions_In in H1|rewrite positions_In]; auto. Qed.
  Lemma times_iff : forall (one : nat -> nat -> bool), (forall i j, i <= n -> one i j = true -> i <= j <= n) ->
    forall k i j, i <= n -> (times w one k i j = true <-> iter (fun a b => one a b = true) k i j).
  Proof.
    intros one Hone. induction k as [|k IH]; intros i j Hi.
    - cbn. apply Nat.eqb_eq.
    - cbn [times iter]. rewrite exists_position. split.
      + intros [m [Hm H]]. apply Bool.andb_true_iff in H. destruct H as [H1 H2]. exists m. split; [exact H1|]. apply IH; assumption.
      + intros [m [H1 H2]]. pose proof (Hone _ _ Hi H1) as [_ Hm]. exists m. split; [exact Hm|]. apply Bool.andb_true_iff. split; [exact H1|]. apply IH; assumption.
  Qed.
  Lemma nth_lt : forall i x, nth_error w i = Some x -> i < n.
  Proof. intros i x H. apply nth_error_Some. congruence. Qed.

  Lemma mat_range : forall r i j, i <= n -> mat w r i j = true -> i <= j <= n.
  Proof.
    induction r as [ | | |c|s| |a IHa b IHb|a IHa b IHb|a IHa lo hi|a IHa|a IHa]; intros i j Hi H; cbn [mat] in H.
    - apply Bool.andb_true_iff in H. destruct H as [_ H]. apply Nat.eqb_eq in H. lia.
    - apply Bool.andb_true_iff in H. destruct H as [_ H]. apply Nat.eqb_eq in H. lia.
    - destruct (nth_error w i) eqn:E; [|discriminate]. apply nth_lt in E. apply Nat.eqb_eq in H. lia.
    - destruct (nth_error w i) eqn:E; [|discriminate]. apply nth_lt in E. apply Bool.andb_true_iff in H. destruct H as [_ H]. apply Nat.eqb_eq in H. lia.
    - destruct (nth_error w i) eqn:E; [|discriminate]. apply nth_lt in E. apply Bool.andb_true_iff in H. destruct H as [_ H]. apply Nat.eqb_eq in H. lia.
    - apply Nat.eqb_eq in H. lia.
    - apply exists_position in H. destruct H as [k [Hk H]]. apply Bool.andb_true_iff in H. destruct H as [H1 H2].
      specialize (IHa _ _ Hi H1). specialize (IHb _ _ Hk H2). lia.
    - apply Bool.orb_true_iff in H. destruct H as [H|H]; auto.
    - apply existsb_exists in H. destruct H as [k [_ H]]. apply (times_iff _ IHa) in H; [|exact Hi].
      destruct (pump _ (fun x => x <= n) (fun i' j' Hi' H' => IHa i' j' Hi' H') k 0 i j Hi ltac:(lia) H) as [A [B _]]. lia.
    - apply Bool.andb_true_iff in H. destruct H as [H _]. apply Nat.eqb_eq in H. lia.
    - apply Bool.andb_true_iff in H. destruct H as [H _]. apply Nat.eqb_eq in H. lia.
  Qed.

  Lemma mat_cat : forall a b i j, i <= n -> (mat w (RCat a b) i j = true <-> exists k, mat w a i k = true /\ mat w b k j = true).
  Proof.
    intros a b i j Hi. cbn [mat]. rewrite exists_position. split.
    - intros [k [Hk H]]. apply Bool.andb_true_iff in H. exists k. exact H.
    - intros [k [H1 H2]]. exists k. split; [exact (proj2 (mat_range _ _ _ Hi H1))|]. apply Bool.andb_true_iff. auto.
  Qed.
  Lemma mat_rep : forall a lo hi i j, i <= n -> match hi with Some h => lo <= h | None => True end ->
    (mat w (RRep a lo hi) i j = true <-> exists k, lo <= k /\ match hi with Some h => k <= h | None => True end /\ iter (fun x y => mat w a x y = true) k i j).
  Proof.
    intros a lo hi i j Hi Hb. cbn [mat]. rewrite existsb_exists. split.
    - intros [k [Hk H]]. rewrite in_seq in Hk. apply (times_iff _ (mat_range a)) in H; [|exact Hi].
      exists k. split; [lia|]. split; [|exact H]. destruct hi as [h|]; [lia|exact I].
    - intros [k [H1 [H2 H3]]].
      destruct (pump _ (fun x => x <= n) (fun i' j' Hi' H' => mat_range a i' j' Hi' H') k lo i j Hi H1 H3) as [A [B [k' [C1 [C2 [C3 C4]]]]]].
      exists k'. split.
      + rewrite in_seq. destruct hi as [h|]; lia.
      + apply (times_iff _ (mat_range a)); assumption.
  Qed.
  Lemma mat_ahead : forall a i j, i <= n -> (mat w (RAhead a) i j = true <-> i = j /\ exists k, mat w a i k = true).
  Proof.
    intros a i j Hi. change (mat w (RAhead a) i j) with (Nat.eqb i j && existsb (fun k => mat w a i k) (positions w))%bool. rewrite Bool.andb_true_iff, Nat.eqb_eq, exists_position. split; intros [E H]; (split; [exact E|]).
    - destruct H as [k [_ H]]. exists k. exact H.
    - destruct H as [k H]. exists k. split; [exact (proj2 (mat_range _ _ _ Hi H))|exact H].
  Qed.
  Lemma mat_behind : forall a i j, mat w (RBehind a) i j = true <-> i = j /\ exists k, k <= n /\ mat w a k i = true.
  Proof. intros a i j. change (mat w (RBehind a) i j) with (Nat.eqb i j && existsb (fun k => mat w a k i) (positions w))%bool. rewrite Bool.andb_true_iff, Nat.eqb_eq, exists_position. reflexivity. Qed.

  Lemma rcat_app : forall a b i j, i <= n -> (mat w (rcat (a ++ b)) i j = true <-> exists k, mat w (rcat a) i k = true /\ mat w (rcat b) k j = true).
  Proof.
    induction a as [|x a IH]; intros b i j Hi.
    - cbn [app]. split.
      + intro H. exists i. split; [apply Nat.eqb_refl|exact H].
      + intros [k [H1 H2]]. apply Nat.eqb_eq in H1. subst k. exact H2.
    - change (rcat ((x :: a) ++ b)) with (RCat x (rcat (a ++ b))). change (rcat (x :: a)) with (RCat x (rcat a)).
      rewrite mat_cat by exact Hi. split.
      + intros [k [H1 H2]]. pose proof (proj2 (mat_range _ _ _ Hi H1)) as Hk. apply IH in H2; [|exact Hk]. destruct H2 as [m [H2 H3]].
        exists m. split; [|exact H3]. apply mat_cat; [exact Hi|]. exists k. auto.
      + intros [k [H1 H2]]. apply mat_cat in H1; [|exact Hi]. destruct H1 as [m [H1 H3]]. exists m. split; [exact H1|].
        apply IH; [exact (proj2 (mat_range _ _ _ Hi H1))|]. exists k. auto.
  Qed.
  Lemma rcat_one : forall x i j, i <= n -> (mat w (rcat [x]) i j = true <-> mat w x i j = true).
  Proof.
    intros x i j Hi. change (rcat [x]) with (RCat x REmpty). rewrite mat_cat by exact Hi. split.
    - intros [k [H1 H2]]. apply Nat.eqb_eq in H2. subst k. exact H1.
    - intro H. exists j. split; [exact H|]. apply Nat.eqb_refl.
  Qed.
  Lemma rcat_chars : forall l i j, i <= n -> (mat w (rcat (map RChar l)) i j = true <-> (forall p c, nth_error l p = Some c -> nth_error w (i + p) = Some c) /\ j = i + length l).
  Proof.
    induction l as [|c l IH]; intros i j Hi.
    - cbn. rewrite Nat.eqb_eq. split; [intro; subst; split; [intros [|p] c' H; discriminate|lia]|intros [_ H]; lia].
    - cbn [map]. change (rcat (RChar c :: map RChar l)) with (RCat (RChar c) (rcat (map RChar l))). rewrite mat_cat by exact Hi. split.
      + intros [k [H1 H2]]. pose proof (proj2 (mat_range _ _ _ Hi H1)) as Hk. apply IH in H2; [|exact Hk]. destruct H2 as [H2 H3].
        cbn [mat] in H1. destruct (nth_error w i) as [x|] eqn:E; [|discriminate]. apply Bool.andb_true_iff in H1. destruct H1 as [Hx Hk2].
        apply N.eqb_eq in Hx. apply Nat.eqb_eq in Hk2. subst x k. split; [|cbn [length]; lia].
        intros [|p] c' Hc.
        * cbn in Hc. injection Hc as Hc. subst c'. rewrite Nat.add_0_r. exact E.
        * cbn in Hc. replace (i + S p) with (S i + p) by lia. apply H2. exact Hc.
      + intros [H1 H2]. pose proof (H1 0 c eq_refl) as Hc. rewrite Nat.add_0_r in Hc. pose proof (nth_lt _ _ Hc) as Hlt.
        exists (S i). split.
        * cbn [mat]. rewrite Hc, N.eqb_refl, Nat.eqb_refl. reflexivity.
        * apply IH; [lia|]. split; [|cbn [length] in H2; lia]. intros p c' Hc'. replace (S i + p) with (i + S p) by lia. apply H1. exact Hc'.
  Qed.

  Lemma find_seq : forall (f : nat -> bool) len a,
    match find f (seq a len) with
    | Some i => a <= i < a + len /\ f i = true /\ forall i', a <= i' < i -> f i' = false
    | None => forall i, a <= i < a + len -> f i = false
    end.
  Proof.
    intros f. induction len as [|len IH]; intro a; cbn [seq find].
    - intros i Hi. lia.
    - destruct (f a) eqn:E.
      + split; [lia|]. split; [exact E|]. intros i' Hi'. lia.
      + specialize (IH (S a)). destruct (find f (seq (S a) len)) as [i|].
        * destruct IH as [H1 [H2 H3]]. split; [lia|]. split; [exact H2|]. intros i' Hi'. destruct (Nat.eq_dec i' a) as [->|Hne]; [exact E|]. apply H3. lia.
        * intros i Hi. destruct (Nat.eq_dec i a) as [->|Hne]; [exact E|]. apply IH. lia.
  Qed.
  Lemma search_spec : forall r index,
    match search w r index with
    | Some i => index <= i <= n /\ (exists j, mat w r i j = true) /\ forall i', index <= i' < i -> forall j, mat w r i' j = false
    | None => forall i, index <= i <= n -> forall j, mat w r i j = false
    end.
  Proof.
    intros r index. unfold search. pose proof (find_seq (fun i => existsb (mat w r i) (positions w)) (S n - index) index) as H.
    assert (Hfalse : forall i, i <= n -> existsb (mat w r i) (positions w) = false -> forall j, mat w r i j = false).
    { intros i Hi Hf j. destruct (mat w r i j) eqn:E; [|reflexivity]. exfalso.
      assert (existsb (mat w r i) (positions w) = true); [|congruence]. apply exists_position. exists j. split; [exact (proj2 (mat_range _ _ _ Hi E))|exact E]. }
    destruct (find _ _) as [i|].
    - destruct H as [H1 [H2 H3]]. split; [lia|]. split.
      + apply exists_position in H2. destruct H2 as [j [_ H2]]. exists j. exact H2.
      + intros i' Hi' j. apply Hfalse; [lia|]. apply H3. exact Hi'.
    - intros i Hi j. apply Hfalse; [lia|]. apply H. lia.
  Qed.
End Search.

(** Reading patterns. *)
Inductive reads : list token -> list regex -> Prop :=
| reads_nil : reads [] []
| reads_app : forall p l p' l', reads p l -> reads p' l' -> reads (p ++ p') (l ++ l')
| reads_start : reads [TStart] [RStart]
| reads_end : reads [TEnd] [REnd]
| reads_dot : reads [TDot] [RDot]
| reads_char : forall c, reads [TChar c] [RChar c]
| reads_set : forall s, reads [TSet s] [RSet s]
| reads_group : forall o p r, o = TOpen \/ o = TOpenNC -> reads_alts p r -> reads (o :: p ++ [TClose]) [r]
| reads_count : forall p x lo hi, reads p [x] -> match hi with Some h => lo <= h | None => True end -> reads (p ++ [TCount lo hi]) [RRep x lo hi]
| reads_ahead : forall p r, reads_alts p r -> reads (TAhead :: p ++ [TClose]) [RAhead r]
| reads_behind : forall p r, reads_alts p r -> longest r <> None -> reads (TBehind :: p ++ [TClose]) [RBehind r]
with reads_alts : list token -> regex -> Prop :=
| reads_one : forall p l, reads p l -> reads_alts p (rcat l)
| reads_more : forall p l q r, reads p l -> reads_alts q r -> reads_alts (p ++ TBar :: q) (RAlt (rcat l) r).
Scheme reads_mut := Induction for reads Sort Prop with reads_alts_mut := Induction for reads_alts Sort Prop.
Combined Scheme reads_both from reads_mut, reads_alts_mut.

Lemma parse_reads :
  (forall p l, reads p l -> forall rest kd al cur st, parse (p ++ rest) (mkFrame kd al cur) st = parse rest (mkFrame kd al (rev l ++ cur)) st) /\
  (forall p r, reads_alts p r -> forall rest kd al st, exists al' cur', parse (p ++ rest) (mkFrame kd al []) st = parse rest (mkFrame kd al' cur') st /\
     close_alts (mkFrame kd al' cur') = fold_left (fun acc a => RAlt a acc) al r).
Proof.
  apply (reads_both (fun p l _ => forall rest kd al cur st, parse (p ++ rest) (mkFrame kd al cur) st = parse rest (mkFrame kd al (rev l ++ cur)) st)
    (fun p r _ => forall rest kd al st, exists al' cur', parse (p ++ rest) (mkFrame kd al []) st = parse rest (mkFrame kd al' cur') st /\
     close_alts (mkFrame kd al' cur') = fold_left (fun acc a => RAlt a acc) al r)); try (intros; reflexivity).
  - intros p l p' l' _ IH1 _ IH2 rest kd al cur st. rewrite <- app_assoc, IH1, IH2, rev_app_distr, app_assoc. reflexivity.
  - intros o p r Ho _ IH rest kd al cur st.
    assert (HE : parse ((o :: p ++ [TClose]) ++ rest) (mkFrame kd al cur) st = parse (p ++ TClose :: rest) (mkFrame GPlain [] []) (mkFrame kd al cur :: st)).
    { rewrite <- app_comm_cons, <- app_assoc. destruct Ho; subst o; reflexivity. }
    rewrite HE. destruct (IH (TClose :: rest) GPlain [] (mkFrame kd al cur :: st)) as [al' [cur' [E1 E2]]].
    rewrite E1. cbn [parse close f_kind]. rewrite E2. reflexivity.
  - intros p x lo hi _ IH Hb rest kd al cur st. rewrite <- app_assoc, IH. cbn [app parse f_cur f_kind f_alts rev].
    destruct hi as [h|]; [|reflexivity]. destruct (Nat.leb_spec lo h); [reflexivity|lia].
  - intros p r _ IH rest kd al cur st.
    change ((TAhead :: p ++ [TClose]) ++ rest) with (TAhead :: (p ++ [TClose]) ++ rest). rewrite <- app_assoc. cbn [parse].
    destruct (IH (TClose :: rest) GAhead [] (mkFrame kd al cur :: st)) as [al' [cur' [E1 E2]]].
    change ([TClose] ++ rest) with (TClose :: rest). rewrite E1. cbn [parse close f_kind]. rewrite E2. reflexivity.
  - intros p r _ IH Hb rest kd al cur st.
    change ((TBehind :: p ++ [TClose]) ++ rest) with (TBehind :: (p ++ [TClose]) ++ rest). rewrite <- app_assoc. cbn [parse].
    destruct (IH (TClose :: rest) GBehind [] (mkFrame kd al cur :: st)) as [al' [cur' [E1 E2]]].
    change ([TClose] ++ rest) with (TClose :: rest). rewrite E1. cbn [parse close f_kind]. rewrite E2. cbn [fold_left].
    destruct (longest r); [reflexivity|congruence].
  - intros p l _ IH rest kd al st. exists al, (rev l ++ []). split; [apply IH|].
    unfold close_alts. cbn [f_alts f_cur]. rewrite app_nil_r, rev_involutive. reflexivity.
  - intros p l q r _ IH1 _ IH2 rest kd al st. rewrite <- app_assoc, IH1. rewrite <- app_comm_cons. cbn [parse f_kind f_cur f_alts].
    rewrite app_nil_r, rev_involutive.
    destruct (IH2 rest kd (rcat l :: al) st) as [al' [cur' [E1 E2]]]. exists al', cur'. split; [exact E1|]. rewrite E2. reflexivity.
Qed.
Lemma parse_whole : forall p l, reads p l -> parse p (mkFrame GPlain [] []) [] = Some (rcat l).
Proof.
  intros p l H. pose proof (proj1 parse_reads p l H [] GPlain [] [] []) as E. rewrite app_nil_r in E. rewrite E. cbn [parse].
  unfold close_alts. cbn [f_alts f_cur fold_left]. rewrite app_nil_r, rev_involutive. reflexivity.
Qed.

Lemma reads_chars : forall l, reads (map TChar l) (map RChar l).
Proof. induction l as [|c l IH]; [constructor|]. exact (reads_app [TChar c] [RChar c] _ _ (reads_char c) IH). Qed.
Definition finite (r : regex) : Prop := longest r <> None.
Lemma rcat_finite : forall l, Forall finite l -> finite (rcat l).
Proof.
  induction 1 as [|x l Hx Hl IH]; [discriminate|]. unfold finite in *. change (rcat (x :: l)) with (RCat x (rcat l)). cbn [longest].
  destruct (longest x), (longest (rcat l)); congruence.
Qed.

Lemma fill_app : forall a p q, fill a (p ++ q) = fill a p ++ fill a q.
Proof. intros. unfold fill. apply flat_map_app. Qed.
Lemma fill_none : forall a p, existsb is_anchor p = false -> fill a p = p.
Proof. induction p as [|t p IH]; intro H; [reflexivity|]. cbn [existsb] in H. apply Bool.orb_false_iff in H. destruct H as [H1 H2]. unfold fill in *. cbn [flat_map]. rewrite H1. cbn. f_equal. apply IH. exact H2. Qed.
Lemma chars_no_anchor : forall l, existsb is_anchor (map TChar l) = false.
Proof. induction l as [|c l IH]; [reflexivity|]. exact IH. Qed.
Lemma filled_no_anchor : forall a p, existsb is_anchor a = false -> existsb is_anchor (fill a p) = false.
Proof.
  intros a p Ha. induction p as [|t p IH]; [reflexivity|]. unfold fill in *. cbn [flat_map]. rewrite existsb_app, IH, Bool.orb_false_r.
  destruct (is_anchor t) eqn:E; [exact Ha|]. cbn. rewrite E. reflexivity.
Qed.
