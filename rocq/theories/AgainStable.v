(** Writing again gives what was written before. *)
From Verif Require Import Base BaseFacts CharModel RepSpec RepProofs IterProofs RangeProofs VariantProofs RefModel LgrModel LgrSpec LgrProofs LgrReach LgrInv PopulateSpec
  Rfc7940Model UtilsModel MetaModel SerialModel SerialSpec SerialProofs SerialFinal AgainRead.
From Coq Require Import Lia Sorted.
Open Scope string_scope.
Open Scope list_scope.
Open Scope N_scope.

(** ** Sorted lists with the same classes *)
Lemma sorted_determined : forall A (le : A -> A -> Prop) (eqv : A -> A -> bool), (forall a b, eqv a b = true <-> le a b /\ le b a) -> (forall a, le a a) ->
  forall l l', StronglySorted le l -> StronglySorted le l' -> (forall x, filter (eqv x) l = filter (eqv x) l') -> l = l'.
Proof.
  intros A le eqv E R. induction l as [|a l IH]; intros l' S S' F.
  - destruct l' as [|b l']; [reflexivity|]. specialize (F b). cbn [filter] in F. rewrite (proj2 (E b b) (conj (R b) (R b))) in F. discriminate.
  - destruct l' as [|b l']; [specialize (F a); cbn [filter] in F; rewrite (proj2 (E a a) (conj (R a) (R a))) in F; discriminate|].
    inversion S as [|? ? S1 S2]; subst. inversion S' as [|? ? S1' S2']; subst. rewrite Forall_forall in S2, S2'.
    assert (Hab : le a b). { assert (K : In b (filter (eqv b) (a :: l))) by (rewrite F; apply filter_In; split; [left; reflexivity|apply E; auto]). apply filter_In in K. destruct K as [[->|K] _]; [apply R|apply S2; exact K]. }
    assert (Hba : le b a). { assert (K : In a (filter (eqv a) (b :: l'))) by (rewrite <- F; apply filter_In; split; [left; reflexivity|apply E; auto]). apply filter_In in K. destruct K as [[->|K] _]; [apply R|apply S2'; exact K]. }
    assert (a = b). { pose proof (F a) as Fa. cbn [filter] in Fa. rewrite (proj2 (E a a) (conj (R a) (R a))), (proj2 (E a b) (conj Hab Hba)) in Fa. injection Fa as Fa _. exact Fa. }
    subst b. f_equal. apply IH; [exact S1|exact S1'|]. intro x. specialize (F x). cbn [filter] in F. destruct (eqv x a); [injection F as F; exact F|exact F].
Qed.
Lemma isort_filter : forall A (leb : A -> A -> bool) (p : A -> bool), (forall x y, p x = true -> p y = true -> leb x y = true) -> forall l, filter p (isort leb l) = filter p l.
Proof.
  intros A leb p H. assert (G : forall x l, filter p (insert leb x l) = if p x then x :: filter p l else filter p l).
  { intros x l. induction l as [|y l IH]; [reflexivity|]. cbn [insert]. destruct (leb x y) eqn:E; [reflexivity|]. cbn [filter]. rewrite IH. destruct (p y) eqn:Py; [|reflexivity].
    destruct (p x) eqn:Px; [|reflexivity]. rewrite (H x y Px Py) in E. discriminate. }
  induction l as [|x l IH]; [reflexivity|]. change (isort leb (x :: l)) with (insert leb x (isort leb l)). rewrite G, IH. reflexivity.
Qed.

(** ** Sequences of one length, as they were added *)
Definition of_length (n : nat) (c : cps) : bool := Nat.eqb (length c) n.
Definition starting (k : N) (n : nat) (c : cps) : bool := match c with x :: _ => if N.eqb x k then of_length n c else false | [] => false end.
Definition run (r : repertoire) (k : N) (n : nat) : list cps := filter (of_length n) (map ch_cp (bucket r k)).
Section Runs.
  Variable k : N.
  Variable n : nat.
  Hypothesis Hn : (2 <= n)%nat.
  Lemma bucket_set : forall r x l, bucket (set_chars r (dset N.eqb x l (rep_chars r))) k = if N.eqb k x then l else bucket r k.
  Proof. intros r x l. unfold bucket, set_chars. cbn [rep_chars]. rewrite (dget_dset _ N_eqb_iff). destruct (N.eqb k x); reflexivity. Qed.
  Lemma run_add : forall r ch r', add_char_ r ch = (r', Ok tt) -> run r' k n = run r k n ++ filter (starting k n) [ch_cp ch].
  Proof.
    intros r ch r' H. unfold add_char_ in H. destruct (ch_cp ch) as [|x t] eqn:Ec; [discriminate|]. cbn [as_index] in H. unfold run.
    assert (G : forall l, bucket r x = l -> r' = set_chars r (dset N.eqb x (l ++ [ch]) (rep_chars r)) ->
      filter (of_length n) (map ch_cp (bucket r' k)) = filter (of_length n) (map ch_cp (bucket r k)) ++ filter (starting k n) [x :: t]).
    { intros l Hl ->. rewrite bucket_set. cbn [filter starting]. rewrite (N.eqb_sym x k). destruct (N.eqb k x) eqn:E; [|rewrite app_nil_r; reflexivity].
      apply N.eqb_eq in E. subst x. rewrite Hl, map_app, filter_app. cbn [map filter]. rewrite Ec. reflexivity. }
    destruct (dget N.eqb x (rep_chars r)) as [l|] eqn:E.
    - destruct (memb char_eqb ch l); [discriminate|]. injection H as <-. apply (G l); [unfold bucket; rewrite E; reflexivity|reflexivity].
    - injection H as <-. apply (G []); [unfold bucket; rewrite E; reflexivity|reflexivity].
  Qed.
  Lemma run_short : forall r ch r' y, ch_cp ch = [y] -> add_char_ r ch = (r', Ok tt) -> run r' k n = run r k n.
  Proof.
    intros r ch r' y Hy H. rewrite (run_add r ch r' H), Hy. cbn [filter starting]. unfold of_length. cbn [length]. destruct n as [|[|m]]; [lia|lia|]. cbn [Nat.eqb]. destruct (N.eqb y k); apply app_nil_r.
  Qed.
  Lemma run_put : forall r c ch, ch_cp ch = c -> run (rep_put r c ch) k n = run r k n.
  Proof.
    intros r c ch Hc. unfold run, rep_put. destruct c as [|x t]; [reflexivity|]. destruct (dget N.eqb x (rep_chars r)) as [l|] eqn:E; [|reflexivity].
    rewrite bucket_set. destruct (N.eqb k x) eqn:Ek; [|reflexivity]. apply N.eqb_eq in Ek. subst x. unfold bucket. rewrite E. f_equal. clear E.
    induction l as [|y l IH]; [reflexivity|]. cbn [update_first]. destruct (cps_eqb (k :: t) (ch_cp y)) eqn:Ey; [apply cps_eqb_eq in Ey; cbn [map]; congruence|]. cbn [map]. rewrite IH. reflexivity.
  Qed.
  Lemma run_variant : forall r c v r', rep_add_variant r c v = (r', Ok tt) -> run r' k n = run r k n.
  Proof.
    intros r c v r' H. unfold rep_add_variant in H. destruct (rep_get_char r c) as [ch|] eqn:E; [|discriminate]. destruct (char_add_variant ch v) as [ch'|] eqn:E2; [|discriminate]. injection H as <-.
    apply run_put. assert (A : ch_cp ch' = ch_cp ch).
    { unfold char_add_variant in E2. destruct (is_range ch); [discriminate|]. destruct (v_cp v); [discriminate|]. destruct (dget _ _ _); [destruct (memb _ _ _); [discriminate|]|]; injection E2 as <-; reflexivity. }
    rewrite A. unfold rep_get_char in E. destruct c as [|x c]; [discriminate|]. destruct (dget N.eqb x (rep_chars r)); [|discriminate]. destruct (find _ _) as [q|] eqn:F; [|discriminate]. injection E as ->.
    apply find_some in F. destruct F as [_ F]. apply cps_eqb_eq in F. symmetry. exact F.
  Qed.
  Lemma run_loop : forall mk l r r', (forall y, ch_cp (mk y) = [y]) -> add_range_loop r mk l = (r', Ok tt) -> run r' k n = run r k n.
  Proof.
    intros mk l. induction l as [|y l IH]; intros r r' Hm H; cbn [add_range_loop] in H; [injection H as <-; reflexivity|].
    destruct (add_char_ r (mk y)) as [r1 [[]|]] eqn:E; [|discriminate]. rewrite (IH _ _ Hm H). exact (run_short _ _ _ y (Hm y) E).
  Qed.
  Lemma run_ranges : forall cm rf tg w nw l r r', insert_ranges r cm rf tg w nw l = (r', Ok tt) -> run r' k n = run r k n.
  Proof.
    intros cm rf tg w nw l. induction l as [|[f la] l IH]; intros r r' H; cbn [insert_ranges] in H; [injection H as <-; reflexivity|].
    destruct (N.eqb f la).
    - destruct (rep_add_char r [f] cm rf tg w nw) as [r1 [y|]] eqn:E; cbn [bind] in H; [|discriminate]. rewrite (IH _ _ H). unfold rep_add_char in E. cbn [from_cp_or_sequence] in E.
      destruct (add_char_ r _) as [r2 [[]|]] eqn:E2; [|discriminate]. injection E as <- _. apply (run_short _ _ _ f) in E2; [exact E2|reflexivity].
    - destruct (rep_add_range r f la cm rf tg w nw true) as [r1 [[]|]] eqn:E; [|discriminate]. rewrite (IH _ _ H). unfold rep_add_range in E. destruct (N.ltb f la); [|discriminate].
      destruct (add_range_loop r _ _) as [r2 [[]|]] eqn:E2; [|discriminate]. injection E as <-. change (run r2 k n = run r k n). apply run_loop in E2; [exact E2|reflexivity].
  Qed.
  Lemma run_vars : forall vs g r c g' r', process_vars false g r c vs = (g', r', Ok tt) -> run (lg_rep g') k n = run (lg_rep g) k n.
  Proof.
    induction vs as [|v vs IH]; intros g r c g' r' H; cbn [process_vars] in H; [injection H as <- _; reflexivity|]. destruct (parse_cps (ve_cp v)) as [vc|]; [|discriminate].
    destruct (attempt false r (lgr_add_variant _ _ _ _ _ _ _ _ _ _ _)) as [[g1 r1] [[]|]] eqn:E; [|discriminate]. rewrite (IH _ _ _ _ _ H). apply attempt_ok in E. clear H.
    unfold lgr_add_variant in E. destruct (bind _ _) as [[c1 v1]|]; [|discriminate]. destruct (_ && _)%bool; [discriminate|]. destruct (check_validating _ _ _ _ _); [|discriminate].
    destruct (collect_refs _ _ _); [|discriminate]. destruct (_ && _)%bool; [discriminate|]. destruct (rep_add_variant _ _ _) as [q [[]|]] eqn:E2; [|discriminate].
    injection E as <-. transitivity (run q k n); [destruct (ve_type v); reflexivity|exact (run_variant _ _ _ _ E2)].
  Qed.
  Lemma run_cp : forall g c cm rf tg w nw vr ov fo g', lgr_add_cp g c cm rf tg w nw vr ov fo = (g', Ok tt) -> run (lg_rep g') k n = run (lg_rep g) k n ++ filter (starting k n) [c].
  Proof.
    intros g c cm rf tg w nw vr ov fo g' E. unfold lgr_add_cp in E. destruct (check_convert_cases g c) as [[e [K _]]|[K [Nc _]]]; rewrite K in E; [discriminate|].
    destruct (_ && _)%bool; [discriminate|]. destruct (check_validating _ _ _ _ _); [|discriminate]. destruct (collect_refs _ _ _); [|discriminate]. destruct (_ && _)%bool; [discriminate|].
    destruct (_ && _)%bool; [discriminate|]. destruct (_ && _)%bool; [discriminate|]. destruct (rep_add_char _ _ _ _ _ _ _) as [q [y|]] eqn:E2; [|discriminate]. injection E as <-.
    rewrite lg_rep_add_tags. cbn [set_rep lg_rep]. unfold rep_add_char in E2. destruct c as [|x c]; [congruence|]. destruct (from_cp_or_sequence _ _ _ _ _ _) as [ch|] eqn:E3; [|discriminate].
    destruct (add_char_ (lg_rep g) ch) as [r2 [[]|]] eqn:E4; [|discriminate]. injection E2 as <- _. rewrite (run_add _ _ _ E4). f_equal.
    assert (A : ch_cp ch = x :: c) by (destruct c; cbn [from_cp_or_sequence] in E3; injection E3 as <-; reflexivity). rewrite A. reflexivity.
  Qed.
  Lemma run_range : forall g f la cm rf tg w nw vr ov fo g', lgr_add_range g f la cm rf tg w nw vr ov fo = (g', Ok tt) -> run (lg_rep g') k n = run (lg_rep g) k n.
  Proof.
    intros g f la cm rf tg w nw vr ov fo g' E. unfold lgr_add_range in E. destruct (N.ltb la f); [discriminate|]. destruct (_ && _)%bool; [discriminate|]. destruct (check_range _ _ _ _); [|discriminate].
    destruct (select_cps _ _ _ _); [|discriminate]. destruct (collect_refs _ _ _); [|discriminate]. destruct (_ && _)%bool; [discriminate|]. destruct (_ && _)%bool; [discriminate|].
    destruct (insert_list _ _ _ _ _ _ _) as [q [[]|]] eqn:E2; [|discriminate]. injection E as <-. rewrite fold_tags_rep. cbn [set_rep lg_rep].
    unfold insert_list in E2. destruct (collapse_codepoints _); [|discriminate]. exact (run_ranges _ _ _ _ _ _ _ _ E2).
  Qed.
  (** Reading adds them in the order of the elements. *)
  Lemma run_data : forall l g r prev g' r', process_data_loop false g r prev (map data_elem_of l) = (g', r', Ok tt) ->
    (forall ch, In ch l -> is_range ch = true -> length (ch_cp ch) = 1%nat) ->
    run (lg_rep g') k n = run (lg_rep g) k n ++ filter (starting k n) (map ch_cp l).
  Proof.
    induction l as [|ch l IH]; intros g r prev g' r' H W; cbn [map process_data_loop] in H; [injection H as <- _; cbn; rewrite app_nil_r; reflexivity|].
    assert (W' : forall c, In c l -> is_range c = true -> length (ch_cp c) = 1%nat) by (intros c Hc; apply W; right; exact Hc).
    assert (G : forall g1 r1 p1, process_data_loop false g1 r1 p1 (map data_elem_of l) = (g', r', Ok tt) -> run (lg_rep g1) k n = run (lg_rep g) k n ++ filter (starting k n) [ch_cp ch] ->
      run (lg_rep g') k n = run (lg_rep g) k n ++ filter (starting k n) (map ch_cp (ch :: l))).
    { intros g1 r1 p1 H1 E1. rewrite (IH _ _ _ _ _ H1 W'), E1. cbn [map]. rewrite <- app_assoc. f_equal. cbn [filter]. destruct (starting k n (ch_cp ch)); reflexivity. }
    destruct (is_range ch) eqn:Er.
    - unfold is_range in Er. unfold data_elem_of at 1 in H. destruct (ch_kind ch) as [| |f la] eqn:Ek; try discriminate. cbn [process_data_loop] in H. rewrite !parse_cp_to_str in H.
      destruct (attempt false r (lgr_add_range _ _ _ _ _ _ _ _ _ _ _)) as [[g1 r1] [[]|]] eqn:E; [|discriminate]. apply attempt_ok in E. apply (G _ _ _ H). rewrite (run_range _ _ _ _ _ _ _ _ _ _ _ _ E).
      pose proof (W ch (or_introl eq_refl)) as L. unfold is_range in L. rewrite Ek in L. specialize (L eq_refl). destruct (ch_cp ch) as [|y [|z t]]; try discriminate L.
      cbn [filter starting]. unfold of_length. cbn [length]. destruct n as [|[|m]]; [lia|lia|]. cbn [Nat.eqb]. destruct (N.eqb y k); rewrite app_nil_r; reflexivity.
    - assert (E : data_elem_of ch = DChar (format_cp_attr (ch_cp ch)) (attrs_of ch) (map var_elem_of (get_variants ch))).
      { unfold data_elem_of. unfold is_range in Er. destruct (ch_kind ch); [reflexivity|reflexivity|discriminate]. }
      rewrite E in H. cbn [process_data_loop] in H. rewrite parse_cps_format in H.
      destruct (attempt false _ (lgr_add_cp _ _ _ _ _ _ _ _ _ _)) as [[g1 r1] [[]|]] eqn:E1; [|discriminate]. apply attempt_ok in E1.
      destruct (process_vars false g1 r1 _ _) as [[g2 r2] [[]|]] eqn:E2; [|discriminate]. apply (G _ _ _ H). rewrite (run_vars _ _ _ _ _ _ E2). exact (run_cp _ _ _ _ _ _ _ _ _ _ _ E1).
  Qed.
  (** Iteration goes through them in that order. *)
  Lemma run_bucket : forall l last, (forall ch, In ch l -> is_range ch = true -> length (ch_cp ch) = 1%nat) ->
    filter (of_length n) (map ch_cp (snd (iter_bucket last l))) = filter (of_length n) (map ch_cp l).
  Proof.
    induction l as [|ch l IH]; intros last W; [reflexivity|]. assert (W' : forall c, In c l -> is_range c = true -> length (ch_cp c) = 1%nat) by (intros c Hc; apply W; right; exact Hc).
    pose proof (W ch (or_introl eq_refl)) as L. unfold is_range in L. cbn [iter_bucket]. destruct (ch_kind ch) as [| |f la] eqn:Ek.
    - specialize (IH last W'). destruct (iter_bucket last l) as [q out]. cbn [snd map filter] in *. rewrite IH. reflexivity.
    - specialize (IH last W'). destruct (iter_bucket last l) as [q out]. cbn [snd map filter] in *. rewrite IH. reflexivity.
    - assert (S : of_length n (ch_cp ch) = false) by (unfold of_length; rewrite (L eq_refl); apply Nat.eqb_neq; lia).
      destruct last as [z|]; [rewrite (IH _ W'); cbn [map filter]; rewrite S; reflexivity|]. specialize (IH (Some la) W'). destruct (iter_bucket (Some la) l) as [q out]. cbn [snd map filter] in *. rewrite S, IH. reflexivity.
  Qed.
  Lemma range_single : forall r x ch, wf_rep r -> In ch (bucket r x) -> is_range ch = true -> length (ch_cp ch) = 1%nat.
  Proof.
    intros r x ch W H R. destruct (bucket_wf r x ch W H) as [[_ K] _]. unfold is_range in R. destruct (ch_kind ch) as [| |f l]; try discriminate. destruct K as [_ [[y [K _]] _]]. rewrite K. reflexivity.
  Qed.
  Lemma filter_starting : forall r x l, wf_rep r -> (forall ch, In ch l -> In ch (bucket r x)) ->
    filter (starting k n) (map ch_cp l) = if N.eqb x k then filter (of_length n) (map ch_cp l) else [].
  Proof.
    intros r x l W. induction l as [|ch l IH]; intro H; [destruct (N.eqb x k); reflexivity|].
    assert (H' : forall c, In c l -> In c (bucket r x)) by (intros c Hc; apply H; right; exact Hc). specialize (IH H'). destruct (bucket_wf r x ch W (H ch (or_introl eq_refl))) as [_ [t Ht]].
    cbn [map filter]. rewrite IH, Ht. cbn [starting]. destruct (N.eqb x k); reflexivity.
  Qed.
  Lemma run_iter : forall r, wf_rep r -> filter (starting k n) (map ch_cp (rep_iter r)) = run r k n.
  Proof.
    intros r W. unfold rep_iter.
    assert (G : forall ks last, NoDup ks -> filter (starting k n) (map ch_cp (iter_keys r last ks)) = if existsb (N.eqb k) ks then run r k n else []).
    { induction ks as [|x ks IH]; intros last HN; [reflexivity|]. inversion HN as [|? ? N1 N2]; subst. cbn [iter_keys existsb].
      set (last1 := match last with Some lc => if N.ltb lc x then None else Some lc | None => None end).
      pose proof (run_bucket (isort len_leb (bucket r x)) last1) as RB. pose proof (iter_bucket_sub (isort len_leb (bucket r x)) last1) as SB.
      destruct (iter_bucket last1 (isort len_leb (bucket r x))) as [q out]. cbn [snd] in RB, SB. rewrite map_app, filter_app, (IH q N2).
      rewrite (filter_starting r x out W) by (intros ch Hc; apply isort_In with (leb := len_leb), SB; exact Hc). rewrite (N.eqb_sym k x). destruct (N.eqb x k) eqn:E; [|reflexivity].
      apply N.eqb_eq in E. subst x. assert (Hno : existsb (N.eqb k) ks = false).
      { apply Bool.not_true_is_false. intro K. apply existsb_exists in K. destruct K as [y [K1 K2]]. apply N.eqb_eq in K2. subst y. exact (N1 K1). }
      rewrite Hno, app_nil_r. cbn [orb]. rewrite RB by (intros ch Hc; apply (range_single r k ch W); apply isort_In with (leb := len_leb); exact Hc).
      unfold run. assert (FM : forall l, filter (of_length n) (map ch_cp l) = map ch_cp (filter (fun c => of_length n (ch_cp c)) l)).
      { clear. induction l as [|c l IH]; [reflexivity|]. cbn [map filter]. destruct (of_length n (ch_cp c)); cbn [map]; rewrite IH; reflexivity. }
      rewrite !FM. f_equal. apply isort_filter. intros a b Ha Hb. unfold of_length in Ha, Hb. apply Nat.eqb_eq in Ha, Hb. unfold len_leb. apply Nat.leb_le. lia. }
    rewrite G.
    - destruct (existsb _ _) eqn:E; [reflexivity|]. unfold run, bucket. destruct (dget N.eqb k (rep_chars r)) as [l|] eqn:D; [|reflexivity]. exfalso.
      assert (K : existsb (N.eqb k) (isort N.leb (dkeys (rep_chars r))) = true); [|congruence]. apply existsb_exists. exists k. split; [apply isort_In, (dget_Some_key _ N_eqb_iff) with (v := l); exact D|apply N.eqb_refl].
    - eapply Permutation.Permutation_NoDup; [apply isort_perm|apply W].
  Qed.
End Runs.

(** ** The data section *)
Definition cps_le (a b : cps) : Prop := (hd 0 a < hd 0 b) \/ (hd 0 a = hd 0 b /\ (length a <= length b)%nat).
Definition cps_class (a b : cps) : bool := (N.eqb (hd 0 a) (hd 0 b) && Nat.eqb (length a) (length b))%bool.
Lemma cps_class_iff : forall a b, cps_class a b = true <-> cps_le a b /\ cps_le b a.
Proof. intros a b. unfold cps_class, cps_le. rewrite Bool.andb_true_iff, N.eqb_eq, Nat.eqb_eq. split; [intros [H1 H2]; split; right; lia|lia]. Qed.
Lemma iter_cps_sorted : forall r, wf_rep r -> StronglySorted cps_le (map ch_cp (rep_iter r)).
Proof.
  intros r W. destruct (iter_general r W) as [S _]. induction S as [|a l S IH F]; [constructor|]. cbn [map]. constructor; [exact IH|]. rewrite Forall_forall in F |- *.
  intros c Hc. apply in_map_iff in Hc. destruct Hc as [ch [<- Hc]]. exact (F ch Hc).
Qed.
Lemma one_filter : forall (l : list cps) x, NoDup l -> (forall c, In c l -> c <> []) -> filter (cps_class [x]) l = if memb cps_eqb [x] l then [[x]] else [].
Proof.
  intros l x. induction l as [|c l IH]; intros N W; [reflexivity|]. inversion N as [|? ? N1 N2]; subst. specialize (IH N2 (fun c Hc => W c (or_intror Hc))).
  cbn [filter]. rewrite IH. change (memb cps_eqb [x] (c :: l)) with (cps_eqb [x] c || memb cps_eqb [x] l)%bool. pose proof (W c (or_introl eq_refl)) as Hc.
  destruct (cps_eqb [x] c) eqn:E.
  - apply cps_eqb_eq in E. subst c. unfold cps_class. cbn [hd length]. rewrite N.eqb_refl. cbn [Nat.eqb andb orb]. destruct (memb cps_eqb [x] l) eqn:M; [|reflexivity].
    exfalso. apply N1. apply (memb_In _ _ cps_eqb_eq) in M. exact M.
  - assert (K : cps_class [x] c = false); [|rewrite K; reflexivity]. apply Bool.not_true_is_false. intro K. unfold cps_class in K. apply andb_prop in K. destruct K as [K1 K2]. apply N.eqb_eq in K1. apply Nat.eqb_eq in K2.
    destruct c as [|y [|z t]]; cbn in K1, K2; try discriminate. subst y. rewrite cps_eqb_refl in E. discriminate.
Qed.
Lemma same_iter : forall g g', wf_rep (lg_rep g) -> rinv (lg_rep g) -> wf_rep (lg_rep g') -> rinv (lg_rep g') -> same_repertoire g g' ->
  (forall k n, (2 <= n)%nat -> run (lg_rep g') k n = run (lg_rep g) k n) -> map ch_cp (rep_iter (lg_rep g')) = map ch_cp (rep_iter (lg_rep g)).
Proof.
  intros g g' W I W' I' S R.
  pose proof (iter_intact _ W (rinv_intact _ W I)) as IT. pose proof (iter_intact _ W' (rinv_intact _ W' I')) as IT'.
  destruct (iter_general _ W) as [_ [ND _]]. destruct (iter_general _ W') as [_ [ND' _]].
  assert (Hne : forall r, wf_rep r -> forall c, In c (map ch_cp (rep_iter r)) -> c <> []).
  { intros r Wr c Hc. apply in_map_iff in Hc. destruct Hc as [ch [<- Hc]]. destruct (iter_general r Wr) as [_ [_ [SB _]]]. apply SB in Hc. apply all_chars_bucket in Hc; [|exact Wr]. destruct Hc as [x Hx].
    destruct (bucket_wf r x ch Wr Hx) as [_ [t Ht]]. rewrite Ht. discriminate. }
  assert (Hin : forall c, In c (map ch_cp (rep_iter (lg_rep g'))) <-> In c (map ch_cp (rep_iter (lg_rep g)))).
  { intro c. rewrite !in_map_iff. specialize (S c). rewrite !lookup_lk in S. split; intros [ch [<- Hc]].
    - apply IT' in Hc. destruct Hc as [H1 H2]. apply (in_all_chars_lk _ _ W') in H1. rewrite H1 in S. destruct (lk (lg_rep g) (ch_cp ch)) as [d|] eqn:E; [|contradiction].
      destruct S as [[C [K _]] _]. exists d. split; [symmetry; exact C|]. apply IT. split; [apply (lk_in_all _ _ _ W E)|]. intros f l Hk. rewrite <- C. apply (H2 f l). congruence.
    - apply IT in Hc. destruct Hc as [H1 H2]. apply (in_all_chars_lk _ _ W) in H1. rewrite H1 in S. destruct (lk (lg_rep g') (ch_cp ch)) as [d|] eqn:E; [|contradiction].
      destruct S as [[C [K _]] _]. exists d. split; [exact C|]. apply IT'. split; [apply (lk_in_all _ _ _ W' E)|]. intros f l Hk. rewrite C. apply (H2 f l). congruence. }
  apply (sorted_determined _ cps_le cps_class cps_class_iff); [intro a; right; lia|apply iter_cps_sorted; exact W'|apply iter_cps_sorted; exact W|]. intro x.
  destruct (Nat.le_gt_cases 2 (length x)) as [Hl|Hl].
  - assert (G : forall r, wf_rep r -> filter (cps_class x) (map ch_cp (rep_iter r)) = run r (hd 0 x) (length x)).
    { intros r Wr. rewrite <- (run_iter (hd 0 x) (length x) Hl r Wr). pose proof (Hne r Wr) as H. induction (map ch_cp (rep_iter r)) as [|c l IH]; [reflexivity|].
      pose proof (H c (or_introl eq_refl)) as Hc. cbn [filter]. rewrite IH by (intros d Hd; apply H; right; exact Hd). destruct c as [|y t]; [congruence|].
      assert (E : cps_class x (y :: t) = starting (hd 0 x) (length x) (y :: t)).
      { unfold cps_class. cbn [hd starting]. unfold of_length. rewrite (N.eqb_sym y). rewrite (Nat.eqb_sym (length (y :: t))). destruct (N.eqb (hd 0 x) y); reflexivity. }
      rewrite E. reflexivity. }
    rewrite (G _ W), (G _ W'). apply R. exact Hl.
  - destruct x as [|y [|z t]]; [|cbn [length] in Hl|cbn [length] in Hl; lia].
    + assert (G : forall r, wf_rep r -> filter (cps_class []) (map ch_cp (rep_iter r)) = []).
      { intros r Wr. pose proof (Hne r Wr) as H. induction (map ch_cp (rep_iter r)) as [|c l IH]; [reflexivity|]. cbn [filter]. rewrite IH by (intros d Hd; apply H; right; exact Hd).
        pose proof (H c (or_introl eq_refl)) as Hc. destruct c as [|y t]; [congruence|]. unfold cps_class. cbn [length Nat.eqb]. rewrite Bool.andb_false_r. reflexivity. }
      rewrite (G _ W), (G _ W'). reflexivity.
    + rewrite !one_filter; [|exact ND|apply Hne; exact W|exact ND'|apply Hne; exact W'].
      assert (E : memb cps_eqb [y] (map ch_cp (rep_iter (lg_rep g'))) = memb cps_eqb [y] (map ch_cp (rep_iter (lg_rep g)))); [|rewrite E; reflexivity].
      pose proof (memb_In _ _ cps_eqb_eq [y] (map ch_cp (rep_iter (lg_rep g')))) as A. pose proof (memb_In _ _ cps_eqb_eq [y] (map ch_cp (rep_iter (lg_rep g)))) as B. specialize (Hin [y]).
      destruct (memb cps_eqb [y] (map ch_cp (rep_iter (lg_rep g')))), (memb cps_eqb [y] (map ch_cp (rep_iter (lg_rep g)))); try reflexivity; exfalso.
      * assert (K : false = true) by (apply B, Hin, A; reflexivity). discriminate.
      * assert (K : false = true) by (apply A, Hin, B; reflexivity). discriminate.
Qed.
Lemma same_elems : forall g g' l l', (forall ch, In ch l -> lookup (lg_rep g) (ch_cp ch) = Some ch) -> (forall ch, In ch l' -> lookup (lg_rep g') (ch_cp ch) = Some ch) -> same_repertoire g g' ->
  map ch_cp l' = map ch_cp l -> map data_elem_of l' = map data_elem_of l.
Proof.
  intros g g' l. induction l as [|ch l IH]; intros [|ch' l'] H H' S E; try discriminate; [reflexivity|]. injection E as E1 E2. cbn [map]. f_equal.
  - pose proof (S (ch_cp ch)) as K. rewrite (H ch (or_introl eq_refl)), <- E1, (H' ch' (or_introl eq_refl)) in K. destruct K as [[K1 [K2 [K3 [K4 [K5 [K6 K7]]]]]] K8].
    unfold data_elem_of, attrs_of. rewrite K1, K2, K3, K4, K5, K6, K7, K8. reflexivity.
  - apply IH; [intros c Hc; apply H; right; exact Hc|intros c Hc; apply H'; right; exact Hc|exact S|exact E2].
Qed.
Theorem data_stable : forall g R db allow r g' r', proper g -> proper g' -> process_data false (set_refs (new_lgr db allow) R) r (serialize_data g) = (g', r', Ok tt) -> same_repertoire g g' ->
  serialize_data g' = serialize_data g.
Proof.
  intros g R db allow r g' r' P P' H S.
  pose proof (lgr_reachable_wf g (tidy_reachable _ (proper_tidy g P))) as W. pose proof (lgr_reachable_wf g' (tidy_reachable _ (proper_tidy g' P'))) as W'.
  pose proof (tidy_rinv g (proper_tidy g P)) as I. pose proof (tidy_rinv g' (proper_tidy g' P')) as I'.
  assert (L : forall q, wf_rep (lg_rep q) -> forall ch, In ch (rep_iter (lg_rep q)) -> lookup (lg_rep q) (ch_cp ch) = Some ch).
  { intros q Wq ch Hc. rewrite lookup_lk. apply in_all_chars_lk; [exact Wq|]. apply (iter_general _ Wq). exact Hc. }
  unfold serialize_data. apply (same_elems g g'); [apply L; exact W|apply L; exact W'|exact S|]. apply same_iter; try assumption. intros k n Hn.
  unfold process_data, serialize_data in H. destruct (process_data_loop false _ r [] _) as [[g2 r2] [[]|]] eqn:E; [|discriminate]. injection H as -> _.
  rewrite (run_data k n Hn _ _ _ _ _ _ E).
  - cbn [set_refs new_lgr lg_rep]. rewrite (run_iter k n Hn _ W). reflexivity.
  - intros ch Hc Hr. destruct (iter_general _ W) as [_ [_ [SB _]]]. apply SB in Hc. apply all_chars_bucket in Hc; [|exact W]. destruct Hc as [x Hx]. exact (range_single _ _ _ W Hx Hr).
Qed.
