From Verif Require Import Base BaseFacts CharModel RepSpec.

Local Opaque cps_eqb.

(** ** Lookup in terms of buckets *)
Definition lk (r : repertoire) (c : cps) : option char :=
  match c with
  | [] => None
  | x :: _ => find (fun ch => cps_eqb c (ch_cp ch)) (bucket r x)
  end.

Lemma get_char_lk : forall r c, c <> [] ->
  rep_get_char r c = match lk r c with Some ch => Ok ch | None => Raise (NotInLGR c) end.
Proof.
  intros r [|x t] H; [contradiction|]. simpl. unfold bucket.
  destruct (dget N.eqb x (rep_chars r)); simpl; auto.
Qed.

Lemma lookup_lk : forall r c, lookup r c = lk r c.
Proof.
  intros r [|x t]; [reflexivity|]. unfold lookup. rewrite get_char_lk by discriminate.
  destruct (lk r (x :: t)); reflexivity.
Qed.

Lemma lk_cp : forall r c ch, lk r c = Some ch -> ch_cp ch = c.
Proof.
  intros r [|x t] ch H; [discriminate|]. simpl in H. apply find_some in H.
  destruct H as [_ H]. apply cps_eqb_eq in H. congruence.
Qed.

(** ** Invariant *)
Definition wf_variants (vs : dict cps (list variant)) : Prop :=
  NoDup (dkeys vs) /\
  forall k l, In (k, l) vs ->
    k <> [] /\ l <> [] /\ (forall v, In v l -> v_cp v = k) /\
    NoDup (map (fun v => (v_when v, v_not_when v)) l).

Definition wf_char (c : char) : Prop :=
  wf_variants (ch_variants c) /\
  match ch_kind c with
  | KChar => exists x, ch_cp c = [x]
  | KSeq => exists x y t, ch_cp c = x :: y :: t
  | KRange f l => f < l /\ (exists x, ch_cp c = [x] /\ f <= x <= l) /\ ch_variants c = []
  end.

Definition wf_bucket (k : N) (l : list char) : Prop :=
  l <> [] /\ NoDup (map ch_cp l) /\
  forall c, In c l -> wf_char c /\ exists t, ch_cp c = k :: t.

Definition wf_rep (r : repertoire) : Prop :=
  NoDup (dkeys (rep_chars r)) /\
  (forall k l, In (k, l) (rep_chars r) -> wf_bucket k l) /\
  (forall f l, In (f, l) (rep_ranges r) -> f < l).

Lemma wf_empty : wf_rep empty_rep.
Proof. repeat split; simpl; try constructor; intros; contradiction. Qed.

(** ** Buckets *)
Lemma bucket_dset : forall r k l k',
  bucket (set_chars r (dset N.eqb k l (rep_chars r))) k' = if N.eqb k' k then l else bucket r k'.
Proof.
  intros r k l k'. unfold bucket. simpl. rewrite (dget_dset _ N_eqb_iff).
  destruct (N.eqb k' k); reflexivity.
Qed.

Lemma bucket_ddel : forall r k k', NoDup (dkeys (rep_chars r)) ->
  bucket (set_chars r (ddel N.eqb k (rep_chars r))) k' = if N.eqb k' k then [] else bucket r k'.
Proof.
  intros r k k' H. unfold bucket. simpl. rewrite (dget_ddel _ N_eqb_iff) by exact H.
  destruct (N.eqb k' k); reflexivity.
Qed.

Lemma bucket_In : forall r k l, NoDup (dkeys (rep_chars r)) -> In (k, l) (rep_chars r) -> bucket r k = l.
Proof.
  intros r k l Hnd H. unfold bucket. rewrite (In_dget _ N_eqb_iff) with (v := l); auto.
Qed.

Lemma bucket_nonempty_In : forall r k, bucket r k <> [] -> In (k, bucket r k) (rep_chars r).
Proof.
  intros r k H. unfold bucket in *. destruct (dget N.eqb k (rep_chars r)) eqn:E.
  - eapply dget_In; [exact N_eqb_iff|exact E].
  - contradiction.
Qed.

Lemma bucket_wf : forall r k c, wf_rep r -> In c (bucket r k) -> wf_char c /\ exists t, ch_cp c = k :: t.
Proof.
  intros r k c [Hnd [Hb _]] Hc.
  assert (Hne : bucket r k <> []) by (intro Hx; rewrite Hx in Hc; contradiction).
  apply bucket_nonempty_In in Hne. apply Hb in Hne. destruct Hne as [_ [_ H]]. auto.
Qed.

Lemma bucket_NoDup : forall r k, wf_rep r -> NoDup (map ch_cp (bucket r k)).
Proof.
  intros r k [Hnd [Hb _]]. destruct (bucket r k) as [|c l] eqn:E; [constructor|].
  assert (Hne : bucket r k <> []) by (rewrite E; discriminate).
  apply bucket_nonempty_In in Hne. rewrite E in Hne. apply Hb in Hne. apply Hne.
Qed.

(** ** Enumeration *)
Lemma all_chars_bucket : forall r c, wf_rep r ->
  (In c (all_chars r) <-> exists k, In c (bucket r k)).
Proof.
  intros r c Hwf. unfold all_chars. rewrite in_flat_map. split.
  - intros [[k l] [H1 H2]]. simpl in H2. exists k. rewrite (bucket_In r k l); auto. apply Hwf.
  - intros [k H]. exists (k, bucket r k). split; auto.
    apply bucket_nonempty_In. intro Hx. rewrite Hx in H. contradiction.
Qed.

Lemma find_unique : forall (l : list char) c,
  NoDup (map ch_cp l) -> In c l -> find (fun ch => cps_eqb (ch_cp c) (ch_cp ch)) l = Some c.
Proof.
  induction l as [|d l IH]; simpl; intros c Hnd Hin; [contradiction|].
  inversion Hnd as [|? ? Hni Hnd']; subst.
  destruct (cps_eqb (ch_cp c) (ch_cp d)) eqn:E.
  - apply cps_eqb_eq in E. destruct Hin as [Hin|Hin]; [congruence|].
    exfalso. apply Hni. rewrite <- E. apply in_map. exact Hin.
  - destruct Hin as [Hin|Hin]; [subst; rewrite cps_eqb_refl in E; discriminate|]. auto.
Qed.

Lemma in_all_chars_lk : forall r c, wf_rep r ->
  (In c (all_chars r) <-> lk r (ch_cp c) = Some c).
Proof.
  intros r c Hwf. rewrite all_chars_bucket by exact Hwf. split.
  - intros [k Hk]. destruct (bucket_wf r k c Hwf Hk) as [_ [t Ht]].
    unfold lk. rewrite Ht. rewrite <- Ht. apply find_unique; auto.
    apply bucket_NoDup. exact Hwf.
  - intro H. destruct (ch_cp c) as [|x t] eqn:E; [discriminate|].
    exists x. simpl in H. apply find_some in H. apply H.
Qed.

Lemma lk_in_all : forall r c ch, wf_rep r -> lk r c = Some ch -> In ch (all_chars r).
Proof.
  intros r c ch Hwf H. apply in_all_chars_lk; auto. rewrite (lk_cp _ _ _ H). exact H.
Qed.

Lemma lk_wf : forall r c ch, wf_rep r -> lk r c = Some ch -> wf_char ch.
Proof.
  intros r [|x t] ch Hwf H; [discriminate|]. simpl in H. apply find_some in H.
  destruct H as [H _]. apply (bucket_wf r x ch Hwf H).
Qed.

Lemma all_chars_NoDup : forall r, wf_rep r -> NoDup (map ch_cp (all_chars r)).
Proof.
  intros r [Hnd [Hb _]]. unfold all_chars.
  induction (rep_chars r) as [|[k l] d IH]; simpl; [constructor|].
  inversion Hnd as [|? ? Hni Hnd']; subst.
  rewrite map_app. apply NoDup_app_iff.
  assert (Hkl : wf_bucket k l) by (apply Hb; left; reflexivity).
  repeat split.
  - apply Hkl.
  - apply IH; auto. intros k' l' H. apply Hb. right. exact H.
  - intros x Hx Hx'. apply in_map_iff in Hx. destruct Hx as [c [Hc1 Hc2]].
    apply in_map_iff in Hx'. destruct Hx' as [c' [Hc1' Hc2']].
    apply in_flat_map in Hc2'. destruct Hc2' as [[k' l'] [Hk' Hl']]. simpl in Hl'.
    destruct Hkl as [_ [_ Hkl]]. destruct (Hkl c Hc2) as [_ [t Ht]].
    assert (Hkl' : wf_bucket k' l') by (apply Hb; right; exact Hk').
    destruct Hkl' as [_ [_ Hkl']]. destruct (Hkl' c' Hl') as [_ [t' Ht']].
    assert (k = k') by congruence. subst k'. apply Hni.
    apply in_map_iff. exists (k, l'). auto.
Qed.

Lemma rep_len_all : forall r, rep_len r = length (all_chars r).
Proof.
  intro r. unfold rep_len, all_chars.
  induction (rep_chars r) as [|[k l] d IH]; simpl; auto.
  rewrite app_length, IH. reflexivity.
Qed.

(** ** add_char_ *)
Lemma memb_char_find : forall c l,
  memb char_eqb c l = match find (fun ch => cps_eqb (ch_cp c) (ch_cp ch)) l with
                      | Some _ => true | None => false end.
Proof.
  intros c l. unfold memb, char_eqb. induction l as [|d l IH]; simpl; auto.
  destruct (cps_eqb (ch_cp c) (ch_cp d)); simpl; auto.
Qed.

Lemma memb_map_find : forall c l,
  memb cps_eqb c (map ch_cp l) = match find (fun ch => cps_eqb c (ch_cp ch)) l with
                      | Some _ => true | None => false end.
Proof.
  intros c l. unfold memb. induction l as [|d l IH]; simpl; auto.
  destruct (cps_eqb c (ch_cp d)); simpl; auto.
Qed.

Lemma find_app : forall A (f : A -> bool) l1 l2,
  find f (l1 ++ l2) = match find f l1 with Some x => Some x | None => find f l2 end.
Proof.
  induction l1 as [|x l1 IH]; simpl; intro l2; auto. destruct (f x); auto.
Qed.

(** The bucket-level effect of insertion. *)
Definition ins (r : repertoire) (c : char) : repertoire :=
  match ch_cp c with
  | [] => r
  | x :: _ => set_chars r (dset N.eqb x (bucket r x ++ [c]) (rep_chars r))
  end.

Lemma add_char_unfold : forall r c, ch_cp c <> [] ->
  add_char_ r c = match lk r (ch_cp c) with
                  | Some _ => (r, Raise (CharAlreadyExists (ch_cp c)))
                  | None => (ins r c, Ok tt)
                  end.
Proof.
  intros r c Hne. unfold add_char_, ins, lk, bucket.
  destruct (ch_cp c) as [|x t] eqn:E; [contradiction|]. cbn [as_index].
  destruct (dget N.eqb x (rep_chars r)) as [l|] eqn:Ed; simpl.
  - rewrite memb_char_find. rewrite E.
    destruct (find (fun ch => cps_eqb (x :: t) (ch_cp ch)) l); reflexivity.
  - reflexivity.
Qed.

Lemma lk_ins : forall r c c', ch_cp c <> [] -> lk r (ch_cp c) = None ->
  lk (ins r c) c' = if cps_eqb c' (ch_cp c) then Some c else lk r c'.
Proof.
  intros r c c' Hne Hnone. unfold ins. destruct (ch_cp c) as [|x t] eqn:E; [contradiction|].
  destruct c' as [|x' t'].
  - simpl. destruct (cps_eqb [] (x :: t)) eqn:E2; auto. apply cps_eqb_eq in E2. discriminate.
  - simpl lk. rewrite bucket_dset. destruct (N.eqb x' x) eqn:Ex.
    + apply N.eqb_eq in Ex. subst x'. rewrite find_app. simpl in Hnone.
      destruct (cps_eqb (x :: t') (x :: t)) eqn:E2.
      * apply cps_eqb_eq in E2. injection E2 as E2. subst t'. rewrite Hnone. simpl.
        rewrite E, cps_eqb_refl. reflexivity.
      * simpl. rewrite E, E2.
        destruct (find (fun ch => cps_eqb (x :: t') (ch_cp ch)) (bucket r x)); reflexivity.
    + destruct (cps_eqb (x' :: t') (x :: t)) eqn:E2; auto.
      apply cps_eqb_eq in E2. injection E2 as E2 E3. subst.
      rewrite N.eqb_refl in Ex. discriminate.
Qed.

Lemma find_none_notin : forall c (l : list char),
  find (fun ch => cps_eqb c (ch_cp ch)) l = None -> ~ In c (map ch_cp l).
Proof.
  intros c l H Hin. apply in_map_iff in Hin. destruct Hin as [d [H1 H2]].
  apply find_none with (x := d) in H; auto. subst. rewrite cps_eqb_refl in H. discriminate.
Qed.

Lemma in_dset : forall (d : dict N (list char)) k l k' l', NoDup (dkeys d) ->
  In (k', l') (dset N.eqb k l d) -> (k' = k /\ l' = l) \/ (k' <> k /\ In (k', l') d).
Proof.
  intros d k l k' l' Hnd H.
  assert (Hnd' : NoDup (dkeys (dset N.eqb k l d))) by (apply (dset_NoDup _ N_eqb_iff); exact Hnd).
  apply (In_dget _ N_eqb_iff) in H; auto. rewrite (dget_dset _ N_eqb_iff) in H.
  destruct (N.eqb k' k) eqn:E.
  - apply N.eqb_eq in E. left. split; congruence.
  - apply N.eqb_neq in E. right. split; auto. eapply dget_In; [exact N_eqb_iff|exact H].
Qed.

Lemma wf_set_bucket : forall r k l, wf_rep r -> wf_bucket k l ->
  wf_rep (set_chars r (dset N.eqb k l (rep_chars r))).
Proof.
  intros r k l [Hnd [Hb Hr]] Hl. split; [|split]; simpl; auto.
  - apply (dset_NoDup _ N_eqb_iff). exact Hnd.
  - intros k' l' Hin. apply in_dset in Hin; auto. destruct Hin as [[Ha Hc]|[Ha Hc]].
    + subst. exact Hl.
    + apply (Hb _ _ Hc).
Qed.

Lemma wf_ins : forall r c, wf_rep r -> wf_char c -> lk r (ch_cp c) = None -> wf_rep (ins r c).
Proof.
  intros r c Hwf Hc Hnone. unfold ins. destruct (ch_cp c) as [|x t] eqn:E; [exact Hwf|].
  apply wf_set_bucket; auto. split; [|split].
  - destruct (bucket r x); discriminate.
  - rewrite map_app. simpl. apply NoDup_app_iff. repeat split.
    + apply bucket_NoDup. exact Hwf.
    + constructor; [tauto|constructor].
    + intros y Hy [Hy'|[]]. subst y. rewrite E in Hy. simpl in Hnone.
      apply find_none_notin in Hnone. contradiction.
  - intros d Hd. apply in_app_iff in Hd. destruct Hd as [Hd|[Hd|[]]].
    + apply (bucket_wf r x d Hwf Hd).
    + subst d. split; auto. exists t. exact E.
Qed.

(** ** del_char_ *)
Definition dummy (c : cps) : char := mkChar c KChar None [] [] None None [].

Definition del (r : repertoire) (c : cps) : repertoire :=
  match c with
  | [] => r
  | x :: _ =>
      match remove1 (fun a b : char => char_eqb a b) (dummy c) (bucket r x) with
      | [] => set_chars r (ddel N.eqb x (rep_chars r))
      | l' => set_chars r (dset N.eqb x l' (rep_chars r))
      end
  end.

Lemma del_char_unfold : forall r c,
  del_char_ r c = match lk r c with
                  | Some _ => (del r c, true)
                  | None => (r, false)
                  end.
Proof.
  intros r c. unfold del_char_, del, lk, bucket.
  destruct c as [|x t]; [reflexivity|]. cbn [as_index].
  destruct (dget N.eqb x (rep_chars r)) as [l|] eqn:Ed; simpl; auto.
  rewrite memb_map_find. destruct (find _ l); auto.
  fold (dummy (x :: t)).
  destruct (remove1 (fun a b : char => char_eqb a b) (dummy (x :: t)) l); reflexivity.
Qed.

Lemma remove1_char_In : forall c d l, NoDup (map ch_cp l) ->
  (In d (remove1 (fun a b : char => char_eqb a b) (dummy c) l) <-> In d l /\ ch_cp d <> c).
Proof.
  intros c d. induction l as [|e l IH]; simpl; intro Hnd; [tauto|].
  inversion Hnd as [|? ? Hni Hnd']; subst. specialize (IH Hnd').
  unfold char_eqb at 1. simpl. destruct (cps_eqb c (ch_cp e)) eqn:E.
  - apply cps_eqb_eq in E. split.
    + intro H. split; auto. intro Hc. apply Hni. rewrite <- E, <- Hc. apply in_map. exact H.
    + intros [[H|H] H']; [subst; contradiction|exact H].
  - apply cps_eqb_neq in E. simpl. rewrite IH. split.
    + intros [H|H]; [subst; auto|tauto].
    + intros [[H|H] H']; auto.
Qed.

Lemma remove1_char_NoDup : forall c l, NoDup (map ch_cp l) ->
  NoDup (map ch_cp (remove1 (fun a b : char => char_eqb a b) (dummy c) l)).
Proof.
  intros c. induction l as [|e l IH]; simpl; intro Hnd; auto.
  inversion Hnd as [|? ? Hni Hnd']; subst. destruct (char_eqb (dummy c) e); auto.
  simpl. constructor; auto. intro Hc. apply Hni. apply in_map_iff in Hc.
  destruct Hc as [d [H1 H2]]. apply remove1_In_sub in H2. rewrite <- H1. apply in_map. exact H2.
Qed.

Lemma find_In_iff : forall c (l : list char) ch, NoDup (map ch_cp l) ->
  (find (fun ch => cps_eqb c (ch_cp ch)) l = Some ch <-> In ch l /\ ch_cp ch = c).
Proof.
  intros c l ch Hnd. split.
  - intro H. apply find_some in H. destruct H as [H1 H2]. apply cps_eqb_eq in H2. auto.
  - intros [H1 H2]. subst c. apply find_unique; auto.
Qed.

Lemma opt_ext : forall A (o1 o2 : option A), (forall x, o1 = Some x <-> o2 = Some x) -> o1 = o2.
Proof.
  intros A [x|] o2 H.
  - symmetry. apply H. reflexivity.
  - destruct o2 as [y|]; auto. exfalso. assert (None = Some y) by (apply H; reflexivity). discriminate.
Qed.

Lemma bucket_del : forall r x t k, wf_rep r ->
  bucket (del r (x :: t)) k =
  if N.eqb k x then remove1 (fun a b : char => char_eqb a b) (dummy (x :: t)) (bucket r x) else bucket r k.
Proof.
  intros r x t k Hwf. unfold del.
  destruct (remove1 (fun a b : char => char_eqb a b) (dummy (x :: t)) (bucket r x)) eqn:E.
  - rewrite bucket_ddel; [reflexivity|apply Hwf].
  - rewrite bucket_dset. reflexivity.
Qed.

Lemma lk_del : forall r c c', wf_rep r ->
  lk (del r c) c' = if cps_eqb c' c then None else lk r c'.
Proof.
  intros r c c' Hwf. destruct c as [|x t].
  - simpl. destruct c' as [|x' t'].
    + destruct (cps_eqb [] []); reflexivity.
    + destruct (cps_eqb (x' :: t') []) eqn:E; auto. apply cps_eqb_eq in E. discriminate.
  - destruct c' as [|x' t'].
    + simpl. destruct (cps_eqb [] (x :: t)); reflexivity.
    + unfold lk. rewrite bucket_del by exact Hwf. destruct (N.eqb x' x) eqn:Ex.
      * apply N.eqb_eq in Ex. subst x'. apply opt_ext. intro ch.
        pose proof (bucket_NoDup r x Hwf) as Hnd.
        rewrite find_In_iff by (apply remove1_char_NoDup; exact Hnd).
        rewrite remove1_char_In by exact Hnd.
        destruct (cps_eqb (x :: t') (x :: t)) eqn:E.
        -- apply cps_eqb_eq in E. split; intro H; [|discriminate].
           destruct H as [[_ H1] H2]. congruence.
        -- apply cps_eqb_neq in E. rewrite find_In_iff by exact Hnd. split.
           ++ intros [[H1 H2] H3]. auto.
           ++ intros [H1 H2]. repeat split; auto. congruence.
      * destruct (cps_eqb (x' :: t') (x :: t)) eqn:E; auto.
        apply cps_eqb_eq in E. injection E as E1 E2. subst. rewrite N.eqb_refl in Ex. discriminate.
Qed.

Lemma in_ddel : forall (d : dict N (list char)) k k' l', NoDup (dkeys d) ->
  In (k', l') (ddel N.eqb k d) -> k' <> k /\ In (k', l') d.
Proof.
  intros d k k' l' Hnd H.
  assert (Hnd' : NoDup (dkeys (ddel N.eqb k d))) by (apply ddel_NoDup; exact Hnd).
  apply (In_dget _ N_eqb_iff) in H; auto. rewrite (dget_ddel _ N_eqb_iff) in H by exact Hnd.
  destruct (N.eqb k' k) eqn:E; [discriminate|].
  apply N.eqb_neq in E. split; auto. eapply dget_In; [exact N_eqb_iff|exact H].
Qed.

Lemma wf_del : forall r c, wf_rep r -> wf_rep (del r c).
Proof.
  intros r c Hwf. destruct c as [|x t]; [exact Hwf|]. unfold del.
  pose proof (bucket_NoDup r x Hwf) as Hnd.
  destruct (remove1 (fun a b : char => char_eqb a b) (dummy (x :: t)) (bucket r x)) as [|e l'] eqn:E.
  - destruct Hwf as [Hk [Hb Hr]]. split; [|split]; simpl; auto.
    + apply ddel_NoDup. exact Hk.
    + intros k l H. apply in_ddel in H; auto. apply Hb. apply H.
  - rewrite <- E. apply wf_set_bucket; auto. split; [|split].
    + rewrite E. discriminate.
    + apply remove1_char_NoDup. exact Hnd.
    + intros d Hd. apply remove1_In_sub in Hd. apply (bucket_wf r x d Hwf Hd).
Qed.

(** ** In-place replacement *)
Lemma update_first_map : forall c new l, ch_cp new = c -> map ch_cp (update_first c new l) = map ch_cp l.
Proof.
  intros c new l Hc. induction l as [|e l IH]; simpl; auto.
  destruct (cps_eqb c (ch_cp e)) eqn:E; simpl.
  - apply cps_eqb_eq in E. congruence.
  - f_equal. exact IH.
Qed.

Lemma update_first_find : forall c new l c', ch_cp new = c ->
  find (fun ch => cps_eqb c (ch_cp ch)) l <> None ->
  find (fun ch => cps_eqb c' (ch_cp ch)) (update_first c new l) =
  if cps_eqb c' c then Some new else find (fun ch => cps_eqb c' (ch_cp ch)) l.
Proof.
  intros c new l c' Hc. induction l as [|e l IH]; simpl; intro H; [congruence|].
  destruct (cps_eqb c (ch_cp e)) eqn:E; simpl.
  - apply cps_eqb_eq in E. rewrite Hc, <- E. destruct (cps_eqb c' c); reflexivity.
  - rewrite IH by exact H. destruct (cps_eqb c' (ch_cp e)) eqn:E'; auto.
    apply cps_eqb_eq in E'. subst c'. destruct (cps_eqb (ch_cp e) c) eqn:E''; auto.
    apply cps_eqb_eq in E''. rewrite <- E'' in E. rewrite cps_eqb_refl in E. discriminate.
Qed.

Lemma lk_put : forall r c new c', ch_cp new = c -> lk r c <> None ->
  lk (rep_put r c new) c' = if cps_eqb c' c then Some new else lk r c'.
Proof.
  intros r c new c' Hc H. destruct c as [|x t]; [simpl in H; congruence|].
  unfold rep_put. destruct (dget N.eqb x (rep_chars r)) as [l|] eqn:E.
  - assert (Hbl : bucket r x = l) by (unfold bucket; rewrite E; reflexivity).
    destruct c' as [|x' t'].
    + simpl. destruct (cps_eqb [] (x :: t)) eqn:E2; auto. apply cps_eqb_eq in E2. discriminate.
    + unfold lk. rewrite bucket_dset. destruct (N.eqb x' x) eqn:Ex.
      * apply N.eqb_eq in Ex. subst x'. rewrite update_first_find; auto.
        -- rewrite Hbl. reflexivity.
        -- unfold lk in H. rewrite Hbl in H. exact H.
      * destruct (cps_eqb (x' :: t') (x :: t)) eqn:E2; auto.
        apply cps_eqb_eq in E2. injection E2 as E2 E3. subst. rewrite N.eqb_refl in Ex. discriminate.
  - exfalso. apply H. unfold lk, bucket. rewrite E. reflexivity.
Qed.

Lemma update_first_In : forall c new l e, In e (update_first c new l) -> e = new \/ In e l.
Proof.
  intros c new l e. induction l as [|d l IH]; simpl; intro H; auto.
  destruct (cps_eqb c (ch_cp d)); destruct H as [H|H]; auto.
  destruct (IH H); auto.
Qed.

Lemma wf_put : forall r c new, wf_rep r -> wf_char new -> ch_cp new = c -> wf_rep (rep_put r c new).
Proof.
  intros r c new Hwf Hn Hc. unfold rep_put. destruct c as [|x t]; auto.
  destruct (dget N.eqb x (rep_chars r)) as [l|] eqn:E; auto.
  assert (Hl : wf_bucket x l).
  { apply Hwf. eapply dget_In; [exact N_eqb_iff|exact E]. }
  apply wf_set_bucket; auto. destruct Hl as [H1 [H2 H3]]. split; [|split].
  - destruct l as [|e l]; [contradiction|]. simpl. destruct (cps_eqb (x :: t) (ch_cp e)); discriminate.
  - rewrite update_first_map; auto.
  - intros e He. apply update_first_In in He. destruct He as [He|He]; auto.
    subst e. split; auto. exists t. exact Hc.
Qed.

(** ** Characters: variants *)
Lemma variant_eqb_iff : forall a b, variant_eqb a b = true <->
  v_cp a = v_cp b /\ v_when a = v_when b /\ v_not_when a = v_not_when b.
Proof.
  intros a b. unfold variant_eqb. rewrite !andb_true_iff, cps_eqb_eq, !ostring_eqb_eq. tauto.
Qed.

Lemma set_variants_wf : forall c vs, wf_char c -> is_range c = false -> wf_variants vs -> wf_char (set_variants c vs).
Proof.
  intros c vs [H1 H2] Hr Hv. split; simpl; auto. unfold is_range in Hr.
  destruct (ch_kind c); auto. discriminate.
Qed.

Lemma in_dset' : forall V (d : dict cps V) k l k' l', NoDup (dkeys d) ->
  In (k', l') (dset cps_eqb k l d) -> (k' = k /\ l' = l) \/ (k' <> k /\ In (k', l') d).
Proof.
  intros V d k l k' l' Hnd H.
  assert (Hnd' : NoDup (dkeys (dset cps_eqb k l d))) by (apply (dset_NoDup _ cps_eqb_eq); exact Hnd).
  apply (In_dget _ cps_eqb_eq) in H; auto. rewrite (dget_dset _ cps_eqb_eq) in H.
  destruct (cps_eqb k' k) eqn:E.
  - apply cps_eqb_eq in E. left. split; congruence.
  - apply cps_eqb_neq in E. right. split; auto. eapply dget_In; [exact cps_eqb_eq|exact H].
Qed.

Lemma char_add_variant_wf : forall c v c', wf_char c -> char_add_variant c v = Ok c' ->
  wf_char c' /\ ch_cp c' = ch_cp c.
Proof.
  intros c v c' Hwf H. unfold char_add_variant in H.
  destruct (is_range c) eqn:Er; [discriminate|].
  destruct (v_cp v) as [|y ys] eqn:Ev; [discriminate|]. rewrite <- Ev in H.
  destruct Hwf as [[Hnd Hvs] Hk].
  destruct (dget cps_eqb (v_cp v) (ch_variants c)) as [l|] eqn:Ed.
  - destruct (memb variant_eqb v l) eqn:Em; [discriminate|]. injection H as H. subst c'.
    split; [|reflexivity]. apply set_variants_wf; [split; [split|]; auto|exact Er|].
    assert (Hl : In (v_cp v, l) (ch_variants c)) by (eapply dget_In; [exact cps_eqb_eq|exact Ed]).
    split; [apply (dset_NoDup _ cps_eqb_eq); exact Hnd|].
    intros k l' Hin. apply in_dset' in Hin; auto. destruct Hin as [[H1 H2]|[H1 H2]]; [|auto].
    subst k l'. destruct (Hvs _ _ Hl) as [Ha [Hb [Hc Hd]]]. repeat split; auto.
    + destruct l; discriminate.
    + intros w Hw. apply in_app_iff in Hw. destruct Hw as [Hw|[Hw|[]]]; auto. congruence.
    + rewrite map_app. apply NoDup_app_iff. repeat split; auto; [repeat constructor; simpl; tauto|].
      intros p Hp [Hp'|[]]. subst p. apply in_map_iff in Hp. destruct Hp as [w [Hw1 Hw2]].
      injection Hw1 as Hw1 Hw3.
      assert (memb variant_eqb v l = true); [|congruence].
      unfold memb. apply existsb_exists. exists w. split; auto. apply variant_eqb_iff.
      rewrite (Hc w Hw2). auto.
  - injection H as H. subst c'. split; [|reflexivity].
    apply set_variants_wf; [split; [split|]; auto|exact Er|].
    split; [apply (dset_NoDup _ cps_eqb_eq); exact Hnd|].
    intros k l' Hin. apply in_dset' in Hin; auto. destruct Hin as [[H1 H2]|[H1 H2]]; [|auto].
    subst k l'. rewrite Ev. repeat split; try discriminate.
    + intros w [Hw|[]]. congruence.
    + simpl. repeat constructor; simpl; tauto.
Qed.

Lemma NoDup_map_remove1 : forall A B (f : A -> B) eqb (x : A) l, NoDup (map f l) -> NoDup (map f (remove1 eqb x l)).
Proof.
  intros A B f eqb x. induction l as [|e l IH]; simpl; intro Hnd; auto.
  inversion Hnd as [|? ? Hni Hnd']; subst. destruct (eqb x e); auto.
  simpl. constructor; auto. intro Hc. apply Hni. apply in_map_iff in Hc.
  destruct Hc as [d [H1 H2]]. apply remove1_In_sub in H2. rewrite <- H1. apply in_map. exact H2.
Qed.

Lemma char_del_variant_wf : forall c vcp w nw c' b, wf_char c -> char_del_variant c vcp w nw = Ok (c', b) ->
  wf_char c' /\ ch_cp c' = ch_cp c.
Proof.
  intros c vcp w nw c' b Hwf H. unfold char_del_variant in H.
  destruct (is_range c) eqn:Er; [discriminate|].
  destruct vcp as [|y ys] eqn:Ev; [discriminate|]. rewrite <- Ev in *.
  destruct Hwf as [[Hnd Hvs] Hk].
  destruct (dget cps_eqb vcp (ch_variants c)) as [l|] eqn:Ed.
  2:{ injection H as H1 H2. subst. split; auto. split; [split|]; auto. }
  destruct (memb variant_eqb (mkVariant vcp None w nw None []) l) eqn:Em.
  2:{ injection H as H1 H2. subst. split; auto. split; [split|]; auto. }
  assert (Hl : In (vcp, l) (ch_variants c)) by (eapply dget_In; [exact cps_eqb_eq|exact Ed]).
  destruct (remove1 variant_eqb (mkVariant vcp None w nw None []) l) as [|e l'] eqn:Erm.
  - injection H as H1 H2. subst c' b. split; [|reflexivity].
    apply set_variants_wf; [split; [split|]; auto|exact Er|].
    split; [apply ddel_NoDup; exact Hnd|].
    intros k l' Hin. apply Hvs.
    assert (Hnd' : NoDup (dkeys (ddel cps_eqb vcp (ch_variants c)))) by (apply ddel_NoDup; exact Hnd).
    apply (In_dget _ cps_eqb_eq) in Hin; auto. rewrite (dget_ddel _ cps_eqb_eq) in Hin by exact Hnd.
    destruct (cps_eqb k vcp); [discriminate|]. eapply dget_In; [exact cps_eqb_eq|exact Hin].
  - rewrite <- Erm in H. injection H as H1 H2. subst c' b. split; [|reflexivity].
    apply set_variants_wf; [split; [split|]; auto|exact Er|].
    split; [apply (dset_NoDup _ cps_eqb_eq); exact Hnd|].
    intros k l2 Hin. apply in_dset' in Hin; auto. destruct Hin as [[H1 H2]|[H1 H2]]; [|auto].
    subst k l2. destruct (Hvs _ _ Hl) as [Ha [Hb [Hc Hd]]]. repeat split; auto.
    + rewrite Erm. discriminate.
    + intros v Hv. apply remove1_In_sub in Hv. auto.
    + apply NoDup_map_remove1. exact Hd.
Qed.

(** ** Mapping over all characters *)
Lemma find_map_char : forall (f : char -> char), (forall c, ch_cp (f c) = ch_cp c) ->
  forall c l, find (fun ch => cps_eqb c (ch_cp ch)) (map f l) =
              option_map f (find (fun ch => cps_eqb c (ch_cp ch)) l).
Proof.
  intros f Hf c l. induction l as [|e l IH]; simpl; auto.
  rewrite Hf. destruct (cps_eqb c (ch_cp e)); auto.
Qed.

Lemma bucket_map_chars : forall f r k, bucket (map_chars f r) k = map f (bucket r k).
Proof.
  intros f r k. unfold bucket, map_chars. simpl.
  induction (rep_chars r) as [|[k' l] d IH]; simpl; auto.
  destruct (N.eqb k k'); auto.
Qed.

Lemma lk_map_chars : forall f, (forall c, ch_cp (f c) = ch_cp c) ->
  forall r c, lk (map_chars f r) c = option_map f (lk r c).
Proof.
  intros f Hf r [|x t]; [reflexivity|]. unfold lk. rewrite bucket_map_chars.
  apply find_map_char. exact Hf.
Qed.

Lemma dkeys_map_chars : forall f r, dkeys (rep_chars (map_chars f r)) = dkeys (rep_chars r).
Proof.
  intros f r. unfold dkeys, map_chars. simpl. rewrite map_map. reflexivity.
Qed.

Lemma wf_map_chars : forall f, (forall c, ch_cp (f c) = ch_cp c) -> (forall c, wf_char c -> wf_char (f c)) ->
  forall r, wf_rep r -> wf_rep (map_chars f r).
Proof.
  intros f Hf Hw r [Hnd [Hb Hr]]. split; [|split]; auto.
  - rewrite dkeys_map_chars. exact Hnd.
  - intros k l H. unfold map_chars in H. simpl in H. apply in_map_iff in H.
    destruct H as [[k' l'] [H1 H2]]. simpl in H1. injection H1 as H1 H3. subst k l.
    destruct (Hb _ _ H2) as [Ha [Hn Hc]]. split; [|split].
    + destruct l'; [contradiction|discriminate].
    + rewrite map_map. erewrite map_ext; [exact Hn|]. auto.
    + intros c Hin. apply in_map_iff in Hin. destruct Hin as [d [Hd1 Hd2]]. subst c.
      destruct (Hc d Hd2) as [Hd3 Hd4]. split; auto. rewrite Hf. exact Hd4.
Qed.

Lemma char_del_ref_wf : forall ref c, wf_char c -> wf_char (char_del_ref ref c).
Proof.
  intros ref c [[Hnd Hv] Hk]. split.
  - split; simpl.
    + unfold dkeys. rewrite map_map. simpl. exact Hnd.
    + intros k l H. apply in_map_iff in H. destruct H as [[k' l'] [H1 H2]]. simpl in H1.
      injection H1 as H1 H3. subst k l. destruct (Hv _ _ H2) as [Ha [Hb [Hc Hd]]].
      repeat split; auto.
      * destruct l'; [contradiction|discriminate].
      * intros v Hin. apply in_map_iff in Hin. destruct Hin as [u [Hu1 Hu2]]. subst v. simpl. auto.
      * rewrite map_map. simpl. exact Hd.
  - simpl. destruct (ch_kind c); auto. destruct Hk as [H1 [H2 H3]]. rewrite H3. auto.
Qed.

Lemma char_del_tag_wf : forall t c, wf_char c -> wf_char (char_del_tag t c).
Proof. intros t c [Hv Hk]. split; simpl; auto. Qed.

(** ** Ranges *)
Lemma lk_set_ranges : forall r l c, lk (set_ranges r l) c = lk r c.
Proof. intros r l c. reflexivity. Qed.

Lemma wf_set_ranges : forall r l, wf_rep r -> (forall f la, In (f, la) l -> f < la) -> wf_rep (set_ranges r l).
Proof. intros r l [H1 [H2 _]] H. split; [|split]; auto. Qed.

Lemma pair_eqb_iff : forall a b, pair_eqb a b = true <-> a = b.
Proof.
  intros [a1 a2] [b1 b2]. unfold pair_eqb. simpl. rewrite andb_true_iff, !N.eqb_eq.
  split; [intros [H1 H2]|intro H]; [congruence|]. injection H as H1 H2. auto.
Qed.

Lemma overlap_loop_exists : forall f l rs, overlap_loop f l rs = existsb (detected f l) rs.
Proof.
  intros f l rs. induction rs as [|[rf rl] rs IH]; simpl; auto.
  rewrite IH.
  destruct (N.ltb_spec rl f); destruct (N.leb_spec f rl); try lia; simpl; auto.
  destruct (N.ltb_spec l rf); destruct (N.leb_spec rf l); try lia; simpl; auto.
Qed.

Lemma existsb_perm : forall A (f : A -> bool) l1 l2, Permutation l1 l2 -> existsb f l1 = existsb f l2.
Proof.
  intros A f l1 l2 HP. induction HP; simpl; auto.
  - rewrite IHHP. reflexivity.
  - destruct (f x), (f y); reflexivity.
  - congruence.
Qed.

Lemma remove1_perm : forall A (eqb : A -> A -> bool), (forall a b, eqb a b = true <-> a = b) ->
  forall x l1 l2, Permutation l1 l2 -> Permutation (remove1 eqb x l1) (remove1 eqb x l2).
Proof.
  intros A eqb Heq x l1 l2 HP. induction HP as [|y l1 l2 HP IH|y z l|l1 l2 l3 HP1 IH1 HP2 IH2]; simpl; auto.
  - destruct (eqb x y); auto.
  - destruct (eqb x z) eqn:Ez; destruct (eqb x y) eqn:Ey; auto.
    + apply Heq in Ez. apply Heq in Ey. subst. auto.
    + apply perm_swap.
  - eapply perm_trans; eauto.
Qed.

(** ** Refinement *)
Definition agree (r : repertoire) (a : astate) : Prop :=
  wf_rep r /\ (forall c, lk r c = a_map a c) /\ Permutation (rep_ranges r) (a_ranges a).

Lemma add_range_loop_refines : forall mk l r m,
  (forall c, In c l -> ch_cp (mk c) = [c] /\ wf_char (mk c)) ->
  wf_rep r -> (forall c, lk r c = m c) ->
  let '(r', x) := add_range_loop r mk l in
  let '(m', y) := a_insert_range m mk l in
  wf_rep r' /\ (forall c, lk r' c = m' c) /\ rep_ranges r' = rep_ranges r /\ out_of x = y.
Proof.
  intros mk l. induction l as [|c l IH]; intros r m Hmk Hwf Hag; simpl.
  - auto.
  - destruct (Hmk c (or_introl eq_refl)) as [Hcp Hwc].
    rewrite add_char_unfold by (rewrite Hcp; discriminate). rewrite Hcp, Hag.
    destruct (m [c]) eqn:Em.
    + auto.
    + assert (Hn : lk r (ch_cp (mk c)) = None) by (rewrite Hcp, Hag; exact Em).
      specialize (IH (ins r (mk c)) (upd m [c] (Some (mk c)))).
      assert (Hr : rep_ranges (ins r (mk c)) = rep_ranges r).
      { unfold ins. rewrite Hcp. reflexivity. }
      rewrite Hr in IH. apply IH.
      * intros d Hd. apply Hmk. right. exact Hd.
      * apply wf_ins; auto.
      * intro d. rewrite lk_ins; auto; [|rewrite Hcp; discriminate]. unfold upd. rewrite Hcp.
        destruct (cps_eqb d [c]); auto.
Qed.

Lemma del_range_loop_refines : forall l r m,
  wf_rep r -> (forall c, lk r c = m c) ->
  let '(r', x) := del_range_loop r l in
  let '(m', y) := a_delete_range m l in
  wf_rep r' /\ (forall c, lk r' c = m' c) /\ rep_ranges r' = rep_ranges r /\ out_of x = y.
Proof.
  intros l. induction l as [|c l IH]; intros r m Hwf Hag; simpl.
  - auto.
  - rewrite del_char_unfold. rewrite Hag. destruct (m [c]) eqn:Em.
    + specialize (IH (del r [c]) (upd m [c] None)).
      assert (Hr : rep_ranges (del r [c]) = rep_ranges r).
      { unfold del. destruct (remove1 _ _ _); reflexivity. }
      rewrite Hr in IH. apply IH.
      * apply wf_del. exact Hwf.
      * intro d. rewrite lk_del by exact Hwf. unfold upd. destruct (cps_eqb d [c]); auto.
    + auto.
Qed.

Lemma mk_range_char_wf : forall f l cm rf tg w nw c, f < l -> In c (nrange f l) ->
  ch_cp (mk_range_char c f l cm rf tg w nw) = [c] /\ wf_char (mk_range_char c f l cm rf tg w nw).
Proof.
  intros f l cm rf tg w nw c Hfl Hin. split; [reflexivity|].
  apply nrange_In in Hin. split; simpl.
  - split; [constructor|]. intros k l' H. contradiction.
  - repeat split; auto. exists c. split; auto.
Qed.

Lemma rep_put_ranges : forall r c n, rep_ranges (rep_put r c n) = rep_ranges r.
Proof.
  intros r c n. unfold rep_put. destruct c as [|x t]; auto.
  destruct (dget N.eqb x (rep_chars r)); reflexivity.
Qed.

Arguments del : simpl never.
Arguments ins : simpl never.
Arguments rep_put : simpl never.
Arguments lk : simpl never.

Ltac same := simpl; split; [split; [assumption|split; assumption]|reflexivity].

Theorem step_refines : forall r a o, agree r a ->
  let '(r', x) := rep_step r o in
  let '(a', y) := a_step a o in
  agree r' a' /\ x = y.
Proof.
  intros r a o [Hwf [Hag Hrg]]. destruct o as [c cm rf tg w nw|c|f l cm rf tg w nw sk|f l|c v|c vcp w nw|ref|t].
  - (* add_char *)
    unfold rep_step, a_step, rep_add_char. destruct c as [|x t]; [same|].
    assert (He : from_cp_or_sequence (x :: t) cm rf tg w nw =
                 Ok (mkChar (x :: t) (match t with [] => KChar | _ => KSeq end) cm rf tg w nw [])).
    { destruct t; reflexivity. }
    rewrite He. set (ch := mkChar (x :: t) _ cm rf tg w nw []).
    rewrite add_char_unfold by discriminate.
    replace (ch_cp ch) with (x :: t) by reflexivity.
    rewrite Hag. destruct (a_map a (x :: t)) eqn:Em.
    + same.
    + simpl. split; [|reflexivity]. split; [|split].
      * apply wf_ins; auto.
        -- split; simpl; [split; [constructor|intros ? ? []]|].
           destruct t as [|y t]; eauto.
        -- simpl ch_cp. rewrite Hag. exact Em.
      * intro d. simpl. rewrite lk_ins; [|discriminate|simpl ch_cp; rewrite Hag; exact Em].
        unfold upd. simpl ch_cp. destruct (cps_eqb d (x :: t)); auto.
      * unfold ins. simpl. exact Hrg.
  - (* del_char *)
    unfold rep_step, a_step, rep_del_char. destruct c as [|x t]; [same|].
    rewrite del_char_unfold, Hag. destruct (a_map a (x :: t)) eqn:Em; simpl.
    + split; [|reflexivity]. split; [|split].
      * apply wf_del. exact Hwf.
      * intro d. rewrite lk_del by exact Hwf. simpl. unfold upd. destruct (cps_eqb d (x :: t)); auto.
      * unfold del. destruct (remove1 _ _ _); simpl; exact Hrg.
    + same.
  - (* add_range *)
    unfold rep_step, a_step, rep_add_range. destruct (N.ltb_spec f l) as [Hfl|Hfl].
    2:{ same. }
    assert (Hov : exists r1, (if sk then (r, false) else check_range_overlap r f l) =
              (r1, negb sk && existsb (detected f l) (a_ranges a)) /\
              wf_rep r1 /\ (forall c, lk r1 c = a_map a c) /\ Permutation (rep_ranges r1) (a_ranges a)).
    { destruct sk; simpl.
      - exists r. auto.
      - unfold check_range_overlap. exists (set_ranges r (isort pair_leb (rep_ranges r))).
        rewrite overlap_loop_exists.
        rewrite (existsb_perm _ _ (isort pair_leb (rep_ranges r)) (a_ranges a)).
        2:{ eapply perm_trans; [apply Permutation_sym, isort_perm|exact Hrg]. }
        split; [reflexivity|]. split; [|split]; auto.
        + apply wf_set_ranges; auto. intros f0 l0 Hin. apply isort_In in Hin. apply Hwf. exact Hin.
        + simpl. eapply perm_trans; [apply Permutation_sym, isort_perm|exact Hrg]. }
    destruct Hov as [r1 [Hov [Hwf1 [Hag1 Hrg1]]]]. rewrite Hov.
    destruct (negb sk && existsb (detected f l) (a_ranges a)).
    { simpl. same. }
    pose proof (add_range_loop_refines (fun c => mk_range_char c f l cm rf tg w nw) (nrange f l) r1 (a_map a)) as HL.
    assert (Hmk : forall c, In c (nrange f l) ->
       ch_cp (mk_range_char c f l cm rf tg w nw) = [c] /\ wf_char (mk_range_char c f l cm rf tg w nw)).
    { intros c Hc. apply mk_range_char_wf; auto. }
    specialize (HL Hmk Hwf1 Hag1).
    change (fun c => mkChar [c] (KRange f l) cm rf tg w nw []) with
           (fun c => mk_range_char c f l cm rf tg w nw).
    destruct (add_range_loop r1 _ (nrange f l)) as [r2 x].
    destruct (a_insert_range (a_map a) _ (nrange f l)) as [m y].
    destruct HL as [Hw2 [Hl2 [Hr2 Hxy]]].
    destruct x as [[]|e]; simpl in Hxy; subst y; simpl.
    + split; [|reflexivity]. split; [|split].
      * apply wf_set_ranges; auto. intros f0 l0 Hin. rewrite Hr2 in Hin.
        apply in_app_iff in Hin. destruct Hin as [Hin|[Hin|[]]]; [apply Hwf1; exact Hin|].
        injection Hin as Hin1 Hin2. subst. exact Hfl.
      * intro c. simpl. rewrite lk_set_ranges. apply Hl2.
      * simpl. rewrite Hr2. eapply perm_trans; [apply Permutation_sym, Permutation_cons_append|].
        constructor. exact Hrg1.
    + split; [|reflexivity]. split; [|split]; auto. simpl. rewrite Hr2. exact Hrg1.
  - (* del_range *)
    unfold rep_step, a_step, rep_del_range. destruct (N.ltb_spec f l) as [Hfl|Hfl].
    2:{ same. }
    assert (Hm : memb pair_eqb (f, l) (rep_ranges r) = memb pair_eqb (f, l) (a_ranges a)).
    { apply existsb_perm. exact Hrg. }
    rewrite Hm. destruct (memb pair_eqb (f, l) (a_ranges a)).
    2:{ same. }
    pose proof (del_range_loop_refines (nrange f l) r (a_map a) Hwf Hag) as HL.
    destruct (del_range_loop r (nrange f l)) as [r2 x].
    destruct (a_delete_range (a_map a) (nrange f l)) as [m y].
    destruct HL as [Hw2 [Hl2 [Hr2 Hxy]]].
    destruct x as [[]|e]; simpl in Hxy; subst y; simpl.
    + split; [|reflexivity]. split; [|split].
      * apply wf_set_ranges; auto. intros f0 l0 Hin. apply remove1_In_sub in Hin. rewrite Hr2 in Hin.
        apply Hwf. exact Hin.
      * intro c. simpl. apply Hl2.
      * simpl. rewrite Hr2. apply remove1_perm; [apply pair_eqb_iff|exact Hrg].
    + split; [|reflexivity]. split; [|split]; auto. simpl. rewrite Hr2. exact Hrg.
  - (* add_variant *)
    unfold rep_step, a_step, rep_add_variant. destruct c as [|x t]; [same|].
    rewrite get_char_lk by discriminate. rewrite Hag. destruct (a_map a (x :: t)) as [ch|] eqn:Em.
    2:{ same. }
    destruct (char_add_variant ch v) as [ch'|e] eqn:Ea.
    2:{ same. }
    simpl. split; [|reflexivity].
    assert (Hlk : lk r (x :: t) = Some ch) by (rewrite Hag; exact Em).
    destruct (char_add_variant_wf ch v ch' (lk_wf _ _ _ Hwf Hlk) Ea) as [Hw' Hcp'].
    rewrite (lk_cp _ _ _ Hlk) in Hcp'. split; [|split].
    + apply wf_put; auto.
    + intro d. simpl. rewrite lk_put; auto; [|rewrite Hlk; discriminate].
      unfold upd. destruct (cps_eqb d (x :: t)); auto.
    + rewrite rep_put_ranges. exact Hrg.
  - (* del_variant *)
    unfold rep_step, a_step, rep_del_variant. destruct c as [|x t]; [same|].
    rewrite get_char_lk by discriminate. rewrite Hag. destruct (a_map a (x :: t)) as [ch|] eqn:Em.
    2:{ same. }
    destruct (char_del_variant ch vcp w nw) as [[ch' b]|e] eqn:Ea.
    2:{ same. }
    simpl. split; [|reflexivity].
    assert (Hlk : lk r (x :: t) = Some ch) by (rewrite Hag; exact Em).
    destruct (char_del_variant_wf ch vcp w nw ch' b (lk_wf _ _ _ Hwf Hlk) Ea) as [Hw' Hcp'].
    rewrite (lk_cp _ _ _ Hlk) in Hcp'. split; [|split].
    + apply wf_put; auto.
    + intro d. simpl. rewrite lk_put; auto; [|rewrite Hlk; discriminate].
      unfold upd. destruct (cps_eqb d (x :: t)); auto.
    + rewrite rep_put_ranges. exact Hrg.
  - (* del_reference *)
    simpl. split; [|reflexivity]. split; [|split]; auto.
    + apply wf_map_chars; auto. intros c. apply char_del_ref_wf.
    + intro c. unfold rep_del_reference. rewrite lk_map_chars by reflexivity. rewrite Hag. reflexivity.
  - (* del_tag *)
    simpl. split; [|reflexivity]. split; [|split]; auto.
    + apply wf_map_chars; auto.
    + intro c. unfold rep_del_tag. rewrite lk_map_chars by reflexivity. rewrite Hag. reflexivity.
Qed.

Lemma run_refines : forall ops r a, agree r a ->
  agree (fst (rep_run r ops)) (fst (a_run a ops)) /\ snd (rep_run r ops) = snd (a_run a ops).
Proof.
  induction ops as [|o ops IH]; intros r a H; simpl; auto.
  pose proof (step_refines r a o H) as HS.
  destruct (rep_step r o) as [r1 x]. destruct (a_step a o) as [a1 y]. destruct HS as [H1 H2].
  specialize (IH r1 a1 H1).
  destruct (rep_run r1 ops) as [r2 xs]. destruct (a_run a1 ops) as [a2 ys]. simpl in *.
  destruct IH as [IH1 IH2]. split; auto. congruence.
Qed.

Lemma agree_empty : agree empty_rep a_empty.
Proof.
  split; [apply wf_empty|]. split; simpl; auto. intros [|x t]; reflexivity.
Qed.

Lemma reachable_wf : forall r, reachable r -> wf_rep r.
Proof.
  intros r [ops H]. subst. apply (run_refines ops empty_rep a_empty agree_empty).
Qed.

Theorem repertoire_refines_map : forall ops,
  let r := fst (rep_run empty_rep ops) in
  let a := fst (a_run a_empty ops) in
  snd (rep_run empty_rep ops) = snd (a_run a_empty ops) /\
  (forall c, lookup r c = a_map a c) /\
  NoDup (map ch_cp (all_chars r)) /\
  (forall ch, In ch (all_chars r) <-> a_map a (ch_cp ch) = Some ch) /\
  (forall c, c <> [] -> rep_contains r c = Ok (match a_map a c with Some _ => true | None => false end)) /\
  rep_len r = length (all_chars r).
Proof.
  intros ops r a. destruct (run_refines ops empty_rep a_empty agree_empty) as [[Hwf [Hag _]] Hout].
  fold r in Hwf, Hag. fold a in Hag. split; [exact Hout|]. split; [|split; [|split; [|split]]].
  - intro c. rewrite lookup_lk. apply Hag.
  - apply all_chars_NoDup. exact Hwf.
  - intro ch. rewrite in_all_chars_lk by exact Hwf. rewrite Hag. tauto.
  - intros [|x t] Hne; [contradiction|]. simpl. rewrite <- Hag. unfold lk, bucket.
    destruct (dget N.eqb x (rep_chars r)) as [l|]; simpl; auto. rewrite memb_map_find. reflexivity.
  - apply rep_len_all.
Qed.
