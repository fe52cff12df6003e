(** Collisions of the labels of an actual LGR, and the cases that fail. *)
From Coq Require Import Permutation.
From Verif Require Import Base BaseFacts CharModel ActionModel LabelModel RepSpec RangeProofs ActionSpec RepProofs LabelSpec LabelIndex LabelList LabelFinal
  CollisionModel CollisionSpec CollisionProofs CollisionFinal CollisionDiff.
Open Scope N_scope.
Open Scope string_scope.
Open Scope list_scope.

(** diff_collisions.py:28, 113-116: how the two functions are called. *)
Section Of.
  Variables (rm : rule_oracle) (r : repertoire) (acts : list action) (script : N -> string) (max_rec : nat).
  Definition index_of (l : cps) : res cps := index_label rm r max_rec true l.
  Definition listing_of (l : cps) (ws : list cps) : list (cps * option string) * res unit :=
    let x := compute_label_disposition rm r acts script true l true false false ws in
    (map (fun z => (ls_cp z, ls_disp z)) (fst x), snd x).
  Hypothesis Hr : reachable r.

  Lemma listing_cases : forall l ws, listing_of l ws = ([], Raise (LGRApiInvalidParameter "label")) \/
    exists zs o, compute_label_disposition rm r acts script true l true false false ws = (zs ++ [o], Ok tt) /\ ls_cp o = l /\
      NoDup (map ls_cp (zs ++ [o])) /\ forall z, In z zs -> wanted ws (ls_cp z).
  Proof.
    intros l ws. destruct (listing_refused rm r acts script l true true false false ws) as [_ [R1 R2]]. destruct l as [|x l].
    - left. unfold listing_of. rewrite R2 by reflexivity. reflexivity.
    - destruct (Nat.leb (length (x :: l)) 63) eqn:E.
      + apply Nat.leb_le in E. right. destruct (listing_spec rm r acts script Hr (x :: l) true false false ws) as [vs [zs [o [_ [H1 [H2 [_ [_ [H3 [H4 _]]]]]]]]]]; [discriminate|exact E|].
        exists zs, o. split; [exact H1|]. split; [exact H2|]. split; [apply H4; reflexivity|]. intros z Hz. destruct (H3 z Hz) as [w [_ [W1 [W2 _]]]].
        destruct W2 as [W2 _]. rewrite W2. exact W1.
      + apply Nat.leb_gt in E. left. unfold listing_of. rewrite R1 by (try reflexivity; lia). reflexivity.
  Qed.
  Lemma listing_obedient : obedient listing_of.
  Proof.
    split.
    - intros l ws. destruct (listing_cases l ws) as [H|[zs [o [H1 [_ [H3 _]]]]]]; [rewrite H; constructor|]. unfold listing_of. rewrite H1. cbn [fst]. rewrite map_map. exact H3.
    - intros l ws v d Hne. destruct (listing_cases l ws) as [H|[zs [o [H1 [H2 [H3 H4]]]]]]; [rewrite H; intros []|]. unfold listing_of. rewrite H1. cbn [fst].
      intro H. apply in_map_iff in H. destruct H as [z [E H]]. injection E as E1 E2. subst v. apply in_app_iff in H. destruct H as [H|[H|[]]].
      + left. destruct (H4 z H) as [F|F]; [contradiction|exact F].
      + right. subst z. exact H2.
  Qed.
  Lemma listing_itself : shows_itself listing_of.
  Proof.
    intros l ws. destruct (listing_cases l ws) as [H|[zs [o [H1 [H2 _]]]]]; [rewrite H; discriminate|]. intros _. unfold listing_of. rewrite H1. cbn [fst].
    rewrite map_map, map_app, in_app_iff. right. left. exact H2.
  Qed.

  (** In simple LGRs the collisions are between variant labels. *)
  Theorem simple_collisions : forall order labels tlds, simple_lgr r -> reorders order -> NoDup labels -> NoDup tlds ->
    (forall l, subject labels tlds l -> in_lgr r l) ->
    exists pl pt, basic_collision index_of listing_of order labels tlds = Ok (pl, pt, []) /\
      (forall a b, In (a, b) pl \/ In (b, a) pl <-> In a labels /\ In b labels /\ a <> b /\ Forall2 (interchangeable r) a b) /\
      (forall a b, In (a, b) pt <-> In a labels /\ In b tlds /\ a <> b /\ Forall2 (interchangeable r) a b).
  Proof.
    intros order labels tlds Hs Ho Hl Ht Hin.
    assert (Hix : forall l, subject labels tlds l -> index_of l = index_once rm r l /\ exists i, index_of l = Ok i).
    { intros l Hsub. destruct (simple_index_canonical rm r Hr Hs l (Hin l Hsub)) as [m [M1 [_ [_ [_ [_ [_ M2]]]]]]]. unfold index_of. rewrite M2, M1. eauto. }
    assert (Hcol : forall a b, subject labels tlds a -> subject labels tlds b -> (collide index_of a b <-> a <> b /\ Forall2 (interchangeable r) a b)).
    { intros a b Ha Hb. destruct (simple_index_collision rm r Hr Hs a b (Hin a Ha) (Hin b Hb)) as [ia [ib [I1 [I2 I3]]]]. unfold collide.
      rewrite (proj1 (Hix a Ha)), (proj1 (Hix b Hb)), I1, I2, <- I3. split; intros [H1 H2]; (split; [exact H1|]).
      - destruct H2 as [i [E1 E2]]. congruence.
      - exists ia. subst. auto. }
    destruct (basic_total index_of listing_of order labels tlds Hl Ht) as [[[pl pt] missing] E].
    { intros l Hsub. left. apply Hix. exact Hsub. }
    destruct (basic_collisions index_of listing_of order Ho labels tlds pl pt missing Hl Ht listing_obedient E) as [A1 [A2 [A3 _]]].
    assert (missing = []).
    { destruct missing as [|x missing]; [reflexivity|]. destruct (proj1 (A1 x) (or_introl eq_refl)) as [H1 [y H2]].
      destruct (proj2 (Hix x (or_introl H1))) as [i Hi]. congruence. }
    subst missing. exists pl, pt. split; [exact E|]. split; intros a b; [rewrite A2|rewrite A3]; split; intros [H1 [H2 H3]]; (split; [exact H1|]; split; [exact H2|]);
      (apply Hcol; [left; exact H1|first [left; exact H2|right; exact H2]|exact H3]).
  Qed.
End Of.

(** ** Samples *)
Definition sample_index := index_of no_rules (built simple_ops) 5.
Definition sample_listing := listing_of no_rules (built simple_ops) [] (fun _ => "Latin").
Definition as_given (l : list cps) : list cps := l.
Lemma as_given_reorders : reorders as_given.
Proof. intro l. apply Permutation_refl. Qed.

Lemma three_labels_twice : exists labels pl pt missing a b, NoDup labels /\
  basic_collision sample_index sample_listing as_given labels [] = Ok (pl, pt, missing) /\ In (a, b) pl /\ In (b, a) pl.
Proof.
  exists [[97]; [98]; [99]]. eexists. eexists. eexists. exists [98], [99]. split; [repeat constructor; cbn; intuition discriminate|].
  split; [vm_compute; reflexivity|]. cbn. auto 10.
Qed.

Lemma cached_label_collides_with_itself : exists l i t, sample_index l = Ok i /\
  get_collisions sample_index sample_listing [l] true [(l, CachedIndex i)] = Ok t /\ t <> [] /\
  get_collisions sample_index sample_listing [l] false [(l, CachedIndex i)] = Raise AssertionError.
Proof.
  exists [97], [97]. eexists. split; [vm_compute; reflexivity|]. split; [vm_compute; reflexivity|]. split; [discriminate|]. vm_compute. reflexivity.
Qed.

Lemma annotation_blames_label : exists filtered label, set_annotation sample_index sample_listing filtered label = Ok Collides /\
  ~ In label filtered /\ forall a, In a filtered -> ~ collide sample_index label a.
Proof.
  exists [[97]; [98]], [100]. split; [vm_compute; reflexivity|]. split; [cbn; intuition discriminate|].
  intros a [Ha|[Ha|[]]] [_ [i [H1 H2]]]; subst a; vm_compute in H1, H2; congruence.
Qed.

(** A comparison that is refused: two labels share an index and one of them
    has a variant that the other has not. *)
Definition lop_ops := [addc [97]; addc [98]; addc [99]; addv [98] [97] None; addv [98] [99] None].
Lemma diff_refused : exists ops labels, NoDup labels /\
  diff_labels (index_of no_rules (built ops) 5) (index_of no_rules (built ops) 5)
    (listing_of no_rules (built ops) [] (fun _ => "Latin")) (listing_of no_rules (built ops) [] (fun _ => "Latin")) labels true = Raise LGRException.
Proof. exists lop_ops, [[97]; [98]]. split; [repeat constructor; cbn; intuition discriminate|]. vm_compute. reflexivity. Qed.
