(** Order of the classes and remarks on the actions. *)
From Coq Require Import Sorting.Sorted Structures.OrderedTypeEx.
From Verif Require Import Base BaseFacts ActionModel ReviewModel ReviewSpec ReviewSets WholeModel WholeSpec WholeProofs MergeContext.
Open Scope string_scope.
Open Scope list_scope.

Lemma prefix_app : forall p n, String.prefix p n = true <-> exists t, n = (p ++ t)%string.
Proof.
  induction p as [|a p IH]; intros n.
  - split; [intros _; exists n; reflexivity|destruct n; reflexivity].
  - destruct n as [|b n]; [cbn; split; [discriminate|intros [t H]; discriminate]|]. cbn [String.prefix]. destruct (Ascii.ascii_dec a b) as [<-|N].
    + rewrite IH. split; intros [t H]; exists t; [cbn; congruence|]. cbn in H. congruence.
    + split; [discriminate|]. intros [t H]. cbn in H. congruence.
Qed.
Lemma tag_iff : forall n, String.prefix tag_prefix n = true <-> for_a_tag n.
Proof. intro n. apply prefix_app. Qed.
Lemma leb_before : forall a b, class_leb a b = true <-> class_before a b.
Proof.
  intros a b. unfold class_leb, class_before. pose proof (tag_iff a) as Ha. pose proof (tag_iff b) as Hb. unfold string_leb.
  destruct (String.prefix tag_prefix a), (String.prefix tag_prefix b); destruct (String.compare a b); intuition congruence.
Qed.

Lemma class_leb_total : forall a b, class_leb a b = true \/ class_leb b a = true.
Proof.
  intros a b. unfold class_leb, string_leb. rewrite (String.compare_antisym a b).
  destruct (String.prefix tag_prefix a), (String.prefix tag_prefix b); destruct (String.compare b a); cbn; auto.
Qed.
Lemma string_le_trans : forall x y z, string_leb x y = true -> string_leb y z = true -> string_leb x z = true.
Proof.
  intros x y z H1 H2. unfold string_leb in *.
  destruct (String.compare x y) eqn:E1; [| |discriminate].
  - apply String.compare_eq_iff in E1. rewrite E1. exact H2.
  - destruct (String.compare y z) eqn:E2; [| |discriminate].
    + apply String.compare_eq_iff in E2. rewrite <- E2, E1. reflexivity.
    + rewrite compare_cmp in *. apply String_as_OT.cmp_lt in E1. apply String_as_OT.cmp_lt in E2.
      assert (E3 := String_as_OT.lt_trans _ _ _ E1 E2). apply String_as_OT.cmp_lt in E3. rewrite E3. reflexivity.
Qed.
Lemma class_leb_trans : forall a b c, class_leb a b = true -> class_leb b c = true -> class_leb a c = true.
Proof.
  intros a b c. unfold class_leb.
  destruct (String.prefix tag_prefix a), (String.prefix tag_prefix b), (String.prefix tag_prefix c); try discriminate; try reflexivity;
    apply string_le_trans.
Qed.
Lemma class_lines_sorted : forall names i r ir rr l, class_lines names i r ir rr = Ok l ->
  StronglySorted (fun a b => class_leb a b = true) names -> StronglySorted (fun a b => class_before (kl_name a) (kl_name b)) l /\ (forall x, In x l -> In (kl_name x) names).
Proof.
  induction names as [|n names IH]; intros i r ir rr l E S; cbn [class_lines] in E.
  - injection E as <-. split; [constructor | intros x []].
  - inversion S as [|? ? S' F]; subst. apply bind_ok in E. destruct E as (x & _ & E). apply bind_ok in E. destruct E as (l' & El & E).
    destruct (IH _ _ _ _ _ El S') as [Hs Hn]. injection E as <-. destruct x as [p|]; [|split; [exact Hs|intros y Hy; right; auto]].
    split; [|intros y [<-|Hy]; [left; reflexivity | right; auto]].
    constructor; [exact Hs|]. apply Forall_forall. intros y Hy. cbn [kl_name]. apply leb_before. rewrite Forall_forall in F. apply F. auto.
Qed.
Lemma classes_sorted : forall o idn ref w s, review_lgr o idn ref = Ok (w, s) -> StronglySorted (fun a b => class_before (kl_name a) (kl_name b)) (wh_classes w).
Proof.
  intros o idn ref w s E. pose proof (pt_classes _ _ _ _ _ (review_parts _ _ _ _ _ E)) as C. unfold classes_report in C.
  apply bind_ok in C. destruct C as (xi & _ & C). apply bind_ok in C. destruct C as (xr & _ & C).
  refine (proj1 (class_lines_sorted _ _ _ _ _ _ C _)). apply (isort_sorted class_leb class_leb_total class_leb_trans).
Qed.
Lemma action_remarks : forall o idn ref w s, review_lgr o idn ref = Ok (w, s) -> forall p, In p (action_lines w) <->
  (exists a, In a (it_actions idn) /\ found a (it_actions ref) /\ p = (RMatch, "Exact Match (action name and content are the same)")) \/
  (exists a, In a (it_actions idn) /\ ~ found a (it_actions ref) /\ p = (RManual, "Mismatch (additional action)")) \/
  (exists a, In a (it_actions ref) /\ ~ found a (it_actions idn) /\ p = (RManual, "Mismatch (missing action)")).
Proof.
  intros o idn ref w s E p. unfold action_lines. rewrite (pt_actions _ _ _ _ _ (review_parts _ _ _ _ _ E)), in_map_iff. split.
  - intros (l & <- & H). rewrite actions_lines in H. destruct H as [(k & a & H & F & ->)|[(k & a & H & F & ->)|(k & a & H & F & ->)]]; apply nth_error_In in H; [left|right; left|right; right]; exists a; repeat split; assumption.
  - intros [(a & H & F & ->)|[(a & H & F & ->)|(a & H & F & ->)]]; apply In_nth_error in H; destruct H as [k H];
      [exists (mkActLine (S k) true true RMatch)|exists (mkActLine (S k) true false RManual)|exists (mkActLine (S k) false true RManual)]; (split; [reflexivity|]); rewrite actions_lines;
      [left|right; left|right; right]; exists k, a; auto.
Qed.
