(** Reading rules. *)
From Coq Require Import Ascii.
From Verif Require Import Base BaseFacts UtilsModel UtilsProofs ClassModel ClassSpec ClassProofs RuleModel ActionModel Rfc7940Model SerialModel
  RulesXmlModel RulesXmlSpec RulesXmlClass.
Open Scope string_scope.
Open Scope list_scope.

(** ** Counts *)
Lemma sapp_assoc : forall a b c : string, ((a ++ b) ++ c)%string = (a ++ (b ++ c))%string.
Proof. induction a as [|x a IH]; intros; cbn; [reflexivity|]. f_equal. apply IH. Qed.
Lemma digit_iff : forall c d, digit c d <-> ((Nat.leb 48 (nat_of_ascii c) && Nat.leb (nat_of_ascii c) 57)%bool = true /\ d = (nat_of_ascii c - 48)%nat).
Proof. intros c d. unfold digit. rewrite Bool.andb_true_iff, !Nat.leb_le. lia. Qed.
Lemma digits_app : forall s s' acc, digits (s ++ s') acc = match digits s acc with Some a => digits s' a | None => None end.
Proof. induction s as [|c s IH]; intros s' acc; cbn [append digits]; [reflexivity|]. destruct (_ && _)%bool; [apply IH|reflexivity]. Qed.
Lemma decimal_digits : forall s n, decimal s n -> digits s 0 = Some n /\ s <> "".
Proof.
  intros s n H. induction H as [c d H|s n c d H IH Hd].
  - apply digit_iff in H. destruct H as [H ->]. cbn [digits]. rewrite H. split; [f_equal; lia|discriminate].
  - destruct IH as [IH N]. apply digit_iff in Hd. destruct Hd as [Hd ->]. rewrite digits_app, IH. cbn [digits]. rewrite Hd. split; [reflexivity|]. destruct s; [congruence|discriminate].
Qed.
Lemma digits_decimal : forall s s0 acc n, decimal s0 acc -> digits s acc = Some n -> decimal (s0 ++ s) n.
Proof.
  induction s as [|c s IH]; intros s0 acc n H D; cbn [digits] in D.
  - injection D as <-. replace (s0 ++ "")%string with s0; [exact H|]. clear. induction s0; cbn; congruence.
  - destruct (_ && _)%bool eqn:E; [|discriminate]. change (String c s) with (String c "" ++ s)%string. rewrite <- sapp_assoc. apply (IH _ (acc * 10 + (nat_of_ascii c - 48))%nat); [|exact D].
    apply dec_more; [exact H|]. apply digit_iff. auto.
Qed.
Lemma number_iff : forall s n, number s = Some n <-> decimal s n.
Proof.
  intros s n. split.
  - destruct s as [|c s]; [discriminate|]. cbn [number digits]. destruct (_ && _)%bool eqn:E; [|discriminate]. intro D.
    apply (digits_decimal s (String c "") (0 * 10 + (nat_of_ascii c - 48))%nat); [|exact D]. apply dec_one. apply digit_iff. cbn. auto.
  - intro H. apply decimal_digits in H. destruct H as [H N]. destruct s; [congruence|exact H].
Qed.
Fixpoint free_of (c : ascii) (s : string) : Prop := match s with EmptyString => True | String d s' => d <> c /\ free_of c s' end.
Lemma free_app : forall c s s', free_of c (s ++ s') <-> free_of c s /\ free_of c s'.
Proof. intros c s s'. induction s as [|d s IH]; cbn [append free_of]; [tauto|]. rewrite IH. tauto. Qed.
Lemma decimal_free : forall c s n, (nat_of_ascii c < 48 \/ 57 < nat_of_ascii c)%nat -> decimal s n -> free_of c s.
Proof.
  intros c s n Hc H. assert (F : forall x d, digit x d -> free_of c (String x "")).
  { intros x d [D1 D2]. cbn. split; [|exact I]. intros ->. lia. }
  induction H as [x d H|s n x d H IH Hd]; [exact (F _ _ H)|]. apply free_app. split; [exact IH|exact (F _ _ Hd)].
Qed.
Lemma split_colon_free : forall s, free_of colon s -> split_colon s = [s].
Proof.
  induction s as [|c s IH]; intro H; [reflexivity|]. destruct H as [H1 H2]. cbn [split_colon]. rewrite (IH H2). destruct (Ascii.eqb_spec c colon); [contradiction|reflexivity].
Qed.
Lemma free_no_colon : forall s, free_of colon s -> no_colon s.
Proof. induction s as [|c s IH]; intro H; [exact I|]. destruct H as [H1 H2]. split; [exact H1|exact (IH H2)]. Qed.
Lemma split_colon_pair : forall s s', free_of colon s -> free_of colon s' -> split_colon (s ++ ":" ++ s') = [s; s'].
Proof. intros s s' H H'. rewrite split_colon_app by (apply free_no_colon; exact H). rewrite (split_colon_free _ H'). reflexivity. Qed.
Lemma split_colon_inv : forall s, match split_colon s with
  | [] => False | [a] => a = s /\ free_of colon s | [a; b] => s = (a ++ ":" ++ b)%string | _ => True end.
Proof.
  induction s as [|c s IH]; cbn [split_colon]; [cbn; auto|]. destruct (Ascii.eqb_spec c colon) as [->|N].
  - destruct (split_colon s) as [|a [|b l]]; [contradiction| |exact I]. destruct IH as [-> _]. reflexivity.
  - destruct (split_colon s) as [|a [|b [|d l]]]; [contradiction| | |exact I].
    + destruct IH as [-> IH]. cbn. auto.
    + rewrite IH. reflexivity.
Qed.
Lemma drop_plus_app : forall s, drop_plus (s ++ "+") = Some s.
Proof.
  induction s as [|c s IH]; [reflexivity|]. cbn [append drop_plus]. rewrite IH. destruct s; reflexivity.
Qed.
Lemma drop_plus_inv : forall s r, drop_plus s = Some r -> s = (r ++ "+")%string.
Proof.
  induction s as [|c s IH]; intros r H; [discriminate|]. cbn [drop_plus] in H. destruct s as [|d s].
  - destruct (Ascii.eqb_spec c "+"%char) as [->|]; [|discriminate]. injection H as <-. reflexivity.
  - destruct (drop_plus (String d s)) as [q|] eqn:E; [|discriminate]. injection H as <-. rewrite (IH q eq_refl). reflexivity.
Qed.
Lemma well_count_read : forall s k, well_count s k -> read_count (Some s) = Some k.
Proof.
  intros s k H. unfold read_count. destruct H as [s n H|s n H|s s' n m H H'].
  - pose proof (proj2 (decimal_digits _ _ H)) as N. destruct s as [|c s]; [congruence|]. set (w := String c s) in *. clearbody w.
    assert (F : free_of colon w) by (apply (decimal_free _ _ _) with (2 := H); right; cbn; lia). rewrite (split_colon_free _ F).
    destruct (drop_plus w) as [r|] eqn:E.
    + exfalso. apply drop_plus_inv in E. subst w. assert (F' : free_of "+"%char (r ++ "+")) by (apply (decimal_free _ _ _) with (2 := H); left; cbn; lia).
      apply free_app in F'. destruct F' as [_ [F' _]]. congruence.
    + apply number_iff in H. rewrite H. reflexivity.
  - assert (F : free_of colon (s ++ "+")) by (apply free_app; split; [apply (decimal_free _ _ _) with (2 := H); right; cbn; lia|cbn; split; [discriminate|exact I]]).
    assert (N : (s ++ "+")%string <> "") by (destruct s; discriminate). pose proof (drop_plus_app s) as D. set (w := (s ++ "+")%string) in *. clearbody w. destruct w as [|c w]; [congruence|].
    rewrite (split_colon_free _ F), D. apply number_iff in H. rewrite H. reflexivity.
  - assert (E : split_colon (s ++ ":" ++ s') = [s; s']).
    { apply split_colon_pair; [apply (decimal_free _ _ _) with (2 := H)|apply (decimal_free _ _ _) with (2 := H')]; right; cbn; lia. }
    assert (N : (s ++ ":" ++ s')%string <> "") by (destruct s; discriminate). set (w := (s ++ ":" ++ s')%string) in *. clearbody w. destruct w as [|c w]; [congruence|].
    rewrite E. apply number_iff in H, H'. rewrite H, H'. reflexivity.
Qed.
Theorem read_count_iff : forall o k, read_count o = k <-> count_is o k.
Proof.
  assert (G : forall o, count_is o (read_count o)).
  { intros [s|]; [|constructor]. destruct (string_dec s "") as [->|N]; [constructor|].
    assert (D : (exists k, well_count s k) \/ (read_count (Some s) = Some (COther s))).
    { unfold read_count. destruct s as [|c s]; [congruence|]. set (w := String c s) in *. clearbody w. pose proof (split_colon_inv w) as Hs. destruct (split_colon w) as [|a [|b [|d l]]]; auto.
      - destruct Hs as [-> F]. destruct (drop_plus w) as [r|] eqn:E.
        + destruct (number r) as [n|] eqn:En; [|auto]. left. apply drop_plus_inv in E. subst w. eexists. apply count_at_least. apply number_iff. exact En.
        + destruct (number w) as [n|] eqn:En; [|auto]. left. eexists. apply count_exactly. apply number_iff. exact En.
      - destruct (number a) as [n|] eqn:Ea; [|auto]. destruct (number b) as [m|] eqn:Eb; [|auto]. left. subst w. eexists. apply count_between; apply number_iff; eassumption. }
    destruct D as [[k Hk]|D].
    - rewrite (well_count_read _ _ Hk). constructor. exact Hk.
    - rewrite D. apply odd_count; [exact N|]. intros k Hk. pose proof (well_count_read _ _ Hk) as E. rewrite D in E. injection E as <-. inversion Hk. }
  intros o k. split; [intros <-; apply G|]. intro H. pose proof (G o) as K. destruct H as [| |s k H|s N H].
  - reflexivity.
  - reflexivity.
  - exact (well_count_read _ _ H).
  - inversion K as [|E0 E1|s0 k Hw E0 E1|s0 N' Hn E0 E1]; subst; [congruence|exfalso; exact (H _ Hw)|symmetry; exact E1].
Qed.

(** ** The reader, one element at a time *)
Section Reader.
  Variable db : option unidb.
  Variable look : table.
  Variable rules : rtable.
  Variable fuel : nat.
  Notation parse_helper := (parse_helper db look rules fuel).
  Notation precalculate := (precalculate db look rules fuel).

  Fixpoint parse_items (refuse : bool) (l : list xelem) (s : rread) : res (rread * list matcher) :=
    match l with
    | [] => Ok (s, [])
    | x :: l' =>
        bind (parse_helper x s) (fun p =>
        match snd p with
        | Some m =>
            if refuse then Raise (LGRFormatException BY_REF_AND_OTHER)
            else bind (parse_items refuse l' (fst p)) (fun q => Ok (fst q, m :: snd q))
        | None => parse_items refuse l' (fst p)
        end)
    end.
  Definition parse_rule_body (e : xelem) (s : rread) : res (rread * rule) :=
    bind (new_rule (rd_next s) (x_get e "name") (x_get e "by-ref")) (fun r =>
    bind (parse_items (match r_by_ref r with Some _ => true | None => false end) (x_children e)
                (mkRead (S (rd_next s)) (rd_cache s) (rd_results s))) (fun p =>
    let r1 := Rule (r_id r) (r_name r) (r_by_ref r) (snd p) in
    bind (precalculate r1 (fst p)) (fun s1 => Ok (s1, r1)))).
  Lemma parse_helper_eq : forall e s, parse_helper e s =
    let k := read_count (x_get e "count") in
    if has_tag "anchor" e then Ok (s, Some MAnchor)
    else if has_tag "any" e then Ok (s, Some (MAny k))
    else if has_tag "char" e then
      bind (elem_cps e) (fun o => Ok (s, Some (MChar (match o with Some l => l | None => [] end) k)))
    else if has_tag "choice" e then bind (parse_items false (x_children e) s) (fun p => Ok (fst p, Some (MChoice k (snd p))))
    else if has_tag "end" e then Ok (s, Some MEnd)
    else if has_tag "look-ahead" e then bind (parse_items false (x_children e) s) (fun p => Ok (fst p, Some (MAhead (snd p))))
    else if has_tag "look-behind" e then bind (parse_items false (x_children e) s) (fun p => Ok (fst p, Some (MBehind (snd p))))
    else if has_tag "start" e then Ok (s, Some MStart)
    else if has_tag "rule" e then bind (parse_rule_body e s) (fun p => Ok (fst p, Some (MRule (snd p) k)))
    else if class_tag e then bind (parse_class e) (fun c => Ok (s, Some (MClass c k)))
    else Ok (unhandled s, None).
  Proof.
    intros [sp n a tx ch] s. cbn [RulesXmlModel.parse_helper x_children]. cbv zeta.
    set (items := fix items (refuse : bool) (l : list xelem) (s : rread) : res (rread * list matcher) := match l with
      | [] => Ok (s, [])
      | x :: l' =>
          bind (parse_helper x s) (fun p =>
          match snd p with
          | Some m =>
              if refuse then Raise (LGRFormatException BY_REF_AND_OTHER)
              else bind (items refuse l' (fst p)) (fun q => Ok (fst q, m :: snd q))
          | None => items refuse l' (fst p)
          end)
      end).
    assert (E : forall l refuse s, items refuse l s = parse_items refuse l s).
    { induction l as [|x l IH]; intros refuse s0; [reflexivity|]. cbn [parse_items].
      transitivity (bind (parse_helper x s0) (fun p =>
          match snd p with
          | Some m =>
              if refuse then Raise (LGRFormatException BY_REF_AND_OTHER)
              else bind (items refuse l (fst p)) (fun q => Ok (fst q, m :: snd q))
          | None => items refuse l (fst p)
          end)); [reflexivity|].
      destruct (parse_helper x s0) as [[s1 [m|]]|]; cbn [bind fst snd]; rewrite ?IH; reflexivity. }
    clearbody items. rewrite !E.
    destruct (has_tag "anchor" _); [reflexivity|]. destruct (has_tag "any" _); [reflexivity|]. destruct (has_tag "char" _); [reflexivity|].
    destruct (has_tag "choice" _); [reflexivity|]. destruct (has_tag "end" _); [reflexivity|]. destruct (has_tag "look-ahead" _); [reflexivity|].
    destruct (has_tag "look-behind" _); [reflexivity|]. destruct (has_tag "start" _); [reflexivity|]. destruct (has_tag "rule" _); [|reflexivity].
    unfold parse_rule_body. cbn [x_children]. destruct (new_rule _ _ _) as [r|]; cbn [bind]; [|reflexivity]. rewrite E.
    destruct (parse_items _ ch _) as [[s1 l]|]; cbn [bind fst snd]; [|reflexivity]. destruct (precalculate _ s1); reflexivity.
  Qed.

  (** ** What is read is what is said *)
  Lemma unknown_iff : forall e, unknown rule_names e <->
    (has_tag "anchor" e = false /\ has_tag "any" e = false /\ has_tag "char" e = false /\ has_tag "choice" e = false /\ has_tag "end" e = false /\
     has_tag "look-ahead" e = false /\ has_tag "look-behind" e = false /\ has_tag "start" e = false /\ has_tag "rule" e = false) /\ class_tag e = false.
  Proof.
    intro e. split.
    - intros H. assert (G : forall n, In n rule_names -> ~ lgr_elem n e).
      { intros n Hn [K1 K2]. subst n. destruct H as [H|H]; contradiction. }
      split; [repeat split; apply has_tag_false; apply G; cbn; tauto|].
      apply Bool.not_true_is_false. intro K. apply class_tag_iff in K. destruct K as [K|[op K]]; [revert K|revert K; destruct op]; apply G; cbn; tauto.
    - intros [[H1 [H2 [H3 [H4 [H5 [H6 [H7 [H8 H9]]]]]]]] H]. destruct (x_space e) eqn:Es; [|left; congruence..]. right. intro K.
      assert (G : forall n, x_name e = n -> lgr_elem n e) by (intros n Hn; split; assumption).
      apply Bool.not_true_iff_false in H. apply has_tag_false in H1, H2, H3, H4, H5, H6, H7, H8, H9.
      cbn in K. repeat (destruct K as [K|K]; [symmetry in K; apply G in K; first [contradiction | apply H; apply class_tag_iff; left; exact K | apply H; apply class_tag_iff; right; first [exists Complement; exact K|exists Union; exact K|exists Intersection; exact K|exists Difference; exact K|exists SymmetricDifference; exact K]]|]).
      exact K.
  Qed.
  Definition reads_well (e : xelem) : Prop := forall s s' o, parse_helper e s = Ok (s', o) ->
    match o with Some m => matcher_of e m | None => unknown rule_names e end.
  Lemma items_read : forall l, Forall reads_well l -> forall refuse s s' ms, parse_items refuse l s = Ok (s', ms) ->
    matchers_of l ms /\ (refuse = true -> ms = [] /\ Forall (unknown rule_names) l).
  Proof.
    intros l H. induction H as [|e l He Hl IH]; intros refuse s s' ms K; cbn [parse_items] in K.
    - injection K as <- <-. split; [constructor|]. intros _. split; [reflexivity|constructor].
    - destruct (parse_helper e s) as [[s1 [m|]]|] eqn:E; cbn [bind fst snd] in K; [| |discriminate].
      + apply He in E. destruct refuse; [discriminate|]. destruct (parse_items false l s1) as [[s2 ms2]|] eqn:E2; cbn [bind fst snd] in K; [|discriminate].
        injection K as <- <-. split; [|discriminate]. apply say_more; [exact E|]. apply (IH _ _ _ _ E2).
      + apply He in E. destruct (IH _ _ _ _ K) as [K1 K2]. split; [apply say_unknown; assumption|]. intro R. destruct (K2 R) as [Q1 Q2]. split; [exact Q1|constructor; assumption].
  Qed.
  Lemma rule_body_read : forall e, lgr_elem "rule" e -> Forall reads_well (x_children e) -> forall s s' r, parse_rule_body e s = Ok (s', r) -> rule_of e r.
  Proof.
    intros e T IH s s' r H. unfold parse_rule_body in H. destruct (x_get e "by-ref") as [b|] eqn:Eb.
    - destruct (x_get e "name") as [n|] eqn:En; cbn [new_rule bind r_by_ref r_id r_name] in H; [discriminate|].
      destruct (parse_items true (x_children e) _) as [[s1 l]|] eqn:E; cbn [bind fst snd] in H; [|discriminate].
      destruct (precalculate _ s1) as [s2|]; cbn [bind] in H; [|discriminate]. injection H as <- <-.
      destruct (proj2 (items_read _ IH _ _ _ _ E) eq_refl) as [-> F]. apply says_rule_ref; assumption.
    - destruct (parse_items false (x_children e) (mkRead (S (rd_next s)) (rd_cache s) (rd_results s))) as [[s1 l]|] eqn:E.
      + assert (H' : r = Rule (rd_next s) (x_get e "name") None l).
        { destruct (x_get e "name"); cbn [new_rule bind r_by_ref r_id r_name] in H; rewrite E in H; cbn [bind fst snd] in H;
            (destruct (precalculate _ s1) as [s2|]; cbn [bind] in H; [|discriminate]; injection H as _ <-; reflexivity). }
        subst r. apply says_rule_of; auto. apply (items_read _ IH _ _ _ _ E).
      + exfalso. destruct (x_get e "name"); cbn [new_rule bind r_by_ref r_id r_name] in H; rewrite E in H; discriminate.
  Qed.
  Theorem helper_read : forall e, reads_well e.
  Proof.
    intro e. induction e as [sp n a t ch IH] using xelem_induct. set (e := XElem sp n a t ch). change ch with (x_children e) in IH. clearbody e.
    intros s s' o H. rewrite parse_helper_eq in H. cbv zeta in H.
    assert (HK : count_is (x_get e "count") (read_count (x_get e "count"))) by (apply read_count_iff; reflexivity).
    destruct (has_tag "anchor" e) eqn:T1; [apply has_tag_iff in T1; injection H as <- <-; apply says_anchor; exact T1|].
    destruct (has_tag "any" e) eqn:T2; [apply has_tag_iff in T2; injection H as <- <-; apply says_any; assumption|].
    destruct (has_tag "char" e) eqn:T3.
    { pose proof (proj1 (has_tag_iff _ _) T3) as T. destruct (elem_cps e) as [[l|]|] eqn:E; cbn [bind] in H; [| |discriminate].
      - injection H as <- <-. apply says_char; [exact T|apply elem_cps_iff; exact E|exact HK].
      - exfalso. unfold elem_cps in E. rewrite T3 in E. destruct (needs_attr _) as [q|]; cbn [bind] in E; [|discriminate]. destruct (parse_cps q); discriminate. }
    destruct (has_tag "choice" e) eqn:T4.
    { apply has_tag_iff in T4. destruct (parse_items false (x_children e) s) as [[s1 l]|] eqn:E; cbn [bind fst snd] in H; [|discriminate]. injection H as <- <-.
      apply says_choice; [exact T4|exact (proj1 (items_read _ IH _ _ _ _ E))|exact HK]. }
    destruct (has_tag "end" e) eqn:T5; [apply has_tag_iff in T5; injection H as <- <-; apply says_end; exact T5|].
    destruct (has_tag "look-ahead" e) eqn:T6.
    { apply has_tag_iff in T6. destruct (parse_items false (x_children e) s) as [[s1 l]|] eqn:E; cbn [bind fst snd] in H; [|discriminate]. injection H as <- <-.
      apply says_ahead; [exact T6|exact (proj1 (items_read _ IH _ _ _ _ E))]. }
    destruct (has_tag "look-behind" e) eqn:T7.
    { apply has_tag_iff in T7. destruct (parse_items false (x_children e) s) as [[s1 l]|] eqn:E; cbn [bind fst snd] in H; [|discriminate]. injection H as <- <-.
      apply says_behind; [exact T7|exact (proj1 (items_read _ IH _ _ _ _ E))]. }
    destruct (has_tag "start" e) eqn:T8; [apply has_tag_iff in T8; injection H as <- <-; apply says_start; exact T8|].
    destruct (has_tag "rule" e) eqn:T9.
    { apply has_tag_iff in T9. destruct (parse_rule_body e s) as [[s1 r]|] eqn:E; cbn [bind fst snd] in H; [|discriminate]. injection H as <- <-.
      apply says_rule; [exact (rule_body_read e T9 IH _ _ _ E)|exact HK]. }
    destruct (class_tag e) eqn:T10.
    { destruct (parse_class e) as [c|] eqn:E; cbn [bind] in H; [|discriminate]. injection H as <- <-. apply says_class; [apply class_read; exact E|exact HK]. }
    injection H as <- <-. apply unknown_iff. tauto.
  Qed.
  Lemma parse_rule_eq : forall e s, lgr_elem "rule" e -> parse_rule db look rules fuel e s = parse_rule_body e s.
  Proof.
    intros e s T. unfold parse_rule. rewrite parse_helper_eq. cbv zeta.
    rewrite (has_tag_other _ "anchor" _ T), (has_tag_other _ "any" _ T), (has_tag_other _ "char" _ T), (has_tag_other _ "choice" _ T), (has_tag_other _ "end" _ T),
      (has_tag_other _ "look-ahead" _ T), (has_tag_other _ "look-behind" _ T), (has_tag_other _ "start" _ T) by discriminate. rewrite (proj2 (has_tag_iff _ _) T).
    destruct (parse_rule_body e s) as [[s1 r]|]; reflexivity.
  Qed.
  Theorem rule_read : forall e s s' r, lgr_elem "rule" e -> parse_rule db look rules fuel e s = Ok (s', r) -> rule_of e r.
  Proof.
    intros e s s' r T H. rewrite (parse_rule_eq _ _ T) in H. apply (rule_body_read e T) with (s := s) (s' := s'); [|exact H].
    rewrite Forall_forall. intros x _. apply helper_read.
  Qed.
End Reader.
