(** The patterns built for rules mean what RFC 7940 says. *)
From Verif Require Import Base BaseFacts ClassModel ClassSpec ClassProofs ClassFinal RuleModel RuleSpec RegexProofs.
Open Scope string_scope.
Open Scope list_scope.
Open Scope nat_scope.

Lemma empty_set_iff : forall u s, empty_set u s = true <-> forall x, (x <= ud_max u)%N -> s x = false.
Proof.
  intros u s. unfold empty_set. rewrite Bool.negb_true_iff. split.
  - intros H x Hx. destruct (s x) eqn:E; [|reflexivity]. assert (existsb s (nrange 0 (ud_max u)) = true); [|congruence].
    apply existsb_exists. exists x. rewrite nrange_In. split; [lia|exact E].
  - intros H. destruct (existsb s (nrange 0 (ud_max u))) eqn:E; [|reflexivity]. apply existsb_exists in E. destruct E as [x [Hx E]]. rewrite nrange_In in Hx. rewrite H in E by lia. discriminate.
Qed.

Section Uncached.
  Variable u : unidb.
  Variable look : table.
  Variable rules : rtable.

  (** The same computation without the cache. *)
  Fixpoint upat (fuel : nat) (lb : bool) (m : matcher) : res (list token) :=
    match fuel with
    | O => Raise OutOfFuel
    | S f =>
        match m with
        | MStart => Ok [TStart]
        | MEnd => Ok [TEnd]
        | MAnchor => Ok [TAnchor]
        | MAny n => Ok (TDot :: count_tokens lb n)
        | MChar l n => Ok (grouped lb n (map TChar l))
        | MClass c n => bind (class_pattern u look f c) (fun p => Ok (grouped lb n p))
        | MChoice n alts => bind (upats f lb alts) (fun ps => Ok (TOpenNC :: TOpenNC :: alternatives ps ++ TClose :: TClose :: count_tokens lb n))
        | MAhead l => bind (upats f false l) (fun ps => Ok (TAhead :: List.concat ps ++ [TClose]))
        | MBehind l => bind (upats f true l) (fun ps => Ok (TBehind :: List.concat ps ++ [TClose]))
        | MRule r n => bind (urpat f lb r) (fun p => Ok (grouped lb n p))
        end
    end
  with upats (fuel : nat) (lb : bool) (l : list matcher) : res (list (list token)) :=
    match fuel with
    | O => Raise OutOfFuel
    | S f =>
        match l with
        | [] => Ok []
        | m :: l' => match upat f lb m with
                     | Raise e => Raise e
                     | Ok p => bind (upats f lb l') (fun ps => Ok (p :: ps))
                     end
        end
    end
  with urpat (fuel : nat) (lb : bool) (r : rule) : res (list token) :=
    match fuel with
    | O => Raise OutOfFuel
    | S f =>
        match r_by_ref r with
        | Some b => match dget String.eqb b rules with
                    | None => Raise (RuleError b)
                    | Some r' => urpat f lb r'
                    end
        | None => match upats f lb (r_children r) with
                  | Raise e => Raise e
                  | Ok ps => Ok (List.concat ps)
                  end
        end
    end.

  Variable w : cps.
  Variable anchor : option cps.
  Hypothesis short : length w <= max_label.
  Hypothesis HT : shaped_table look.
  Hypothesis HG : good_rules u look rules.
  Hypothesis noperc : anchor = None -> ~ In 37%N w.
  Notation n := (length w).
  Notation once := (once u look rules w anchor).
  Notation reps := (reps u look rules w anchor).
  Notation seqm := (seqm u look rules w anchor).
  Notation rsem := (rsem u look rules w anchor).
  Definition filling : list token := match anchor with Some a => map TChar a | None => unfilled end.

  Lemma reps_iter : forall m k i j, reps m k i j <-> iter (once m) k i j.
  Proof.
    intros m. induction k as [|k IH]; intros i j.
    - cbn. split; [intro H; inversion H; reflexivity|intro; subst; constructor].
    - cbn [iter]. split.
      + intro H. inversion H as [|m' n' i' x j' H1 H2]; subst. exists x. split; [exact H1|]. apply IH. exact H2.
      + intros [x [H1 H2]]. apply (P_more u look rules w anchor m k i x j H1). apply IH. exact H2.
  Qed.
  Lemma seq_one : forall m i j, seqm [m] i j <-> exists k, counted (count_of m) k /\ iter (once m) k i j.
  Proof.
    intros m i j. split.
    - intro H. inversion H as [|m' l k i' x j' H1 H2 H3]; subst. inversion H3; subst. exists k. split; [exact H1|]. apply reps_iter. exact H2.
    - intros [k [H1 H2]]. apply (S_cons u look rules w anchor m [] k i j j H1); [apply reps_iter; exact H2|constructor].
  Qed.
  Lemma seq_cons_iff : forall m l i j, seqm (m :: l) i j <-> exists x, seqm [m] i x /\ seqm l x j.
  Proof.
    intros m l i j. split.
    - intro H. inversion H as [|m' l' k i' x j' H1 H2 H3]; subst. exists x. split; [|exact H3].
      apply (S_cons u look rules w anchor m [] k i x x H1 H2). constructor.
    - intros [x [H1 H2]]. inversion H1 as [|m' l' k i' x' j' H3 H4 H5]; subst. inversion H5; subst.
      exact (S_cons u look rules w anchor m l k i x j H3 H4 H2).
  Qed.

  (** Items read for a piece of pattern, with their meaning. *)
  Definition renders (lb : bool) (P : nat -> nat -> Prop) (p : list token) : Prop :=
    exists l, reads (fill filling p) l /\ (lb = true -> Forall finite l) /\ forall i j, i <= n -> (mat w (rcat l) i j = true <-> P i j).

  Lemma fill_counts : forall lb k, fill filling (count_tokens lb k) = count_tokens lb k.
  Proof. intros lb [[a|a|a b|s]|]; reflexivity. Qed.
  Lemma renders_ext : forall lb (P Q : nat -> nat -> Prop) p, (forall i j, i <= n -> (P i j <-> Q i j)) -> renders lb P p -> renders lb Q p.
  Proof. intros lb P Q p HE [l [H1 [H2 H3]]]. exists l. split; [exact H1|]. split; [exact H2|]. intros i j Hi. rewrite H3 by exact Hi. apply HE. exact Hi. Qed.

  (** One item with a count. *)
  Lemma counted_item : forall lb k x p (P : nat -> nat -> Prop), good_count k -> reads (fill filling p) [x] ->
    (lb = true -> finite x) -> (forall i j, i <= n -> (mat w x i j = true <-> P i j)) ->
    renders lb (fun i j => exists c, counted k c /\ iter P c i j) (p ++ count_tokens lb k).
  Proof.
    intros lb k x p P Hk Hr Hf Hm.
    assert (Hit : forall c i j, i <= n -> (iter (fun a b => mat w x a b = true) c i j <-> iter P c i j)).
    { intros c i j Hi. apply (iter_ext _ _ (fun a => a <= n)); [exact Hm| |exact Hi]. intros a b Ha H. exact (proj2 (mat_range _ _ _ _ Ha H)). }
    destruct k as [k|].
    - assert (HB : exists lo hi, count_tokens lb (Some k) = [TCount lo hi] /\ match hi with Some h => lo <= h | None => True end /\ (lb = true -> hi <> None) /\
        forall i j, i <= n -> ((exists c, lo <= c /\ match hi with Some h => c <= h | None => True end /\ iter (fun a b => mat w x a b = true) c i j) <-> exists c, counted (Some k) c /\ iter P c i j)).
      { destruct k as [a|a|a b|s]; [| | |destruct Hk].
        - exists a, (Some a). split; [reflexivity|]. split; [lia|]. split; [discriminate|]. intros i j Hi. cbn [counted]. split.
          + intros [c [H1 [H2 H3]]]. exists c. split; [lia|]. apply Hit; assumption.
          + intros [c [H1 H2]]. exists c. split; [lia|]. split; [lia|]. apply Hit; assumption.
        - exists a, (if lb then Some max_label else None). split; [reflexivity|]. cbn [good_count] in Hk. split; [destruct lb; [exact Hk|exact I]|]. split; [intros ->; discriminate|].
          intros i j Hi. cbn [counted]. split.
          + intros [c [H1 [_ H3]]]. exists c. split; [exact H1|]. apply Hit; assumption.
          + intros [c [H1 H2]]. apply Hit in H2; [|exact Hi].
            destruct (pump _ (fun y => y <= n) (fun i' j' Hi' H' => mat_range w x i' j' Hi' H') c a i j Hi H1 H2) as [A [B [c' [C1 [C2 [C3 C4]]]]]].
            exists c'. split; [exact C1|]. split; [|exact C4]. destruct lb; [|exact I]. lia.
        - exists a, (Some b). cbn [good_count] in Hk. split; [reflexivity|]. split; [exact Hk|]. split; [discriminate|]. intros i j Hi. cbn [counted]. split.
          + intros [c [H1 [H2 H3]]]. exists c. split; [lia|]. apply Hit; assumption.
          + intros [c [H1 H2]]. exists c. split; [lia|]. split; [lia|]. apply Hit; assumption. }
      destruct HB as [lo [hi [E [Hb [Hfin HS]]]]]. rewrite E. exists [RRep x lo hi]. split; [|split].
      + rewrite fill_app. change (fill filling [TCount lo hi]) with [TCount lo hi]. apply reads_count; assumption.
      + intro Hlb. constructor; [|constructor]. unfold finite in *. cbn [longest]. specialize (Hf Hlb). specialize (Hfin Hlb).
        destruct (longest x); [|congruence]. destruct hi; [discriminate|congruence].
      + intros i j Hi. rewrite rcat_one by exact Hi. rewrite mat_rep by assumption. apply HS. exact Hi.
    - cbn [count_tokens]. rewrite app_nil_r. exists [x]. split; [exact Hr|]. split; [intro Hlb; constructor; [exact (Hf Hlb)|constructor]|].
      intros i j Hi. rewrite rcat_one by exact Hi. rewrite Hm by exact Hi. cbn [counted]. split.
      + intro H. exists 1. split; [reflexivity|]. apply iter_one. exact H.
      + intros [c [-> H]]. exact (proj1 (iter_one _ _ _) H).
  Qed.
  Lemma single : forall (P : nat -> nat -> Prop) i j, (exists c, counted None c /\ iter P c i j) <-> P i j.
  Proof. intros P i j. cbn [counted]. split; [intros [c [-> H]]; exact (proj1 (iter_one _ _ _) H)|intro H; exists 1; split; [reflexivity|]; apply iter_one; exact H]. Qed.

  Lemma grouped_renders : forall lb k p (P : nat -> nat -> Prop), good_count k -> renders lb P p ->
    renders lb (fun i j => exists c, counted k c /\ iter P c i j) (grouped lb k p).
  Proof.
    intros lb k p P Hk [l [H1 [H2 H3]]]. destruct k as [k|].
    - unfold grouped. change (TOpen :: p ++ TClose :: count_tokens lb (Some k)) with ((TOpen :: p) ++ [TClose] ++ count_tokens lb (Some k)). rewrite app_assoc.
      apply (counted_item lb (Some k) (rcat l) ((TOpen :: p) ++ [TClose])); [exact Hk| | |exact H3].
      + rewrite fill_app. change (fill filling (TOpen :: p)) with (TOpen :: fill filling p). apply (reads_group TOpen); [auto|]. apply reads_one. exact H1.
      + intro Hlb. apply rcat_finite. auto.
    - exists l. split; [exact H1|]. split; [exact H2|]. intros i j Hi. rewrite single. apply H3. exact Hi.
  Qed.

  Lemma renders_nil : forall lb, renders lb (fun i j => i = j) [].
  Proof. intro lb. exists []. split; [constructor|]. split; [constructor|]. intros i j Hi. cbn. apply Nat.eqb_eq. Qed.
  Lemma renders_app : forall lb p q (P Q : nat -> nat -> Prop), renders lb P p -> renders lb Q q ->
    renders lb (fun i j => exists x, P i x /\ Q x j) (p ++ q).
  Proof.
    intros lb p q P Q [l [H1 [H2 H3]]] [l' [H1' [H2' H3']]]. exists (l ++ l'). split; [rewrite fill_app; apply reads_app; assumption|].
    split; [intro Hlb; apply Forall_app; auto|]. intros i j Hi. rewrite rcat_app by exact Hi. split.
    - intros [x [A B]]. exists x. pose proof (proj2 (mat_range _ _ _ _ Hi A)) as Hx. split; [apply H3; assumption|apply H3'; assumption].
    - intros [x [A B]]. assert (A' : mat w (rcat l) i x = true) by (apply H3; assumption). exists x. split; [exact A'|]. apply H3'; [exact (proj2 (mat_range _ _ _ _ Hi A'))|exact B].
  Qed.
  Lemma concat_renders : forall lb ms ps, Forall2 (fun m p => renders lb (fun i j => seqm [m] i j) p) ms ps ->
    renders lb (fun i j => seqm ms i j) (List.concat ps).
  Proof.
    induction 1 as [|m p ms ps Hp _ IH].
    - apply (renders_ext lb (fun i j => i = j)); [|apply renders_nil]. intros i j _. split; [intro; subst; constructor|intro H; inversion H; reflexivity].
    - cbn [List.concat]. refine (renders_ext lb _ _ _ _ (renders_app lb _ _ _ _ Hp IH)). intros i j _. symmetry. apply seq_cons_iff.
  Qed.
  Lemma alternatives_reads : forall lb ms ps, ms <> [] -> Forall2 (fun m p => renders lb (fun i j => seqm [m] i j) p) ms ps ->
    exists r, reads_alts (fill filling (TOpenNC :: alternatives ps ++ [TClose])) r /\ (lb = true -> finite r) /\
      forall i j, i <= n -> (mat w r i j = true <-> exists m, In m ms /\ seqm [m] i j).
  Proof.
    intros lb ms ps Hne H. induction H as [|m p ms ps Hp Hps IH]; [congruence|].
    destruct Hp as [l [H1 [H2 H3]]].
    assert (HG1 : reads (TOpenNC :: fill filling p ++ [TClose]) [rcat l]) by (apply reads_group; [auto|apply reads_one; exact H1]).
    assert (Hrr : forall i j, i <= n -> (mat w (rcat [rcat l]) i j = true <-> seqm [m] i j)) by (intros i j Hi; rewrite rcat_one by exact Hi; apply H3; exact Hi).
    assert (Hfin : lb = true -> finite (rcat [rcat l])) by (intro Hlb; apply rcat_finite; constructor; [apply rcat_finite; auto|constructor]).
    destruct Hps as [|m' p' ms ps Hp' Hps].
    - exists (rcat [rcat l]). cbn [alternatives]. split; [|split].
      + change (fill filling (TOpenNC :: p ++ [TClose])) with (TOpenNC :: fill filling (p ++ [TClose])). rewrite fill_app. apply reads_one. exact HG1.
      + exact Hfin.
      + intros i j Hi. rewrite Hrr by exact Hi. split; [intro H; exists m; split; [left; reflexivity|exact H]|]. intros [m0 [[<-|[]] H]]. exact H.
    - destruct (IH ltac:(discriminate)) as [r [R1 [R2 R3]]]. exists (RAlt (rcat [rcat l]) r). split; [|split].
      + change (alternatives (p :: p' :: ps)) with (p ++ [TClose; TBar; TOpenNC] ++ alternatives (p' :: ps)).
        change (fill filling (TOpenNC :: (p ++ [TClose; TBar; TOpenNC] ++ alternatives (p' :: ps)) ++ [TClose])) with (TOpenNC :: fill filling ((p ++ [TClose; TBar; TOpenNC] ++ alternatives (p' :: ps)) ++ [TClose])).
        rewrite <- app_assoc. rewrite fill_app.
        change (fill filling (([TClose; TBar; TOpenNC] ++ alternatives (p' :: ps)) ++ [TClose])) with (TClose :: TBar :: fill filling (TOpenNC :: alternatives (p' :: ps) ++ [TClose])).
        replace (TOpenNC :: fill filling p ++ TClose :: TBar :: fill filling (TOpenNC :: alternatives (p' :: ps) ++ [TClose]))
          with ((TOpenNC :: fill filling p ++ [TClose]) ++ TBar :: fill filling (TOpenNC :: alternatives (p' :: ps) ++ [TClose]))
          by (rewrite <- app_comm_cons, <- app_assoc; reflexivity).
        apply reads_more; assumption.
      + intro Hlb. specialize (Hfin Hlb). specialize (R2 Hlb). unfold finite in *. cbn [longest]. destruct (longest (rcat [rcat l])), (longest r); congruence.
      + intros i j Hi. cbn [mat]. rewrite Bool.orb_true_iff. rewrite (Hrr i j Hi), (R3 i j Hi). split.
        * intros [H|[m0 [Hin H]]]; [exists m|exists m0]; (split; [|exact H]); [left; reflexivity|right; exact Hin].
        * intros [m0 [[<-|Hin] H]]; [left; exact H|right; exists m0; auto].
  Qed.

  Lemma good_list : forall l, (fix all l := match l with [] => True | x :: l' => good_matcher u look x /\ all l' end) l <-> Forall (good_matcher u look) l.
  Proof.
    induction l as [|x l IH]; split; intro H; [constructor|exact I| |].
    - destruct H as [H1 H2]. constructor; [exact H1|]. apply IH. exact H2.
    - inversion H; subst. split; [assumption|]. apply IH. assumption.
  Qed.

  Lemma unfilled_never : ~ In 37%N w -> forall i j, i <= n -> mat w (rcat (RChar 37 :: [rcat (map RChar [97; 110; 99; 104; 111; 114]%N); RChar 115])) i j = false.
  Proof.
    intros Hp i j Hi. destruct (mat w _ i j) eqn:E; [|reflexivity]. exfalso.
    change (rcat (RChar 37 :: [rcat (map RChar [97; 110; 99; 104; 111; 114]%N); RChar 115])) with (RCat (RChar 37) (rcat [rcat (map RChar [97; 110; 99; 104; 111; 114]%N); RChar 115])) in E.
    apply mat_cat in E; [|exact Hi]. destruct E as [k [E _]]. cbn [mat] in E. destruct (nth_error w i) as [x|] eqn:Ex; [|discriminate].
    apply Bool.andb_true_iff in E. destruct E as [E _]. apply N.eqb_eq in E. subst x. apply Hp. eapply nth_error_In. exact Ex.
  Qed.

  Lemma pattern_means : forall f,
    (forall lb m p, upat f lb m = Ok p -> good_matcher u look m -> renders lb (fun i j => seqm [m] i j) p) /\
    (forall lb ms ps, upats f lb ms = Ok ps -> Forall (good_matcher u look) ms -> Forall2 (fun m p => renders lb (fun i j => seqm [m] i j) p) ms ps) /\
    (forall lb r p, urpat f lb r = Ok p -> good_rule u look r -> renders lb (fun i j => rsem r i j) p).
  Proof.
    induction f as [|f IH]; [repeat split; discriminate|]. destruct IH as [IHm [IHl IHr]]. split; [|split].
    - intros lb m p H Hg.
      assert (Hone : forall (P : nat -> nat -> Prop) q, count_of m = None -> (forall i j, i <= n -> (P i j <-> once m i j)) -> renders lb P q -> renders lb (fun i j => seqm [m] i j) q).
      { intros P q Hc HP. apply renders_ext. intros i j Hi. rewrite seq_one, Hc, single. apply HP. exact Hi. }
      assert (Hcnt : forall (P : nat -> nat -> Prop) q, (forall i j, i <= n -> (P i j <-> once m i j)) -> (forall i j, i <= n -> once m i j -> j <= n) ->
        renders lb (fun i j => exists c, counted (count_of m) c /\ iter P c i j) q -> renders lb (fun i j => seqm [m] i j) q).
      { intros P q HP HD. apply renders_ext. intros i j Hi. rewrite seq_one. split; intros [c [H1 H2]]; exists c; (split; [exact H1|]).
        - apply (iter_ext P (once m) (fun a => a <= n)); auto. intros a b Ha Hab. apply (HD a b Ha). apply HP; assumption.
        - apply (iter_ext P (once m) (fun a => a <= n)); auto. intros a b Ha Hab. apply (HD a b Ha). apply HP; assumption. }
      destruct m as [ | | |k|l k|c k|k alts|l|l|r k]; cbn [upat] in H.
      + injection H as H. subst p. apply (Hone (fun i j => i = 0 /\ i = j)); [reflexivity| |].
        * intros i j _. split; [intros [-> <-]; constructor|intro H; inversion H; auto].
        * exists [RStart]. split; [constructor|]. split; [intros _; repeat constructor; discriminate|]. intros i j Hi. rewrite rcat_one by exact Hi. cbn [mat]. rewrite Bool.andb_true_iff, !Nat.eqb_eq. reflexivity.
      + injection H as H. subst p. apply (Hone (fun i j => i = n /\ i = j)); [reflexivity| |].
        * intros i j _. split; [intros [-> <-]; constructor|intro H; inversion H; auto].
        * exists [REnd]. split; [constructor|]. split; [intros _; repeat constructor; discriminate|]. intros i j Hi. rewrite rcat_one by exact Hi. cbn [mat]. rewrite Bool.andb_true_iff, !Nat.eqb_eq. reflexivity.
      + injection H as H. subst p. unfold filling in *. destruct anchor as [a|] eqn:Ea.
        * apply (Hone (fun i j => occurs w a i /\ j = i + length a)); [reflexivity| |].
          -- intros i j _. split; [intros [H1 ->]; apply O_anchor; [reflexivity|exact H1]|]. intro H. inversion H as [| |a' i' Ha Ho| | | | | | |]; subst. injection Ha as Ha. subst a'. auto.
          -- unfold renders, filling. rewrite Ea. exists (map RChar a). change (fill (map TChar a) [TAnchor]) with (map TChar a ++ []). rewrite app_nil_r. split; [apply reads_chars|].
             split; [intros _; apply Forall_forall; intros x Hx; apply in_map_iff in Hx; destruct Hx as [c [<- _]]; discriminate|].
             intros i j Hi. apply rcat_chars. exact Hi.
        * apply (Hone (fun i j => False)); [reflexivity| |].
          -- intros i j _. split; [intros []|]. intro H. inversion H as [| |a' i' Ha Ho| | | | | | |]; subst. discriminate.
          -- unfold renders, filling. rewrite Ea. exists (RChar 37 :: [rcat (map RChar [97; 110; 99; 104; 111; 114]%N); RChar 115]). split; [|split].
             ++ change (fill unfilled [TAnchor]) with (unfilled ++ []). rewrite app_nil_r. unfold unfilled.
                apply (reads_app [TChar 37] [RChar 37]); [constructor|].
                apply (reads_app (TOpen :: map TChar [97; 110; 99; 104; 111; 114]%N ++ [TClose]) [rcat (map RChar [97; 110; 99; 104; 111; 114]%N)] [TChar 115] [RChar 115]); [|constructor].
                apply reads_group; [auto|]. apply reads_one. apply reads_chars.
             ++ intros _. constructor; [discriminate|]. constructor; [apply rcat_finite; repeat constructor; discriminate|]. constructor; [discriminate|constructor].
             ++ intros i j Hi. rewrite unfilled_never; [split; [discriminate|intros []]|exact (noperc eq_refl)|exact Hi].
      + injection H as H. subst p. cbn [good_matcher] in Hg. change (TDot :: count_tokens lb k) with ([TDot] ++ count_tokens lb k).
        apply (Hcnt (fun i j => i < n /\ j = i + 1)).
        * intros i j _. split; [intros [H1 ->]; constructor; exact H1|intro H; inversion H; subst; auto].
        * intros i j Hi H. inversion H; subst. lia.
        * apply (counted_item lb k RDot); [exact Hg|constructor|discriminate|].
          intros i j Hi. cbn [mat]. destruct (nth_error w i) eqn:E.
          -- apply nth_lt in E. rewrite Nat.eqb_eq. lia.
          -- apply nth_error_None in E. split; [discriminate|]. lia.
      + injection H as H. subst p. cbn [good_matcher] in Hg. apply (Hcnt (fun i j => occurs w l i /\ j = i + length l)).
        * intros i j _. split; [intros [H1 ->]; constructor; exact H1|intro H; inversion H; subst; auto].
        * intros i j Hi H. inversion H as [| | | |l' k' i' Ho| | | | |]; subst. assert (E : mat w (rcat (map RChar l)) i (i + length l) = true) by (apply rcat_chars; auto).
          exact (proj2 (mat_range _ _ _ _ Hi E)).
        * apply grouped_renders; [exact (proj2 Hg)|]. exists (map RChar l). split; [rewrite fill_none by apply chars_no_anchor; apply reads_chars|].
          split; [intros _; apply Forall_forall; intros x Hx; apply in_map_iff in Hx; destruct Hx as [c [<- _]]; discriminate|]. intros i j Hi. apply rcat_chars. exact Hi.
      + cbn [good_matcher] in Hg. destruct Hg as [[Hsh Hne] Hk]. unfold class_pattern in H. destruct (class_set u look f c) as [s|e] eqn:Es; [|discriminate].
        cbn [bind] in H. pose proof (class_result u look c f s Hsh HT Es) as HD. destruct (Hne _ HD) as [x Hx].
        assert (Hemp : empty_set u s = false).
        { destruct (empty_set u s) eqn:E; [|reflexivity]. rewrite empty_set_iff in E. pose proof (denotes_bounded _ _ _ _ HD x Hx) as Hb. rewrite (E x Hb) in Hx. discriminate. }
        rewrite Hemp in H. injection H as H. subst p. apply (Hcnt (fun i j => (exists y, nth_error w i = Some y /\ s y = true) /\ j = i + 1)).
        * intros i j _. split.
          -- intros [[y [H1 H2]] ->]. exact (O_class u look rules w anchor c k i y _ HD H1 H2).
          -- intro H. inversion H as [| | | | |c' k' i' y P HP H1 H2| | | |]; subst. split; [|reflexivity]. exists y. split; [exact H1|]. apply (denotes_unique _ _ _ _ _ HP HD). exact H2.
        * intros i j Hi H. inversion H as [| | | | |c' k' i' y P HP H1 H2| | | |]; subst. apply nth_lt in H1. lia.
        * apply grouped_renders; [exact Hk|]. exists [RSet s]. split; [constructor|]. split; [intros _; repeat constructor; discriminate|].
          intros i j Hi. rewrite rcat_one by exact Hi. cbn [mat]. destruct (nth_error w i) as [y|].
          -- rewrite Bool.andb_true_iff, Nat.eqb_eq. split; [intros [A B]; split; [exists y; auto|lia]|]. intros [[y' [Ey A]] B]. injection Ey as Ey. subst y'. split; [exact A|lia].
          -- split; [discriminate|]. intros [[y' [Ey _]] _]. discriminate.
      + cbn [good_matcher] in Hg. destruct Hg as [Hne [Hk Ha]]. apply good_list in Ha. destruct (upats f lb alts) as [ps|e] eqn:Ep; [|discriminate]. cbn [bind] in H. injection H as H. subst p.
        pose proof (IHl lb alts ps Ep Ha) as HL. destruct (alternatives_reads lb alts ps Hne HL) as [r [R1 [R2 R3]]].
        apply (Hcnt (fun i j => exists m, In m alts /\ seqm [m] i j)).
        * intros i j _. split; [intros [m [A B]]; exact (O_choice u look rules w anchor k alts m i j A B)|intro H; inversion H; subst; eauto].
        * intros i j Hi H. inversion H as [| | | | | |k' al m i' j' A B| | |]; subst. assert (E : mat w r i j = true) by (apply R3; [exact Hi|]; exists m; auto). exact (proj2 (mat_range _ _ _ _ Hi E)).
        * change (TOpenNC :: TOpenNC :: alternatives ps ++ TClose :: TClose :: count_tokens lb k) with (TOpenNC :: (TOpenNC :: alternatives ps ++ ([TClose] ++ [TClose] ++ count_tokens lb k))).
          replace (TOpenNC :: (TOpenNC :: alternatives ps ++ ([TClose] ++ [TClose] ++ count_tokens lb k))) with ((TOpenNC :: (TOpenNC :: alternatives ps ++ [TClose]) ++ [TClose]) ++ count_tokens lb k)
            by (rewrite <- !app_comm_cons, <- !app_assoc; reflexivity).
          apply (counted_item lb k r); [exact Hk| |exact R2|exact R3].
          change (fill filling (TOpenNC :: (TOpenNC :: alternatives ps ++ [TClose]) ++ [TClose])) with (TOpenNC :: fill filling ((TOpenNC :: alternatives ps ++ [TClose]) ++ [TClose])).
          rewrite fill_app. apply reads_group; [auto|exact R1].
      + cbn [good_matcher] in Hg. apply good_list in Hg. destruct (upats f false l) as [ps|e] eqn:Ep; [|discriminate]. cbn [bind] in H. injection H as H. subst p.
        destruct (concat_renders _ _ _ (IHl false l ps Ep Hg)) as [it [H1 [_ H3]]].
        apply (Hone (fun i j => i = j /\ exists k, seqm l i k)); [reflexivity| |].
        * intros i j _. split; [intros [<- [k H]]; exact (O_ahead u look rules w anchor l i k H)|intro H; inversion H; subst; eauto].
        * exists [RAhead (rcat it)]. split; [|split].
          -- change (fill filling (TAhead :: List.concat ps ++ [TClose])) with (TAhead :: fill filling (List.concat ps ++ [TClose])). rewrite fill_app. apply reads_ahead. apply reads_one. exact H1.
          -- intros _. repeat constructor. discriminate.
          -- intros i j Hi. rewrite rcat_one by exact Hi. rewrite mat_ahead by exact Hi. split; intros [E [k A]]; (split; [exact E|]); exists k; apply H3; assumption.
      + cbn [good_matcher] in Hg. apply good_list in Hg. destruct (upats f true l) as [ps|e] eqn:Ep; [|discriminate]. cbn [bind] in H. injection H as H. subst p.
        destruct (concat_renders _ _ _ (IHl true l ps Ep Hg)) as [it [H1 [H2 H3]]].
        apply (Hone (fun i j => i = j /\ exists k, k <= n /\ seqm l k i)); [reflexivity| |].
        * intros i j _. split; [intros [<- [k [Hk H]]]; exact (O_behind u look rules w anchor l i k Hk H)|intro H; inversion H; subst; eauto].
        * exists [RBehind (rcat it)]. split; [|split].
          -- change (fill filling (TBehind :: List.concat ps ++ [TClose])) with (TBehind :: fill filling (List.concat ps ++ [TClose])). rewrite fill_app.
             apply reads_behind; [apply reads_one; exact H1|]. apply rcat_finite. apply H2. reflexivity.
          -- intros _. repeat constructor. discriminate.
          -- intros i j Hi. rewrite rcat_one by exact Hi. rewrite mat_behind. split; intros [E [k [Hk A]]]; (split; [exact E|]); exists k; (split; [exact Hk|]); apply H3; assumption.
      + cbn [good_matcher] in Hg. destruct Hg as [Hg Hk]. destruct (urpat f lb r) as [q|e] eqn:Eq; [|discriminate]. cbn [bind] in H. injection H as H. subst p.
        pose proof (IHr lb r q Eq Hg) as HR. apply (Hcnt (fun i j => rsem r i j)).
        * intros i j _. split; [intro H; constructor; exact H|intro H; inversion H; subst; assumption].
        * intros i j Hi H. inversion H; subst. destruct HR as [it [H1 [H2 H3]]]. assert (E : mat w (rcat it) i j = true) by (apply H3; assumption). exact (proj2 (mat_range _ _ _ _ Hi E)).
        * apply grouped_renders; [exact Hk|exact HR].
    - intros lb ms ps H Hg. destruct ms as [|m ms]; cbn [upats] in H.
      + injection H as H. subst ps. constructor.
      + destruct (upat f lb m) as [p|e] eqn:Ep; [|discriminate]. destruct (upats f lb ms) as [q|e] eqn:Eq; [|discriminate]. cbn [bind] in H. injection H as H. subst ps.
        inversion Hg; subst. constructor; [apply IHm; assumption|apply IHl; assumption].
    - intros lb [id nm [b|] ch] p H Hg; cbn [urpat r_by_ref r_children] in H.
      + destruct (dget String.eqb b rules) as [r|] eqn:Eb; [|discriminate]. refine (renders_ext _ _ _ _ _ (IHr lb r p H (HG b r Eb))).
        intros i j _. split; [intro A; exact (R_by_ref u look rules w anchor id nm b ch r i j Eb A)|intro A; inversion A; subst; congruence].
      + destruct (upats f lb ch) as [ps|e] eqn:Ep; [|discriminate]. injection H as H. subst p. cbn [good_rule] in Hg. destruct Hg as [_ Hg]. apply good_list in Hg.
        refine (renders_ext _ _ _ _ _ (concat_renders _ _ _ (IHl lb ch ps Ep Hg))). intros i j _. split; [intro A; constructor; exact A|intro A; inversion A; subst; assumption].
  Qed.
End Uncached.
