(** Patterns, verdicts and reading under tables of classes that differ only in
    the order in which code points are listed. *)
From Verif Require Import Base BaseFacts ClassModel ClassSpec ClassProofs RuleModel RuleSpec RuleCache RuleTable ActionModel Rfc7940Model SerialModel SameSpec
  RulesXmlModel RulesXmlSpec RulesXmlClass RulesXmlRule RulesXmlDoc RulesXmlTrip AgainSpec.
From Coq Require Import Lia.
Open Scope string_scope.
Open Scope list_scope.

Definition same_set (s s' : uset) : Prop := forall x, s x = s' x.

(** ** Sets *)
Lemma same_empty : forall u s s', same_set s s' -> empty_set u s = empty_set u s'.
Proof.
  intros u s s' H. unfold empty_set. f_equal. induction (nrange 0 (ud_max u)) as [|x l IH]; [reflexivity|]. cbn [existsb]. rewrite IH, H. reflexivity.
Qed.
Lemma same_res_bind : forall A B (R : A -> A -> Prop) (S : B -> B -> Prop) x x' f f', same_res R x x' -> (forall a a', R a a' -> same_res S (f a) (f' a')) -> same_res S (bind x f) (bind x' f').
Proof. intros A B R S [a|e] [a'|e'] f f' H K; cbn in *; try contradiction; [apply K; exact H|exact H]. Qed.
Lemma memb_same : forall l l', (forall x : N, In x l <-> In x l') -> forall x, memb N.eqb x l = memb N.eqb x l'.
Proof.
  intros l l' H x. pose proof (memb_In _ _ N_eqb_iff x l) as A. pose proof (memb_In _ _ N_eqb_iff x l') as B.
  destruct (memb N.eqb x l), (memb N.eqb x l'); try reflexivity; exfalso; [|].
  - assert (In x l) as K by (apply A; reflexivity). apply H, B in K. discriminate.
  - assert (In x l') as K by (apply B; reflexivity). apply H, A in K. discriminate.
Qed.
Section Sets.
  Variable u : unidb.
  Variables look look' : table.
  Hypothesis HL : same_look look look'.
  Lemma look_cases : forall n, (exists c c', dget String.eqb n look = Some c /\ dget String.eqb n look' = Some c' /\ same_class c c') \/ (dget String.eqb n look = None /\ dget String.eqb n look' = None).
  Proof.
    intro n. pose proof (HL n) as H. destruct (dget String.eqb n look) as [c|], (dget String.eqb n look') as [c'|]; cbn in H; try contradiction; [left; exists c, c'; auto|right; auto].
  Qed.
  Lemma set_again : forall fuel,
    (forall c c', same_class c c' -> same_res same_set (class_set u look fuel c) (class_set u look' fuel c')) /\
    (forall l l' a a', Forall2 same_class l l' -> same_set a a' -> same_res same_set (union_set u look fuel l a) (union_set u look' fuel l' a')).
  Proof.
    induction fuel as [|f [IH1 IH2]]; [split; intros; reflexivity|]. split.
    - intros c c' H. destruct H as [n b t p l l' Hl|n op l l' Hl]; cbn [class_set].
      + destruct b as [b|]; [destruct (look_cases b) as [[c [c' [-> [-> K]]]]|[-> ->]]; [apply IH1; exact K|reflexivity]|].
        destruct t as [t|]; [destruct (look_cases (tag_classname t)) as [[c [c' [-> [-> K]]]]|[-> ->]]; [apply IH1; exact K|intro; reflexivity]|].
        destruct p as [p|].
        * destruct (split_colon p) as [|a [|b [|d q]]]; try reflexivity. destruct (ud_prop u a b); [intro; reflexivity|reflexivity].
        * intro x. unfold bounded. rewrite (memb_same l l' Hl x). reflexivity.
      + destruct op.
        * destruct Hl as [|c1 c1' l l' K1 Hl]; [reflexivity|]. eapply same_res_bind; [apply IH1; exact K1|]. intros s s' Hs x. unfold bounded. rewrite Hs. reflexivity.
        * apply IH2; [exact Hl|intro; reflexivity].
        * destruct Hl as [|c1 c1' l l' K1 Hl]; [reflexivity|]. eapply same_res_bind; [apply IH1; exact K1|]. intros s s' Hs. destruct Hl as [|c2 c2' l l' K2 Hl]; [reflexivity|].
          eapply same_res_bind; [apply IH1; exact K2|]. intros q q' Hq x. rewrite Hs, Hq. reflexivity.
        * destruct Hl as [|c1 c1' l l' K1 Hl]; [reflexivity|]. eapply same_res_bind; [apply IH1; exact K1|]. intros s s' Hs. destruct Hl as [|c2 c2' l l' K2 Hl]; [reflexivity|].
          eapply same_res_bind; [apply IH1; exact K2|]. intros q q' Hq x. rewrite Hs, Hq. reflexivity.
        * destruct Hl as [|c1 c1' l l' K1 Hl]; [reflexivity|]. eapply same_res_bind; [apply IH1; exact K1|]. intros s s' Hs. destruct Hl as [|c2 c2' l l' K2 Hl]; [reflexivity|].
          eapply same_res_bind; [apply IH1; exact K2|]. intros q q' Hq x. rewrite Hs, Hq. reflexivity.
    - intros l l' a a' H Ha. destruct H as [|c c' l l' Hc Hl]; [exact Ha|].
      change (same_res same_set (bind (class_set u look f c) (fun s0 => union_set u look f l (fun x => a x || s0 x)%bool)) (bind (class_set u look' f c') (fun s0 => union_set u look' f l' (fun x => a' x || s0 x)%bool))).
      eapply same_res_bind; [apply IH1; exact Hc|]. intros s s' Hs. apply IH2; [exact Hl|]. intro x. rewrite Ha, Hs. reflexivity.
  Qed.
End Sets.

(** ** Patterns *)
Inductive same_token : token -> token -> Prop :=
| tok_it : forall t, same_token t t
| tok_set : forall s s', same_set s s' -> same_token (TSet s) (TSet s').
Notation same_tokens := (Forall2 same_token).
Definition same_cache (k k' : cache) : Prop := forall i, opt_rel same_tokens (dget key_eqb i k) (dget key_eqb i k').
Lemma tokens_refl : forall l, same_tokens l l.
Proof. induction l; constructor; [apply tok_it|assumption]. Qed.
Lemma cache_refl : forall k, same_cache k k.
Proof. intros k i. destruct (dget key_eqb i k); [apply tokens_refl|exact I]. Qed.
Lemma same_look_refl : forall t, same_look t t.
Proof. intros t n. destruct (dget String.eqb n t); [apply same_class_refl|exact I]. Qed.
Lemma grouped_same : forall lb n p p', same_tokens p p' -> same_tokens (grouped lb n p) (grouped lb n p').
Proof. intros lb [k|] p p' H; cbn [grouped]; [|exact H]. constructor; [apply tok_it|]. apply Forall2_app; [exact H|apply tokens_refl]. Qed.
Lemma concat_same : forall l l', Forall2 same_tokens l l' -> same_tokens (List.concat l) (List.concat l').
Proof. intros l l' H. induction H; [constructor|]. cbn [List.concat]. apply Forall2_app; assumption. Qed.
Lemma alternatives_same : forall l l', Forall2 same_tokens l l' -> same_tokens (alternatives l) (alternatives l').
Proof.
  intros l l' H. induction H as [|p p' l l' Hp Hl IH]; [constructor|]. destruct Hl as [|q q' l l' Hq Hl]; [exact Hp|].
  change (same_tokens (p ++ [TClose; TBar; TOpenNC] ++ alternatives (q :: l)) (p' ++ [TClose; TBar; TOpenNC] ++ alternatives (q' :: l'))).
  apply Forall2_app; [exact Hp|]. apply Forall2_app; [apply tokens_refl|exact IH].
Qed.
Lemma cache_set : forall i p p' k k', same_tokens p p' -> same_cache k k' -> same_cache (dset key_eqb i p k) (dset key_eqb i p' k').
Proof. intros i p p' k k' Hp Hk j. rewrite !(dget_dset _ key_eqb_iff). destruct (key_eqb j i); [exact Hp|apply Hk]. Qed.

Definition same_out {A} (R : A -> A -> Prop) (x x' : cache * res A) : Prop := same_cache (fst x) (fst x') /\ same_res R (snd x) (snd x').
Section Patterns.
  Variable u : unidb.
  Variables look look' : table.
  Variable rules : rtable.
  Hypothesis HL : same_look look look'.
  Lemma class_pattern_same : forall f c, same_res same_tokens (class_pattern u look f c) (class_pattern u look' f c).
  Proof.
    intros f c. unfold class_pattern. eapply same_res_bind; [apply (set_again u look look' HL f); apply same_class_refl|].
    intros s s' Hs. cbn [same_res]. rewrite (same_empty u s s' Hs). destruct (empty_set u s'); [constructor|]. constructor; [apply tok_set; exact Hs|constructor].
  Qed.
  Lemma pattern_again : forall fuel,
    (forall lb m k k', same_cache k k' -> same_out same_tokens (mpat u look rules fuel lb m k) (mpat u look' rules fuel lb m k')) /\
    (forall lb l k k', same_cache k k' -> same_out (Forall2 same_tokens) (mpats u look rules fuel lb l k) (mpats u look' rules fuel lb l k')) /\
    (forall lb r k k', same_cache k k' -> same_out same_tokens (rpat u look rules fuel lb r k) (rpat u look' rules fuel lb r k')).
  Proof.
    induction fuel as [|f [IH1 [IH2 IH3]]]; [repeat split; cbn [fst mpat mpats rpat]; assumption|]. split; [|split].
    - intros lb m k k' Hk. destruct m as [| | |n|l n|c n|n l|l|l|r n]; rewrite !mpat_step.
      1-5: split; [exact Hk|apply tokens_refl].
      + split; [exact Hk|]. cbn [snd]. eapply same_res_bind; [apply class_pattern_same|]. intros p p' Hp. apply grouped_same. exact Hp.
      + destruct (IH2 lb l k k' Hk) as [C R]. destruct (mpats u look rules f lb l k) as [k1 x], (mpats u look' rules f lb l k') as [k1' x']. split; [exact C|]. cbn [fst snd] in *.
        eapply same_res_bind; [exact R|]. intros p p' Hp. cbn [same_res]. constructor; [apply tok_it|]. constructor; [apply tok_it|]. apply Forall2_app; [apply alternatives_same; exact Hp|apply tokens_refl].
      + destruct (IH2 false l k k' Hk) as [C R]. destruct (mpats u look rules f false l k) as [k1 x], (mpats u look' rules f false l k') as [k1' x']. split; [exact C|]. cbn [fst snd] in *.
        eapply same_res_bind; [exact R|]. intros p p' Hp. cbn [same_res]. constructor; [apply tok_it|]. apply Forall2_app; [apply concat_same; exact Hp|apply tokens_refl].
      + destruct (IH2 true l k k' Hk) as [C R]. destruct (mpats u look rules f true l k) as [k1 x], (mpats u look' rules f true l k') as [k1' x']. split; [exact C|]. cbn [fst snd] in *.
        eapply same_res_bind; [exact R|]. intros p p' Hp. cbn [same_res]. constructor; [apply tok_it|]. apply Forall2_app; [apply concat_same; exact Hp|apply tokens_refl].
      + destruct (IH3 lb r k k' Hk) as [C R]. destruct (rpat u look rules f lb r k) as [k1 x], (rpat u look' rules f lb r k') as [k1' x']. split; [exact C|]. cbn [fst snd] in *.
        eapply same_res_bind; [exact R|]. intros p p' Hp. apply grouped_same. exact Hp.
    - intros lb l k k' Hk. rewrite !mpats_step. destruct l as [|m l]; [split; [exact Hk|constructor]|].
      destruct (IH1 lb m k k' Hk) as [C R]. destruct (mpat u look rules f lb m k) as [k1 [p|e]], (mpat u look' rules f lb m k') as [k1' [p'|e']]; cbn [fst snd same_res] in *; try contradiction; [|split; [exact C|exact R]].
      destruct (IH2 lb l k1 k1' C) as [C2 R2]. destruct (mpats u look rules f lb l k1) as [k2 y], (mpats u look' rules f lb l k1') as [k2' y']. split; [exact C2|]. cbn [fst snd] in *.
      eapply same_res_bind; [exact R2|]. intros q q' Hq. constructor; assumption.
    - intros lb r k k' Hk. rewrite !rpat_step. pose proof (Hk (r_id r, lb)) as G. destruct (dget key_eqb (r_id r, lb) k) as [p|], (dget key_eqb (r_id r, lb) k') as [p'|]; cbn in G; try contradiction; [split; [exact Hk|exact G]|].
      destruct (r_by_ref r) as [b|].
      + destruct (dget String.eqb b rules) as [r'|]; [apply IH3; exact Hk|split; [exact Hk|reflexivity]].
      + destruct (IH2 lb (r_children r) k k' Hk) as [C R]. destruct (mpats u look rules f lb (r_children r) k) as [k1 [p|e]], (mpats u look' rules f lb (r_children r) k') as [k1' [p'|e']]; cbn [fst snd same_res] in *; try contradiction; [|split; [exact C|exact R]].
        split; [apply cache_set; [apply concat_same; exact R|exact C]|apply concat_same; exact R].
  Qed.
End Patterns.

(** ** The Unicode library *)
Inductive same_regex : regex -> regex -> Prop :=
| re_start : same_regex RStart RStart
| re_end : same_regex REnd REnd
| re_dot : same_regex RDot RDot
| re_char : forall c, same_regex (RChar c) (RChar c)
| re_set : forall s s', same_set s s' -> same_regex (RSet s) (RSet s')
| re_empty : same_regex REmpty REmpty
| re_cat : forall a a' b b', same_regex a a' -> same_regex b b' -> same_regex (RCat a b) (RCat a' b')
| re_alt : forall a a' b b', same_regex a a' -> same_regex b b' -> same_regex (RAlt a b) (RAlt a' b')
| re_rep : forall a a' lo hi, same_regex a a' -> same_regex (RRep a lo hi) (RRep a' lo hi)
| re_ahead : forall a a', same_regex a a' -> same_regex (RAhead a) (RAhead a')
| re_behind : forall a a', same_regex a a' -> same_regex (RBehind a) (RBehind a').
Definition same_frame (a b : frame) : Prop := f_kind a = f_kind b /\ Forall2 same_regex (f_alts a) (f_alts b) /\ Forall2 same_regex (f_cur a) (f_cur b).
Lemma longest_same : forall a b, same_regex a b -> longest a = longest b.
Proof. intros a b H. induction H; cbn [longest]; try reflexivity; rewrite ?IHsame_regex, ?IHsame_regex1, ?IHsame_regex2; reflexivity. Qed.
Lemma rcat_same : forall l l', Forall2 same_regex l l' -> same_regex (rcat l) (rcat l').
Proof. intros l l' H. induction H; [constructor|]. cbn [rcat fold_right]. apply re_cat; assumption. Qed.
Lemma rev_same : forall A (R : A -> A -> Prop) l l', Forall2 R l l' -> Forall2 R (rev l) (rev l').
Proof. intros A R l l' H. induction H; [constructor|]. cbn [rev]. apply Forall2_app; [assumption|constructor; [assumption|constructor]]. Qed.
Lemma close_alts_same : forall a b, same_frame a b -> same_regex (close_alts a) (close_alts b).
Proof.
  intros a b [_ [H1 H2]]. unfold close_alts. assert (K : same_regex (rcat (rev (f_cur a))) (rcat (rev (f_cur b)))) by (apply rcat_same, rev_same; exact H2).
  revert K. generalize (rcat (rev (f_cur a))) (rcat (rev (f_cur b))). induction H1 as [|x y l l' Hx Hl IH]; intros p q K; [exact K|]. cbn [fold_left]. apply IH. apply re_alt; assumption.
Qed.
Lemma close_same : forall a b, same_frame a b -> opt_rel same_regex (close a) (close b).
Proof.
  intros a b H. pose proof (close_alts_same a b H) as K. unfold close. destruct H as [<- _]. destruct (f_kind a).
  - exact K.
  - apply re_ahead. exact K.
  - rewrite (longest_same _ _ K). destruct (longest (close_alts b)); [apply re_behind; exact K|exact I].
Qed.
Lemma push_same : forall x y a b, same_regex x y -> same_frame a b -> same_frame (push_item x a) (push_item y b).
Proof. intros x y a b H [H1 [H2 H3]]. split; [exact H1|]. split; [exact H2|]. constructor; assumption. Qed.
Lemma new_frame : forall k, same_frame (mkFrame k [] []) (mkFrame k [] []).
Proof. intro k. repeat split; constructor. Qed.
Lemma parse_same : forall ts ts', same_tokens ts ts' -> forall a b st st', same_frame a b -> Forall2 same_frame st st' -> opt_rel same_regex (parse ts a st) (parse ts' b st').
Proof.
  intros ts ts' H. induction H as [|t t' ts ts' Ht Hts IH]; intros a b st st' Hab Hst.
  - cbn [parse]. destruct Hst; [apply close_alts_same; exact Hab|exact I].
  - destruct Ht as [t|s s' Hs]; cbn [parse]; [|apply IH; [apply push_same; [apply re_set; exact Hs|exact Hab]|exact Hst]]. destruct t.
    + apply IH; [apply push_same; [constructor|exact Hab]|exact Hst].
    + apply IH; [apply push_same; [constructor|exact Hab]|exact Hst].
    + exact I.
    + apply IH; [apply push_same; [constructor|exact Hab]|exact Hst].
    + apply IH; [apply push_same; [constructor|exact Hab]|exact Hst].
    + apply IH; [apply push_same; [apply re_set; intro; reflexivity|exact Hab]|exact Hst].
    + apply IH; [apply new_frame|constructor; assumption].
    + apply IH; [apply new_frame|constructor; assumption].
    + apply IH; [apply new_frame|constructor; assumption].
    + apply IH; [apply new_frame|constructor; assumption].
    + apply IH; [|exact Hst]. destruct Hab as [H1 [H2 H3]]. split; [exact H1|]. split; [|constructor]. constructor; [apply rcat_same, rev_same; exact H3|exact H2].
    + pose proof (close_same a b Hab) as C. destruct Hst as [|x y st st' Hx Hst]; [exact I|]. destruct (close a), (close b); cbn in C; try contradiction; [|exact I].
      apply IH; [apply push_same; assumption|exact Hst].
    + destruct Hab as [H1 [H2 H3]]. destruct H3 as [|x y l l' Hx Hl]; [exact I|]. destruct (match hi with Some h => Nat.leb lo h | None => true end); [|exact I].
      apply IH; [|exact Hst]. split; [exact H1|]. split; [exact H2|]. constructor; [apply re_rep; exact Hx|exact Hl].
    + exact I.
Qed.
Lemma existsb_ext : forall A (f g : A -> bool) l, (forall x, f x = g x) -> existsb f l = existsb g l.
Proof. intros A f g l H. induction l as [|x l IH]; [reflexivity|]. cbn [existsb]. rewrite H, IH. reflexivity. Qed.
Lemma times_ext : forall w one one', (forall i j, one i j = one' i j) -> forall k i j, times w one k i j = times w one' k i j.
Proof. intros w one one' H. induction k as [|k IH]; intros i j; [reflexivity|]. cbn [times]. apply existsb_ext. intro m. rewrite H, IH. reflexivity. Qed.
Lemma mat_same : forall w a b, same_regex a b -> forall i j, mat w a i j = mat w b i j.
Proof.
  intros w a b H. induction H; intros i j; cbn [mat]; try reflexivity.
  - destruct (nth_error w i); [rewrite H|]; reflexivity.
  - apply existsb_ext. intro k. rewrite IHsame_regex1, IHsame_regex2. reflexivity.
  - rewrite IHsame_regex1, IHsame_regex2. reflexivity.
  - apply existsb_ext. intro k. apply times_ext. exact IHsame_regex.
  - destruct (Nat.eqb i j); [|reflexivity]. apply existsb_ext. intro k. apply IHsame_regex.
  - destruct (Nat.eqb i j); [|reflexivity]. apply existsb_ext. intro k. apply IHsame_regex.
Qed.
Lemma find_ext : forall A (f g : A -> bool) l, (forall x, f x = g x) -> find f l = find g l.
Proof. intros A f g l H. induction l as [|x l IH]; [reflexivity|]. cbn [find]. rewrite H, IH. reflexivity. Qed.
Lemma search_same : forall w a b, same_regex a b -> forall i, search w a i = search w b i.
Proof. intros w a b H i. unfold search. apply find_ext. intro k. apply existsb_ext. intro j. apply mat_same. exact H. Qed.
Lemma fill_same : forall a p p', same_tokens p p' -> same_tokens (fill a p) (fill a p').
Proof.
  intros a p p' H. induction H as [|t t' p p' Ht Hp IH]; [constructor|]. unfold fill in *. cbn [flat_map]. apply Forall2_app; [|exact IH].
  destruct Ht as [t|s s' Hs]; [apply tokens_refl|]. constructor; [apply tok_set; exact Hs|constructor].
Qed.
Lemma anchor_same : forall p p', same_tokens p p' -> existsb is_anchor p = existsb is_anchor p'.
Proof. intros p p' H. induction H as [|t t' p p' Ht Hp IH]; [reflexivity|]. cbn [existsb]. rewrite IH. destruct Ht; reflexivity. Qed.
Lemma compile_same : forall p p', same_tokens p p' -> opt_rel same_regex (compile p) (compile p').
Proof. intros p p' H. unfold compile. apply parse_same; [apply fill_same; exact H|apply new_frame|constructor]. Qed.

Section Matches.
  Variable u : unidb.
  Variables look look' : table.
  Variable rules : rtable.
  Hypothesis HL : same_look look look'.
  Theorem matches_again : forall f r label anchor index k k', same_cache k k' ->
    same_out eq (rule_matches u look rules f r label anchor index k) (rule_matches u look' rules f r label anchor index k').
  Proof.
    intros f r label anchor index k k' Hk. unfold rule_matches. destruct (proj2 (proj2 (pattern_again u look look' rules HL f)) false r k k' Hk) as [C R].
    destruct (rpat u look rules f false r k) as [k1 [p|e]], (rpat u look' rules f false r k') as [k1' [p'|e']]; cbn [fst snd same_res] in C, R; try contradiction; [|split; [exact C|exact R]].
    destruct R as [|t t' p p' Ht Hp]; [split; [exact C|reflexivity]|]. assert (H : same_tokens (t :: p) (t' :: p')) by (constructor; assumption).
    assert (G : forall q q' (a : option cps) i, same_tokens q q' -> same_out eq
      (k1, match compile q with None => Raise (RuleError (match r_name r with Some n => n | None => EmptyString end)) | Some re =>
        match search label re i with None => Ok false | Some x => match a with Some _ => Ok (negb (Nat.ltb i x)) | None => Ok true end end end)
      (k1', match compile q' with None => Raise (RuleError (match r_name r with Some n => n | None => EmptyString end)) | Some re =>
        match search label re i with None => Ok false | Some x => match a with Some _ => Ok (negb (Nat.ltb i x)) | None => Ok true end end end)).
    { intros q q' a i Hq. split; [exact C|]. cbn [snd]. pose proof (compile_same q q' Hq) as K. destruct (compile q) as [re|], (compile q') as [re'|]; cbn in K; try contradiction; [|reflexivity].
      rewrite (search_same label re re' K i). destruct (search label re' i); [destruct a|]; reflexivity. }
    destruct anchor as [a|]; [|exact (G _ _ None index H)]. rewrite (anchor_same _ _ H). destruct (existsb is_anchor (t' :: p')); [exact (G _ _ (Some a) index (fill_same _ _ _ H))|exact (G _ _ None 0%nat H)].
  Qed.
  (** Caches come in pairs. *)
  Lemma used_again : forall obj k', used u look' rules obj k' -> exists k, used u look rules obj k /\ same_cache k k'.
  Proof.
    intros obj k' H. induction H as [|k' f r label anchor index H [k [U C]] O|k' f lb r H [k [U C]] O].
    - exists []. split; [apply used_none|apply cache_refl].
    - eexists. split; [apply used_more; [exact U|exact O]|]. apply (matches_again f r label anchor index k k' C).
    - eexists. split; [apply used_ahead; [exact U|exact O]|]. apply (pattern_again u look look' rules HL f). exact C.
  Qed.
End Matches.

(** ** Reading *)
Definition same_read (s s' : rread) : Prop := rd_next s' = rd_next s /\ same_cache (rd_cache s) (rd_cache s').
Lemma look_dmem : forall t t' n, same_look t t' -> dmem String.eqb n t = dmem String.eqb n t'.
Proof. intros t t' n H. unfold dmem. pose proof (H n) as K. destruct (dget String.eqb n t), (dget String.eqb n t'); cbn in K; try contradiction; reflexivity. Qed.
Lemma validate_class_again : forall t t', same_look t t' -> forall c top, validate_class t top c = validate_class t' top c.
Proof.
  intros t t' H. apply (cls_induct (fun c => forall top, validate_class t top c = validate_class t' top c)).
  - intros n b tg p l top. cbn [validate_class]. destruct b as [b|]; [rewrite (look_dmem t t' b H)|]; reflexivity.
  - intros n op l HF top. cbn [validate_class]. destruct (Bool.eqb _ _); [|reflexivity]. f_equal. induction l as [|c l IH]; [reflexivity|]. rewrite (HF c (or_introl eq_refl)), IH; [reflexivity|]. intros x Hx. apply HF. right. exact Hx.
Qed.

Lemma validate_rule_again : forall t t' rules, same_look t t' ->
  (forall m, validate_matcher t rules m = validate_matcher t' rules m) /\ (forall r top, validate_rule t rules top r = validate_rule t' rules top r).
Proof.
  intros t t' rules H. set (P := fun m => validate_matcher t rules m = validate_matcher t' rules m). set (Q := fun r => forall top, validate_rule t rules top r = validate_rule t' rules top r).
  assert (HA : forall l, Forall P l -> validate_all t rules l = validate_all t' rules l).
  { intros l HF. induction HF as [|m l Hm Hl IH]; [reflexivity|]. change (bind (validate_matcher t rules m) (fun _ => validate_all t rules l) = bind (validate_matcher t' rules m) (fun _ => validate_all t' rules l)).
    rewrite Hm, IH. reflexivity. }
  assert (H6 : forall c k, P (MClass c k)) by (intros c k; unfold P; cbn [validate_matcher]; apply validate_class_again; exact H).
  assert (H7 : forall k l, Forall P l -> P (MChoice k l)) by (intros k l HF; exact (HA l HF)).
  assert (H8 : forall l, Forall P l -> P (MAhead l)) by (intros l HF; exact (HA l HF)).
  assert (H9 : forall l, Forall P l -> P (MBehind l)) by (intros l HF; exact (HA l HF)).
  assert (H10 : forall r k, Q r -> P (MRule r k)) by (intros r k K; exact (K false)).
  assert (H11 : forall i n b l, Forall P l -> Q (Rule i n b l)).
  { intros i n b l HF top. change (bind (match b with Some b => if dmem String.eqb b rules then Ok tt else Raise (LGRFormatException INVALID_BY_REF) | None => Ok tt end) (fun _ =>
      if Bool.eqb top (match n with Some _ => true | None => false end) then validate_all t rules l else Raise (LGRFormatException INVALID_TOP_LEVEL_NAME)) =
     bind (match b with Some b => if dmem String.eqb b rules then Ok tt else Raise (LGRFormatException INVALID_BY_REF) | None => Ok tt end) (fun _ =>
      if Bool.eqb top (match n with Some _ => true | None => false end) then validate_all t' rules l else Raise (LGRFormatException INVALID_TOP_LEVEL_NAME))). rewrite (HA l HF). reflexivity. }
  split; [exact (matcher_induct P Q eq_refl eq_refl eq_refl (fun _ => eq_refl) (fun _ _ => eq_refl) H6 H7 H8 H9 H10 H11)|exact (rule_induct P Q eq_refl eq_refl eq_refl (fun _ => eq_refl) (fun _ _ => eq_refl) H6 H7 H8 H9 H10 H11)].
Qed.
Definition same_pair {A} (x x' : rread * A) : Prop := same_read (fst x) (fst x') /\ snd x' = snd x.
Section Reading.
  Variable db : option unidb.
  Variables look look' : table.
  Variable rules : rtable.
  Variable fuel : nat.
  Hypothesis HL : same_look look look'.
  Lemma precalculate_again : forall r s s', same_read s s' -> same_res same_read (precalculate db look rules fuel r s) (precalculate db look' rules fuel r s').
  Proof.
    intros r s s' [N C]. unfold precalculate. destruct db as [u|]; [|split; assumption].
    destruct (proj2 (proj2 (pattern_again u look look' rules HL fuel)) true r _ _ C) as [C1 R1]. destruct (rpat u look rules fuel true r (rd_cache s)) as [k1 x], (rpat u look' rules fuel true r (rd_cache s')) as [k1' x'].
    cbn [fst snd] in *. eapply same_res_bind; [exact R1|]. intros _ _ _.
    destruct (proj2 (proj2 (pattern_again u look look' rules HL fuel)) false r _ _ C1) as [C2 R2]. destruct (rpat u look rules fuel false r k1) as [k2 y], (rpat u look' rules fuel false r k1') as [k2' y'].
    cbn [fst snd] in *. eapply same_res_bind; [exact R2|]. intros _ _ _. split; [exact N|exact C2].
  Qed.
  Lemma unhandled_again : forall s s', same_read s s' -> same_read (unhandled s) (unhandled s').
  Proof. intros s s' [N C]. split; [exact N|exact C]. Qed.
  Notation ph := (parse_helper db look rules fuel).
  Notation ph' := (parse_helper db look' rules fuel).
  Lemma items_again : forall l, Forall (fun e => forall s s', same_read s s' -> same_res same_pair (ph e s) (ph' e s')) l ->
    forall refuse s s', same_read s s' -> same_res same_pair (parse_items db look rules fuel refuse l s) (parse_items db look' rules fuel refuse l s').
  Proof.
    intros l H. induction H as [|e l He Hl IH]; intros refuse s s' Hs; [split; [exact Hs|reflexivity]|]. cbn [parse_items].
    eapply same_res_bind; [apply He; exact Hs|]. intros [s1 o] [s1' o'] [K1 K2]. cbn [fst snd] in *. subst o'. destruct o as [m|]; [|apply IH; exact K1].
    destruct refuse; [reflexivity|]. eapply same_res_bind; [apply IH; exact K1|]. intros [s2 ms] [s2' ms'] [K3 K4]. cbn [fst snd] in *. subst ms'. split; [exact K3|reflexivity].
  Qed.
  Lemma helper_again : forall e s s', same_read s s' -> same_res same_pair (ph e s) (ph' e s').
  Proof.
    intro e. induction e as [sp n a tx ch IH] using xelem_induct. intros s s' Hs. pose proof (items_again ch IH) as HI. rewrite !parse_helper_eq. cbv zeta.
    set (e := XElem sp n a tx ch).
    assert (HB : same_res same_pair (parse_rule_body db look rules fuel e s) (parse_rule_body db look' rules fuel e s')).
    { unfold parse_rule_body. pose proof (proj1 Hs) as EN. rewrite EN. destruct (new_rule (rd_next s) (x_get e "name") (x_get e "by-ref")) as [r|]; cbn [bind]; [|reflexivity].
      eapply same_res_bind; [apply HI; split; [cbn [rd_next]; congruence|exact (proj2 Hs)]|].
      intros [s1 ms] [s1' ms'] [K1 K2]. cbn [fst snd] in *. subst ms'. eapply same_res_bind; [apply precalculate_again; exact K1|]. intros s2 s2' K3. split; [exact K3|reflexivity]. }
    change (x_children e) with ch.
    destruct (has_tag "anchor" e); [split; [exact Hs|reflexivity]|]. destruct (has_tag "any" e); [split; [exact Hs|reflexivity]|].
    destruct (has_tag "char" e); [destruct (elem_cps e); cbn [bind]; [split; [exact Hs|reflexivity]|reflexivity]|].
    destruct (has_tag "choice" e); [eapply same_res_bind; [apply HI; exact Hs|]; intros [s1 ms] [s1' ms'] [K1 K2]; cbn [fst snd] in *; subst ms'; split; [exact K1|reflexivity]|].
    destruct (has_tag "end" e); [split; [exact Hs|reflexivity]|].
    destruct (has_tag "look-ahead" e); [eapply same_res_bind; [apply HI; exact Hs|]; intros [s1 ms] [s1' ms'] [K1 K2]; cbn [fst snd] in *; subst ms'; split; [exact K1|reflexivity]|].
    destruct (has_tag "look-behind" e); [eapply same_res_bind; [apply HI; exact Hs|]; intros [s1 ms] [s1' ms'] [K1 K2]; cbn [fst snd] in *; subst ms'; split; [exact K1|reflexivity]|].
    destruct (has_tag "start" e); [split; [exact Hs|reflexivity]|].
    destruct (has_tag "rule" e); [eapply same_res_bind; [exact HB|]; intros [s1 r] [s1' r'] [K1 K2]; cbn [fst snd] in *; subst r'; split; [exact K1|reflexivity]|].
    destruct (class_tag e); [destruct (parse_class e); cbn [bind]; [split; [exact Hs|reflexivity]|reflexivity]|].
    split; [apply unhandled_again; exact Hs|reflexivity].
  Qed.
  Lemma parse_rule_again : forall e s s', same_read s s' -> same_res same_pair (parse_rule db look rules fuel e s) (parse_rule db look' rules fuel e s').
  Proof.
    intros e s s' Hs. unfold parse_rule. eapply same_res_bind; [apply helper_again; exact Hs|]. intros [s1 o] [s1' o'] [K1 K2]. cbn [fst snd] in *. subst o'.
    destruct o as [m|]; [|reflexivity]. destruct m; try reflexivity. split; [exact K1|reflexivity].
  Qed.
End Reading.
Definition same_state (x x' : ruleset * rread) : Prop := same_ruleset (fst x) (fst x') /\ same_read (snd x) (snd x').
Lemma look_set : forall t t' n c, same_look t t' -> same_look (dset String.eqb n c t) (dset String.eqb n c t').
Proof. intros t t' n c H m. rewrite !(dget_dset _ string_eqb_iff). destruct (String.eqb m n); [apply same_class_refl|apply H]. Qed.
Lemma elem_again : forall db fuel force e g g' s s', same_ruleset g g' -> same_read s s' -> same_res same_state (read_elem db fuel force e g s) (read_elem db fuel force e g' s').
Proof.
  intros db fuel force e [cl cn ru rn ac x1 x2 x3] [cl' cn' ru' rn' ac' x1' x2' x3'] s s' [HL [E1 [E2 [E3 [E4 [E5 [E6 E7]]]]]]] Hs. cbn [ru_classes ru_class_names ru_rules ru_rule_names ru_actions ru_classes_xml ru_rules_xml ru_actions_xml] in *. subst.
  unfold read_elem. destruct (class_tag e); [|destruct (has_tag "rule" e); [|destruct (has_tag "action" e)]].
  - unfold read_class. cbn [ru_classes ru_class_names ru_rules ru_rule_names ru_actions ru_classes_xml ru_rules_xml ru_actions_xml]. destruct (parse_class e) as [c|]; cbn [bind]; [|reflexivity].
    unfold add_class. rewrite (validate_class_again cl cl' HL c true).
    assert (HS : same_look (match cls_name c with Some n => dset String.eqb n c cl | None => cl end) (match cls_name c with Some n => dset String.eqb n c cl' | None => cl' end)) by (destruct (cls_name c); [apply look_set|]; exact HL).
    destruct (validate_class cl' true c); [|destruct force]; cbn [bind]; try reflexivity; (split; [|exact Hs]); (split; [exact HS|]); repeat split; reflexivity.
  - unfold read_rule. cbn [ru_classes ru_class_names ru_rules ru_rule_names ru_actions ru_classes_xml ru_rules_xml ru_actions_xml].
    eapply same_res_bind; [apply (parse_rule_again db cl cl' ru fuel HL); exact Hs|]. intros [s1 r] [s1' r'] [K1 K2]. cbn [fst snd] in *. subst r'.
    unfold add_rule. rewrite (proj2 (validate_rule_again cl cl' ru HL) r true). destruct (validate_rule cl' ru true r); [|destruct force]; cbn [bind]; try reflexivity; (split; [|exact K1]); (split; [exact HL|]); repeat split; reflexivity.
  - unfold read_action. cbn [ru_classes ru_class_names ru_rules ru_rule_names ru_actions ru_classes_xml ru_rules_xml ru_actions_xml]. destruct (parse_action e); cbn [bind]; [|reflexivity]. split; [|exact Hs]. split; [exact HL|]. repeat split; reflexivity.
  - split; [|apply unhandled_again; exact Hs]. split; [exact HL|]. repeat split; reflexivity.
Qed.
Theorem rules_read_again : forall db fuel force l g g' s s', same_ruleset g g' -> same_read s s' -> same_res same_state (process_rules db fuel force l g s) (process_rules db fuel force l g' s').
Proof.
  intros db fuel force. induction l as [|e l IH]; intros g g' s s' Hg Hs; [split; assumption|]. cbn [process_rules]. eapply same_res_bind; [apply elem_again; eassumption|].
  intros [g1 s1] [g1' s1'] [K1 K2]. apply IH; assumption.
Qed.
