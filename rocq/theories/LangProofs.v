(** Proofs about the use of language tags. *)
From Verif Require Import Base BaseFacts UtilsModel UtilsProofs MetaModel ReviewModel LangModel LangSpec.
Open Scope string_scope.
Open Scope list_scope.

(** ** Scripts *)
Lemma memb_cases : forall (x : cps) l, (memb cps_eqb x l = true /\ In x l) \/ (memb cps_eqb x l = false /\ ~ In x l).
Proof.
  intros x l. destruct (memb cps_eqb x l) eqn:E; [left | right]; split; auto.
  - apply (memb_In _ _ cps_eqb_eq). exact E.
  - intros H. apply (memb_In _ _ cps_eqb_eq) in H. congruence.
Qed.
Definition codes : list cps := map (fun p : string * string => txt (fst p)) wider.
Lemma other_code : forall s, ~ In s codes -> iso_to_unicode s = [s].
Proof.
  intros s H. unfold iso_to_unicode.
  assert (K : forall a, In a codes -> cps_eqb s a = false).
  { intros a Ha. apply cps_eqb_neq. intros ->. contradiction. }
  assert (M : forall l, incl l codes -> memb cps_eqb s l = false).
  { intros l Hl. destruct (memb_cases s l) as [[_ Hm] | [Hm _]]; [exfalso; apply H, Hl, Hm | exact Hm]. }
  rewrite !K by (vm_compute; tauto). rewrite !M by (intros a Ha; cbn [In] in Ha; vm_compute in *; tauto). reflexivity.
Qed.
Definition pairs_of (s : cps) : list cps := map (fun p : string * string => txt (snd p)) (filter (fun p => cps_eqb s (txt (fst p))) wider).
Lemma known_code : forall s, In s codes -> iso_to_unicode s = pairs_of s.
Proof.
  intros s H. assert (K : Forall (fun s => iso_to_unicode s = pairs_of s) codes) by (repeat constructor).
  rewrite Forall_forall in K. exact (K s H).
Qed.
Lemma iso_written : forall s u, In u (iso_to_unicode s) <-> written_in s u.
Proof.
  intros s u. unfold written_in. destruct (in_dec cps_eq_dec s codes) as [H|H].
  - rewrite (known_code s H). unfold pairs_of. rewrite in_map_iff. split.
    + intros ([a b] & <- & K). apply filter_In in K. destruct K as [K E]. apply cps_eqb_eq in E. left. exists a, b. auto.
    + intros [(a & b & K & E & ->) | [_ K]].
      * exists (a, b). split; [reflexivity|]. apply filter_In. split; [exact K|]. apply cps_eqb_eq. exact E.
      * exfalso. unfold codes in H. apply in_map_iff in H. destruct H as ([a b] & <- & H). exact (K a b H eq_refl).
  - rewrite (other_code s H). cbn [In]. split.
    + intros [<-|[]]. right. split; [reflexivity|]. intros a b K ->. apply H. unfold codes. apply in_map_iff. exists (a, b). auto.
    + intros [(a & b & K & -> & _) | [-> _]]; [|left; reflexivity]. exfalso. apply H. unfold codes. apply in_map_iff. exists (a, b). auto.
Qed.
Lemma empty_iff : forall s, empty s = true <-> s = [].
Proof. intros [|c s]; split; intros H; try reflexivity; discriminate H. Qed.
Theorem get_scripts_In : forall tags ls b u, In u (get_scripts tags ls b) <->
  exists l s, In l ls /\ (b = true \/ tg_valid (tags l) = true) /\ tells_script (tags l) s /\ written_in s u.
Proof.
  intros tags ls b u. unfold get_scripts. rewrite in_flat_map.
  assert (K : forall l, In u (scripts_of tags b l) <-> (b = true \/ tg_valid (tags l) = true) /\ exists s, tells_script (tags l) s /\ written_in s u).
  { intros l. unfold scripts_of, tells_script. destruct (b || tg_valid (tags l)) eqn:E.
    - apply orb_true_iff in E. destruct (tg_script (tags l)) as [x|]; [|destruct (tg_language (tags l)) as [y|]; [destruct (ln_suppress y) as [z|] eqn:Ez|]].
      + destruct (empty (sc_format x)) eqn:Em.
        * apply empty_iff in Em. split; [intros []|]. intros (_ & s & (Hs & [(x' & Hx & ->) | (Hx & _)]) & _); [injection Hx as <-; contradiction | discriminate Hx].
        * rewrite iso_written. split.
          -- intros H. split; [exact E|]. exists (sc_format x). split; [|exact H]. split; [intros Hn; apply empty_iff in Hn; congruence|]. left. exists x. split; reflexivity.
          -- intros (_ & s & (Hs & [(x' & Hx & ->) | (Hx & _)]) & H); [injection Hx as <-; exact H | discriminate Hx].
      + destruct (empty z) eqn:Em.
        * apply empty_iff in Em. split; [intros []|]. intros (_ & s & (Hs & [(x' & Hx & _) | (_ & l' & Hl & Hz)]) & _); [discriminate Hx | injection Hl as <-; congruence].
        * rewrite iso_written. split.
          -- intros H. split; [exact E|]. exists z. split; [|exact H]. split; [intros Hn; apply empty_iff in Hn; congruence|]. right. split; [reflexivity|]. exists y. split; [reflexivity | exact Ez].
          -- intros (_ & s & (Hs & [(x' & Hx & _) | (_ & l' & Hl & Hz)]) & H); [discriminate Hx | injection Hl as <-]. rewrite Ez in Hz. injection Hz as <-. exact H.
      + split; [intros []|]. intros (_ & s & (Hs & [(x' & Hx & _) | (_ & l' & Hl & Hz)]) & _); [discriminate Hx | injection Hl as <-; congruence].
      + split; [intros []|]. intros (_ & s & (Hs & [(x' & Hx & _) | (_ & l' & Hl & Hz)]) & _); discriminate.
    - apply orb_false_iff in E. destruct E as [-> ->]. split; [intros [] | intros [[H|H] _]; discriminate H]. }
  split.
  - intros (l & Hl & H). apply K in H. destruct H as (Hv & s & Hs & Hw). exists l, s. auto.
  - intros (l & s & Hl & Hv & Hs & Hw). exists l. split; [exact Hl|]. apply K. eauto.
Qed.
Theorem get_scripts_app : forall tags a c b, get_scripts tags (a ++ c) b = get_scripts tags a b ++ get_scripts tags c b.
Proof. intros tags a c b. unfold get_scripts. apply flat_map_app. Qed.
Theorem get_scripts_valid : forall tags ls, get_scripts tags ls false = get_scripts tags (filter (fun l => tg_valid (tags l)) ls) true.
Proof.
  intros tags ls. unfold get_scripts. induction ls as [|l ls IH]; [reflexivity|]. cbn [flat_map filter]. rewrite IH.
  destruct (tg_valid (tags l)) eqn:E; cbn [flat_map]; unfold scripts_of at 1; rewrite E; reflexivity.
Qed.

(** ** The cache *)
Lemma key_eqb_eq : forall a b, key_eqb a b = true <-> a = b.
Proof.
  intros [a1 a2] [b1 b2]. unfold key_eqb. cbn [fst snd]. rewrite andb_true_iff, !cps_eqb_eq. split; [intros [-> ->]; reflexivity | intros H; injection H as -> ->; auto].
Qed.
Lemma call_text_value : forall c c', call_text c = call_text c' -> call_value c = call_value c'.
Proof. intros [[|]|[|]|] [[|]|[|]|] H; try reflexivity; vm_compute in H; discriminate H. Qed.
Section Cache.
  Variable tags : cps -> tag.
  Variable repr : list cps -> cps.
  Variable ok : list cps -> Prop.
  Hypothesis repr_inj : forall a b, ok a -> ok b -> repr a = repr b -> a = b.
  Definition right (k : cache) : Prop := forall t a s, dget key_eqb (t, a) k = Some s ->
    exists l c, ok l /\ t = repr l /\ a = call_text c /\ s = get_scripts tags l (call_value c).
  Lemma cache_run : forall h now k, ok now -> (forall l, In l (lists_of h) -> ok l) -> right k ->
    memo_run tags repr now k h = fresh tags now h.
  Proof.
    induction h as [|[l|c] h IH]; intros now k Hn Hok Hk; [reflexivity| |].
    - cbn [memo_run fresh]. apply IH; [|intros l' H'|exact Hk]; apply Hok; cbn [lists_of flat_map]; [left; reflexivity | right; exact H'].
    - cbn [memo_run fresh]. unfold memo_get_scripts. destruct (dget key_eqb (repr now, call_text c) k) as [s|] eqn:E.
      + destruct (Hk _ _ _ E) as (l & c' & Hl & Hr & Ht & ->). apply repr_inj in Hr; [|exact Hn|exact Hl]. subst l.
        rewrite (call_text_value _ _ Ht). f_equal. apply IH; [exact Hn | exact Hok | exact Hk].
      + f_equal. apply IH; [exact Hn | exact Hok|]. intros t a s. rewrite (dget_dset _ key_eqb_eq).
        destruct (key_eqb (t, a) (repr now, call_text c)) eqn:Ek.
        * apply key_eqb_eq in Ek. injection Ek as -> ->. intros Hs. injection Hs as <-. exists now, c. auto.
        * apply Hk.
  Qed.
End Cache.
Theorem cache_transparent : forall tags repr (ok : list cps -> Prop), (forall a b, ok a -> ok b -> repr a = repr b -> a = b) ->
  forall h now, ok now -> (forall l, In l (lists_of h) -> ok l) -> memo_run tags repr now [] h = fresh tags now h.
Proof. intros tags repr ok Hr h now Hn Hh. apply (cache_run tags repr ok Hr); auto. intros t a s H. discriminate H. Qed.

Lemma quoted_split : forall a b (u v : cps), ~ In 39%N a -> ~ In 39%N b -> a ++ 39%N :: u = b ++ 39%N :: v -> a = b /\ u = v.
Proof.
  induction a as [|x a IH]; intros [|y b] u v Ha Hb H; cbn [app] in H.
  - injection H as ->. auto.
  - injection H as <- _. exfalso. apply Hb. left. reflexivity.
  - injection H as -> _. exfalso. apply Ha. left. reflexivity.
  - injection H as -> H. destruct (IH b u v) as [-> ->]; auto; intros K; [apply Ha | apply Hb]; right; exact K.
Qed.
Theorem py_repr_inj : forall a b, Forall plain_text a -> Forall plain_text b -> py_repr a = py_repr b -> a = b.
Proof.
  assert (Q : forall x, plain_text x -> ~ In 39%N x) by (intros x H K; destruct (H _ K) as [K1 _]; congruence).
  intros a b Ha Hb H. unfold py_repr in H. injection H as H. revert b Hb H.
  induction a as [|x a IH]; intros [|y b] Hb H; [reflexivity| | |].
  - exfalso. cbn [map join app] in H. destruct b; cbn [map join app] in H; discriminate H.
  - exfalso. cbn [map join app] in H. destruct a; cbn [map join app] in H; discriminate H.
  - inversion Ha as [|? ? Hx Ha']. inversion Hb as [|? ? Hy Hb']. subst.
    assert (K : x = y) by (destruct a, b; cbn [map join app] in H; injection H as H; rewrite <- ?app_assoc in H; cbn [app] in H; apply quoted_split in H; auto; apply H).
    subst y. f_equal.
    destruct a as [|x2 a], b as [|y2 b]; [reflexivity| | |].
    + exfalso. cbn [map join app] in H. injection H as H. rewrite <- ?app_assoc in H. cbn [app] in H. apply app_inv_head in H. discriminate H.
    + exfalso. cbn [map join app] in H. injection H as H. rewrite <- ?app_assoc in H. cbn [app] in H. apply app_inv_head in H. discriminate H.
    + apply IH; [exact Ha' | exact Hb'|].
      change (map (fun x => 39%N :: x ++ [39%N]) (x :: x2 :: a)) with ((39%N :: x ++ [39%N]) :: map (fun x => 39%N :: x ++ [39%N]) (x2 :: a)) in H.
      change (map (fun x => 39%N :: x ++ [39%N]) (x :: y2 :: b)) with ((39%N :: x ++ [39%N]) :: map (fun x => 39%N :: x ++ [39%N]) (y2 :: b)) in H.
      set (A := map (fun x => 39%N :: x ++ [39%N]) (x2 :: a)) in *. set (B := map (fun x => 39%N :: x ++ [39%N]) (y2 :: b)) in *.
      assert (JA : forall z, join [44; 32] (z :: A) = z ++ [44; 32] ++ join [44; 32] A) by (intros z; reflexivity).
      assert (JB : forall z, join [44; 32] (z :: B) = z ++ [44; 32] ++ join [44; 32] B) by (intros z; reflexivity).
      rewrite JA, JB, <- !app_assoc in H. apply app_inv_head, app_inv_head in H. exact H.
Qed.

(** ** Reading a tag *)
Lemma split_first_spec : forall sep s, match split_first sep s with
  | None => ~ In sep s | Some (a, b) => s = a ++ sep :: b /\ ~ In sep a end.
Proof.
  intros sep. induction s as [|c s IH]; [intros []|]. cbn [split_first]. destruct (N.eqb c sep) eqn:E.
  - apply N.eqb_eq in E. subst c. split; [reflexivity | intros []].
  - apply N.eqb_neq in E. destruct (split_first sep s) as [[a b]|]; cbn [option_map fst snd].
    + destruct IH as [-> H]. split; [reflexivity|]. intros [K|K]; [congruence | contradiction].
    + intros [K|K]; [congruence | contradiction].
Qed.
Lemma first_unique : forall sep (a b u v : cps), ~ In sep a -> ~ In sep u -> a ++ sep :: b = u ++ sep :: v -> a = u /\ b = v.
Proof.
  intros sep. induction a as [|x a IH]; intros b [|y u] v Ha Hu H; cbn [app] in H.
  - injection H as ->. auto.
  - injection H as <- _. exfalso. apply Hu. left. reflexivity.
  - injection H as -> _. exfalso. apply Ha. left. reflexivity.
  - injection H as -> H. destruct (IH b u v) as [-> ->]; auto; intros K; [apply Ha | apply Hu]; right; exact K.
Qed.
Lemma normalised_two : forall alpha_2 t t', normalised alpha_2 t t' <-> t' = two_letters alpha_2 t.
Proof.
  intros f t t'. unfold two_letters, normalised. pose proof (split_first_spec 45 t) as H. destruct (split_first 45 t) as [[a b]|].
  - destruct H as [-> Ha]. split.
    + intros [[Hn _] | (a' & b' & E & Ha' & K)]; [exfalso; apply Hn, in_or_app; right; left; reflexivity|].
      apply first_unique in E; [|exact Ha|exact Ha']. destruct E as [<- <-]. destruct K as [(x & -> & ->) | (-> & ->)]; reflexivity.
    + intros ->. right. exists a, b. split; [reflexivity|]. split; [exact Ha|]. destruct (f a) as [x|]; [left; eauto | right; auto].
  - split; [intros [[_ ->] | (a & b & -> & _)]; [reflexivity | exfalso; apply H, in_or_app; right; left; reflexivity] | intros ->; left; auto].
Qed.
Lemma is_und_iff : forall s, is_und s = true <-> undetermined s.
Proof.
  intros s. unfold undetermined. split.
  - destruct s as [|a [|b [|c [|d s]]]]; try discriminate. cbn [is_und]. rewrite !andb_true_iff, !orb_true_iff, !N.eqb_eq.
    intros [[Ha Hb] Hc]. exists a, b, c. split; [reflexivity|]. cbn [In]. intuition.
  - intros (a & b & c & -> & Ha & Hb & Hc). cbn [is_und]. rewrite !andb_true_iff, !orb_true_iff, !N.eqb_eq. cbn [In] in *. intuition.
Qed.
Definition lang_text (g : tag) : cps :=
  let l := match tg_language g with Some l => ln_str l | None => [] end in if is_und l then [] else l.
Lemma language_of_iff : forall g s, language_of g s <-> s = lang_text g.
Proof.
  intros g s. unfold language_of, lang_text. destruct (tg_language g) as [l|]; [|reflexivity]. cbv zeta.
  pose proof (is_und_iff (ln_str l)) as H. destruct (is_und (ln_str l)).
  - assert (U : undetermined (ln_str l)) by (apply H; reflexivity). split; [intros [[_ K]|[K _]]; [exact K | contradiction] | intros ->; left; auto].
  - assert (U : ~ undetermined (ln_str l)) by (intros K; apply H in K; discriminate K). split; [intros [[K _]|[_ K]]; [contradiction | exact K] | intros ->; right; auto].
Qed.
Definition script_text (g : tag) : cps :=
  let s := match tg_script g with Some x => sc_str x | None => [] end in
  if cps_eqb (lang_text g) (txt "zh") && empty s then txt "Hani" else s.
Lemma script_of_iff : forall g s, script_of g s <-> s = script_text g.
Proof.
  intros g s. unfold script_of, script_text. cbv zeta. rewrite language_of_iff.
  destruct (match tg_script g with Some x => sc_str x | None => [] end) as [|c r]; cbn [empty].
  - rewrite andb_true_r. destruct (cps_eqb (lang_text g) (txt "zh")) eqn:E.
    + apply cps_eqb_eq in E. split; [intros [[K _]|[(_ & _ & K)|(_ & K & _)]]; [contradiction | exact K | congruence] | intros ->; right; left; auto].
    + assert (Hn : txt "zh" <> lang_text g) by (intros K; rewrite <- K, cps_eqb_refl in E; discriminate E).
      split; [intros [[K _]|[(_ & K & _)|(_ & _ & K)]]; [contradiction | contradiction | exact K] | intros ->; right; right; auto].
  - rewrite andb_false_r. split; [intros [[_ K]|[(K & _)|(K & _)]]; [exact K | discriminate K | discriminate K] | intros ->; left; split; [discriminate | reflexivity]].
Qed.
Lemma read_tag : forall tags f t, tag_to_language_script tags f t false = (lang_text (tags (two_letters f t)), Some (script_text (tags (two_letters f t)))).
Proof.
  intros tags f t. unfold tag_to_language_script, script_text, lang_text. cbv zeta.
  set (g := tags (two_letters f t)). rewrite andb_false_l.
  replace (match tg_language g with Some _ => Some (match tg_script g with Some s => sc_str s | None => [] end)
           | None => Some (match tg_script g with Some s => sc_str s | None => [] end) end)
    with (Some (match tg_script g with Some s => sc_str s | None => [] end)) by (destruct (tg_language g); reflexivity).
  f_equal. destruct (_ && _); reflexivity.
Qed.
Lemma names_iff : forall tags f t l s, names tags f t l s <-> l = lang_text (tags (two_letters f t)) /\ s = script_text (tags (two_letters f t)).
Proof.
  intros tags f t l s. unfold names. split.
  - intros (t' & H & H1 & H2). apply normalised_two in H. subst t'. apply language_of_iff in H1. apply script_of_iff in H2. auto.
  - intros [-> ->]. exists (two_letters f t). split; [apply normalised_two; reflexivity|]. split; [apply language_of_iff | apply script_of_iff]; reflexivity.
Qed.
Theorem tag_names : forall tags f t l s, tag_to_language_script tags f t false = (l, Some s) <-> names tags f t l s.
Proof.
  intros tags f t l s. rewrite read_tag, names_iff. split; [intros H; injection H as <- <-; auto | intros [-> ->]; reflexivity].
Qed.
Theorem tag_script : forall tags f t, exists l s, tag_to_language_script tags f t false = (l, Some s).
Proof. intros tags f t. rewrite read_tag. eauto. Qed.

(** ** Comparing *)
Lemma same_names_iff : forall tags f a b, same_names tags f a b <->
  lang_text (tags (two_letters f a)) = lang_text (tags (two_letters f b)) /\ script_text (tags (two_letters f a)) = script_text (tags (two_letters f b)).
Proof.
  intros tags f a b. unfold same_names. split.
  - intros (l & s & H1 & H2). apply names_iff in H1. apply names_iff in H2. destruct H1 as [<- <-]. exact H2.
  - intros [H1 H2]. eexists _, _. split; apply names_iff; split; [reflexivity | reflexivity | exact H1 | exact H2].
Qed.
Lemma same_language_iff : forall tags f a b, same_language tags f a b <->
  lang_text (tags (two_letters f a)) <> [] /\ lang_text (tags (two_letters f a)) = lang_text (tags (two_letters f b)).
Proof.
  intros tags f a b. unfold same_language. split.
  - intros (l & s & s' & Hl & H1 & H2). apply names_iff in H1. apply names_iff in H2. destruct H1 as [<- _]. destruct H2 as [H2 _]. auto.
  - intros [H1 H2]. eexists _, _, _. split; [exact H1|]. split; apply names_iff; split; [reflexivity | reflexivity | exact H2 | reflexivity].
Qed.
Lemma relevant_iff : forall tags f a b, relevant_to tags f a b <->
  exists x, tg_language (tags a) = Some x /\ ln_script x = Some (script_text (tags (two_letters f b))) /\ script_text (tags (two_letters f b)) <> [].
Proof.
  intros tags f a b. unfold relevant_to. split.
  - intros (l & x & s & Hs & H & Hx & K). apply names_iff in H. destruct H as [_ ->]. exists x. auto.
  - intros (x & Hx & K & Hs). eexists _, x, _. split; [exact Hs|]. split; [apply names_iff; split; reflexivity|]. auto.
Qed.
Lemma compared_ok : forall tags f t ref, compared_to tags f t ref (compare_with_tag tags f (Some t) ref).
Proof.
  intros tags f t ref. unfold compare_with_tag. rewrite !read_tag.
  destruct (cps_eqb (lang_text (tags (two_letters f t))) (lang_text (tags (two_letters f ref))) &&
            cps_eqb (script_text (tags (two_letters f t))) (script_text (tags (two_letters f ref)))) eqn:E1.
  { apply andb_true_iff in E1. rewrite !cps_eqb_eq in E1. apply c_exact, same_names_iff, E1. }
  assert (N1 : ~ same_names tags f t ref).
  { intros H. apply same_names_iff in H. destruct H as [H1 H2]. rewrite H1, H2, !cps_eqb_refl in E1. discriminate E1. }
  cbv zeta. destruct (tg_unknown (tags t)) eqn:E2; [apply c_unknown; assumption|].
  destruct (negb (empty (lang_text (tags (two_letters f t)))) && cps_eqb (lang_text (tags (two_letters f t))) (lang_text (tags (two_letters f ref)))) eqn:E3.
  { assert (S : same_language tags f t ref).
    { apply same_language_iff. apply andb_true_iff in E3. destruct E3 as [E3 E4]. apply cps_eqb_eq in E4. split; [|exact E4].
      intros K. rewrite K in E3. discriminate E3. }
    destruct (tg_minimal (tags t)) eqn:E4; [apply c_minimal | apply c_language]; assumption. }
  assert (N2 : ~ same_language tags f t ref).
  { intros H. apply same_language_iff in H. destruct H as [H1 H2]. rewrite <- H2, cps_eqb_refl, andb_true_r in E3. apply negb_false_iff, empty_iff in E3. contradiction. }
  destruct (tg_language (tags t)) as [x|] eqn:E5; [destruct (ln_script x) as [s|] eqn:E6|].
  - destruct (negb (empty (script_text (tags (two_letters f ref)))) && cps_eqb s (script_text (tags (two_letters f ref)))) eqn:E7.
    + apply andb_true_iff in E7. destruct E7 as [E7 E8]. apply cps_eqb_eq in E8. apply c_relevant; try assumption. apply relevant_iff. exists x.
      split; [exact E5|]. split; [congruence|]. intros K. rewrite K in E7. discriminate E7.
    + apply c_other; try assumption. intros H. apply relevant_iff in H. destruct H as (y & Hy & K & Hs). rewrite E5 in Hy. injection Hy as <-. rewrite E6 in K.
      injection K as ->. rewrite cps_eqb_refl, andb_true_r in E7. apply negb_false_iff, empty_iff in E7. contradiction.
  - apply c_other; try assumption. intros H. apply relevant_iff in H. destruct H as (y & Hy & K & Hs). rewrite E5 in Hy. injection Hy as <-. congruence.
  - apply c_other; try assumption. intros H. apply relevant_iff in H. destruct H as (y & Hy & _). congruence.
Qed.
Lemma compared_unique : forall tags f t ref x y, compared_to tags f t ref x -> compared_to tags f t ref y -> x = y.
Proof. intros tags f t ref x y Hx Hy. destruct Hx, Hy; try reflexivity; try contradiction; congruence. Qed.
Theorem compare_iff : forall tags f t ref x, compare_with_tag tags f (Some t) ref = x <-> compared_to tags f t ref x.
Proof. intros. split; [intros <-; apply compared_ok | intros H; apply (compared_unique tags f t ref); [apply compared_ok | exact H]]. Qed.
Theorem compare_self : forall tags f t t', normalised f t t' -> forall ref, normalised f ref t' ->
  compare_with_tag tags f (Some t) ref = (RMatch, "Exact match").
Proof.
  intros tags f t t' H ref K. apply compare_iff, c_exact. apply normalised_two in H. apply normalised_two in K. apply same_names_iff. rewrite <- H, <- K. auto.
Qed.

(** ** The report *)
Lemma line_sorted : forall l, StronglySorted line_le (isort tag_leb l).
Proof.
  intros l. apply (isort_sorted tag_leb).
  - intros a b. apply cps_leb_total.
  - intros a b c. apply cps_leb_trans.
Qed.
Theorem report_lines : forall tags f idn refs,
  (idn = [] -> map fst (language_tag_report tags f idn refs) = [txt "-"]) /\
  (idn <> [] -> exists ts, Permutation idn ts /\ StronglySorted (fun a b => cps_leb a b = true) ts /\
     Forall2 (fun t x => fst x = (if empty t then txt "-" else t) /\
       Permutation (map (fun r => (r, compare_with_tag tags f (Some t) r)) refs) (snd x) /\ StronglySorted line_le (snd x))
       ts (language_tag_report tags f idn refs)).
Proof.
  intros tags f idn refs. split; [intros ->; reflexivity|]. intros Hn. exists (isort cps_leb idn).
  split; [apply isort_perm|]. split; [apply (isort_sorted cps_leb cps_leb_total cps_leb_trans)|].
  unfold language_tag_report. destruct idn as [|i idn]; [contradiction|].
  generalize (isort cps_leb (i :: idn)). intros ts. induction ts as [|t ts IH]; [constructor|]. cbn [map]. constructor; [|exact IH].
  split; [reflexivity|]. split; [apply isort_perm | apply line_sorted].
Qed.
Theorem report_untagged : forall tags f refs x, In x (language_tag_report tags f [] refs) ->
  Permutation refs (map fst (snd x)) /\ forall r v, In (r, v) (snd x) -> v = (RManual, in_comment).
Proof.
  intros tags f refs x [<-|[]]. cbn [tag_report snd]. split.
  - rewrite <- (map_id refs) at 1. replace (map (fun r : cps => r) refs) with (map fst (map (fun r => (r, compare_with_tag tags f None r)) refs)) by (rewrite map_map; reflexivity).
    apply Permutation_map, isort_perm.
  - intros r v H. apply isort_In in H. apply in_map_iff in H. destruct H as (r' & H & _). injection H as _ <-. reflexivity.
Qed.
