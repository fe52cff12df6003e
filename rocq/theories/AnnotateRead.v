(** Proofs about reading label lists. *)
From Verif Require Import Base BaseFacts CharModel RepSpec ActionModel LabelModel LabelSpec UtilsModel UtilsProofs CollisionModel AnnotateModel AnnotateSpec.

(** ** Stripping *)
Lemma lstrip_blank : forall p s, blank p -> lstrip (p ++ s) = lstrip s.
Proof. induction p as [|c p IH]; intros s H; auto. inversion H as [|? ? H1 H2]; subst. cbn [lstrip app]. rewrite H1. auto. Qed.

Lemma lstrip_head : forall s, (forall c t, s = c :: t -> is_space c = false) -> lstrip s = s.
Proof. intros [|c t] H; auto. cbn [lstrip]. rewrite (H c t eq_refl). reflexivity. Qed.

Lemma lstrip_split : forall s, exists p, s = p ++ lstrip s /\ blank p.
Proof.
  induction s as [|c s [p [H1 H2]]]; [exists []; split; [auto|constructor]|].
  cbn [lstrip]. destruct (is_space c) eqn:E.
  - exists (c :: p). split; [cbn [app]; f_equal; exact H1|constructor; auto].
  - exists []. split; [auto|constructor].
Qed.
Lemma lstrip_starts : forall s c t, lstrip s = c :: t -> is_space c = false.
Proof.
  induction s as [|x s IH]; intros c t H; [discriminate|]. cbn [lstrip] in H. destruct (is_space x) eqn:E; [eauto|].
  injection H as -> _. exact E.
Qed.

Definition rstrip (s : cps) : cps := rev (lstrip (rev s)).
Lemma strip_is : forall s, strip s = rstrip (lstrip s).
Proof. reflexivity. Qed.
Lemma blank_rev : forall p, blank p -> blank (rev p).
Proof. intros p H. apply Forall_forall. intros x Hx. apply in_rev in Hx. unfold blank in H. rewrite Forall_forall in H. auto. Qed.
Lemma rstrip_blank : forall s p, blank p -> rstrip (s ++ p) = rstrip s.
Proof. intros s p H. unfold rstrip. rewrite rev_app_distr, lstrip_blank; auto. apply blank_rev; auto. Qed.
Lemma rstrip_end : forall s, (forall t c, s = t ++ [c] -> is_space c = false) -> rstrip s = s.
Proof.
  intros s H. unfold rstrip. rewrite lstrip_head; [apply rev_involutive|]. intros c t E.
  apply (H (rev t) c). rewrite <- (rev_involutive s), E. reflexivity.
Qed.
Lemma rstrip_split : forall s, exists p, s = rstrip s ++ p /\ blank p.
Proof.
  intro s. destruct (lstrip_split (rev s)) as [p [H1 H2]]. exists (rev p). split; [|apply blank_rev; auto].
  unfold rstrip. rewrite <- rev_app_distr, <- H1, rev_involutive. reflexivity.
Qed.
Lemma rstrip_ends : forall s t c, rstrip s = t ++ [c] -> is_space c = false.
Proof.
  intros s t c H. unfold rstrip in H. apply (lstrip_starts (rev s) c (rev t)).
  rewrite <- (rev_involutive (lstrip (rev s))), H, rev_app_distr. reflexivity.
Qed.
Lemma rstrip_keeps : forall s c t, is_space c = false -> exists t', rstrip (s ++ c :: t) = s ++ c :: t'.
Proof.
  intros s c t Hc. destruct (rstrip_split (c :: t)) as [p [H1 H2]].
  assert (Hn : exists t', rstrip (c :: t) = c :: t').
  { destruct (rstrip (c :: t)) as [|d t'] eqn:E; [|exists t'; f_equal; cbn [app] in H1; congruence].
    cbn [app] in H1. subst p. inversion H2; congruence. }
  destruct Hn as [t' Ht']. exists t'. rewrite H1, app_assoc, rstrip_blank by exact H2. rewrite Ht'.
  apply rstrip_end. intros u d Hd. destruct t' as [|x t'] using rev_ind.
  - apply app_inj_tail in Hd. destruct Hd as [_ <-]. exact Hc.
  - assert (Hd' : (s ++ c :: t') ++ [x] = u ++ [d]) by (rewrite <- Hd, <- app_assoc; reflexivity).
    apply app_inj_tail in Hd'. destruct Hd' as [_ <-].
    apply (rstrip_ends (c :: t) (c :: t') x). exact Ht'.
Qed.

Lemma trimmed_nil : trimmed [].
Proof. split; intros; [discriminate|]. destruct t; discriminate. Qed.
Lemma trimmed_strip : forall s, trimmed s -> strip s = s.
Proof. intros s [H1 H2]. rewrite strip_is, lstrip_head, rstrip_end; auto. Qed.
Lemma strip_trimmed : forall s, trimmed (strip s).
Proof.
  intro s. rewrite strip_is. split.
  - intros c t H. destruct (rstrip_split (lstrip s)) as [p [H1 _]]. rewrite H in H1. apply (lstrip_starts s c (t ++ p)). exact H1.
  - intros t c H. eapply rstrip_ends; eauto.
Qed.
Lemma strip_around : forall pre s post, blank pre -> blank post -> trimmed s -> strip (pre ++ s ++ post) = s.
Proof.
  intros pre s post H1 H2 H3. rewrite strip_is, lstrip_blank by exact H1. destruct s as [|c s].
  - cbn [app]. rewrite <- (app_nil_r post), lstrip_blank by exact H2. reflexivity.
  - rewrite lstrip_head by (intros d t E; injection E as <- _; exact (proj1 H3 c s eq_refl)).
    rewrite rstrip_blank by exact H2. apply rstrip_end. apply (proj2 H3).
Qed.

(** ** Comments *)
Lemma before_hash_none : forall s, ~ In hash_mark s -> before_hash s = None.
Proof.
  induction s as [|c s IH]; intro H; auto. cbn [before_hash]. destruct (N.eqb_spec c hash_mark) as [E|E].
  - exfalso. apply H. left. auto.
  - rewrite IH; auto. intro Hx. apply H. right. auto.
Qed.
Lemma before_hash_some : forall s t, ~ In hash_mark s -> before_hash (s ++ hash_mark :: t) = Some s.
Proof.
  induction s as [|c s IH]; intros t H; [reflexivity|]. cbn [before_hash app].
  destruct (N.eqb_spec c hash_mark) as [E|E]; [exfalso; apply H; left; auto|].
  rewrite IH; auto. intro Hx. apply H. right. auto.
Qed.
Lemma before_hash_cases : forall s, (before_hash s = None /\ ~ In hash_mark s) \/
  exists p t, before_hash s = Some p /\ s = p ++ hash_mark :: t /\ ~ In hash_mark p.
Proof.
  induction s as [|c s IH]; [left; auto|]. cbn [before_hash]. destruct (N.eqb_spec c hash_mark) as [E|E].
  - right. exists [], s. subst c. auto.
  - destruct IH as [[H1 H2]|[p [t [H1 [H2 H3]]]]].
    + left. rewrite H1. split; auto. intros [Hx|Hx]; auto.
    + right. exists (c :: p), t. rewrite H1. split; auto. split; [cbn [app]; congruence|]. intros [Hx|Hx]; auto.
Qed.
Lemma strip_bom_repeat : forall k s, strip_bom (repeat bom k ++ s) = strip_bom s.
Proof. induction k as [|k IH]; intro s; auto. cbn [repeat app strip_bom]. rewrite N.eqb_refl. auto. Qed.
Lemma strip_bom_head : forall s, (forall t, s <> bom :: t) -> strip_bom s = s.
Proof. intros [|c s] H; auto. cbn [strip_bom]. destruct (N.eqb_spec c bom) as [->|E]; auto. exfalso. eapply H. reflexivity. Qed.
Lemma strip_bom_split : forall s, exists k, s = repeat bom k ++ strip_bom s /\ forall t, strip_bom s <> bom :: t.
Proof.
  induction s as [|c s [k [H1 H2]]]; [exists 0%nat; split; [auto|discriminate]|].
  cbn [strip_bom]. destruct (N.eqb_spec c bom) as [->|E].
  - exists (S k). split; [cbn [repeat app]; f_equal; exact H1|exact H2].
  - exists 0%nat. split; auto. intros t Hx. congruence.
Qed.
Lemma blank_no_hash : forall p, blank p -> ~ In hash_mark p.
Proof. intros p H Hx. unfold blank in H. rewrite Forall_forall in H. specialize (H _ Hx). vm_compute in H. discriminate. Qed.
Lemma blank_bom : forall c t, blank (c :: t) -> c <> bom.
Proof. intros c t H ->. inversion H as [|? ? H1 _]; subst. vm_compute in H1. discriminate. Qed.

(** The text of a line, computed. *)
Definition content (line : cps) : cps :=
  match before_hash (clean line) with Some p => strip p | None => clean line end.

Lemma strip_keeps_hash : forall pre text post t, blank pre -> blank post -> trimmed text ->
  exists t', strip (pre ++ text ++ post ++ hash_mark :: t) =
    match text with [] => hash_mark :: t' | _ => text ++ post ++ hash_mark :: t' end.
Proof.
  intros pre text post t H1 H2 H3. rewrite strip_is, lstrip_blank by exact H1. destruct text as [|c s].
  - cbn [app]. rewrite lstrip_blank by exact H2. rewrite lstrip_head by (intros c u E; injection E as <- _; reflexivity).
    destruct (rstrip_keeps [] hash_mark t eq_refl) as [t' Ht']. exists t'. exact Ht'.
  - rewrite lstrip_head by (intros d u E; injection E as <- _; exact (proj1 H3 c s eq_refl)).
    destruct (rstrip_keeps ((c :: s) ++ post) hash_mark t eq_refl) as [t' Ht']. exists t'.
    rewrite !app_assoc. rewrite Ht'. reflexivity.
Qed.

Lemma clean_parts : forall k pre text post tail, blank pre -> blank post -> (tail = [] \/ exists t, tail = hash_mark :: t) ->
  (pre = [] -> forall t, text <> bom :: t) ->
  clean (repeat bom k ++ pre ++ text ++ post ++ tail) = strip (pre ++ text ++ post ++ tail).
Proof.
  intros k pre text post tail H1 H2 H3 H4. unfold clean. rewrite strip_bom_repeat, strip_bom_head; auto.
  intros t. destruct pre as [|c pre]; cbn [app].
  - destruct text as [|c text]; cbn [app].
    + destruct post as [|c post]; cbn [app].
      * destruct H3 as [->|[u ->]]; [discriminate|]. intro Hx. injection Hx as Hx _. vm_compute in Hx. discriminate.
      * intro Hx. injection Hx as Hx _. eapply blank_bom; eauto.
    + intro Hx. injection Hx as Hx _. eapply (H4 eq_refl). rewrite Hx. reflexivity.
  - intro Hx. injection Hx as Hx _. eapply blank_bom; eauto.
Qed.

Lemma content_unique : forall line text, content_of line text -> content line = text.
Proof.
  intros line text [k [pre [post [tail [E [H1 [H2 [H3 [H4 [H5 H6]]]]]]]]]]. unfold content.
  rewrite E, (clean_parts k pre text post tail H1 H2 H3 H6). destruct H3 as [->|[t ->]].
  - rewrite app_nil_r, strip_around by auto. rewrite before_hash_none by exact H4. reflexivity.
  - destruct (strip_keeps_hash pre text post t H1 H2 H5) as [t' Ht']. rewrite Ht'. destruct text as [|c s].
    + reflexivity.
    + rewrite app_assoc, before_hash_some.
      * change (strip ((c :: s) ++ post)) with (strip ([] ++ (c :: s) ++ post)). apply strip_around; auto. constructor.
      * intro Hx. apply in_app_iff in Hx. destruct Hx as [Hx|Hx]; [auto|exact (blank_no_hash _ H2 Hx)].
Qed.

Lemma content_exists : forall line, content_of line (content line).
Proof.
  intro line. destruct (strip_bom_split line) as [k [E1 Hb]]. destruct (lstrip_split (strip_bom line)) as [pre [E2 Hp]].
  destruct (rstrip_split (lstrip (strip_bom line))) as [q [E3 Hq]].
  assert (Ec : clean line = rstrip (lstrip (strip_bom line))) by reflexivity.
  assert (Et : trimmed (clean line)) by apply strip_trimmed.
  assert (El : line = repeat bom k ++ pre ++ clean line ++ q) by (rewrite Ec, <- E3, <- E2; exact E1).
  assert (Hbom : pre = [] -> forall t, clean line <> bom :: t).
  { intros -> t Hx. apply (Hb (t ++ q)). rewrite E2. cbn [app]. rewrite E3, <- Ec, Hx. reflexivity. }
  unfold content. destruct (before_hash_cases (clean line)) as [[N1 N2]|[p [t [N1 [N2 N3]]]]]; rewrite N1.
  - exists k, pre, q, []. rewrite app_nil_r. split; [exact El|]. split; [exact Hp|]. split; [exact Hq|]. split; [left; reflexivity|]. split; [exact N2|]. split; [exact Et|exact Hbom].
  - destruct (lstrip_split p) as [p1 [F1 F2]]. destruct (rstrip_split (lstrip p)) as [p2 [F3 F4]].
    assert (Hp1 : p <> [] -> p1 = []).
    { intro Hne. destruct p1 as [|c p1]; auto. exfalso. inversion F2 as [|? ? F5 _]; subst.
      rewrite (proj1 Et c (p1 ++ lstrip p ++ hash_mark :: t)) in F5; [discriminate|]. rewrite N2.
      rewrite F1 at 1. cbn [app]. rewrite <- app_assoc. reflexivity. }
    assert (Ep : p = strip p ++ p2).
    { rewrite strip_is, <- F3. destruct p as [|c p]; [reflexivity|]. rewrite Hp1 in F1 by discriminate. exact F1. }
    exists k, pre, p2, (hash_mark :: t ++ q). split.
    + assert (Ec2 : clean line = strip p ++ p2 ++ hash_mark :: t) by (rewrite app_assoc, <- Ep; exact N2).
      rewrite El at 1. rewrite Ec2. rewrite <- !app_assoc. reflexivity.
    + split; auto. split; auto. split; [right; eauto|]. split; [|split].
      * intro Hx. apply N3. rewrite Ep. apply in_app_iff. auto.
      * apply strip_trimmed.
      * intros Hn u Hu. apply (Hbom Hn (u ++ p2 ++ hash_mark :: t)). rewrite N2, Ep at 1. rewrite Hu. cbn [app]. rewrite <- app_assoc. reflexivity.
Qed.

Lemma comment_only_iff : forall line, comment_only line <-> before_hash (clean line) = Some [].
Proof.
  intro line. split.
  - intros [k [pre [t [E H]]]].
    assert (Hc : clean line = strip (pre ++ [] ++ [] ++ hash_mark :: t)).
    { rewrite E. apply (clean_parts k pre [] [] (hash_mark :: t)); [exact H|constructor|right; eauto|discriminate]. }
    rewrite Hc. destruct (strip_keeps_hash pre [] [] t H (Forall_nil _) trimmed_nil) as [t' Ht']. rewrite Ht'. reflexivity.
  - intro H. destruct (strip_bom_split line) as [k [E1 _]]. destruct (lstrip_split (strip_bom line)) as [pre [E2 Hp]].
    destruct (rstrip_split (lstrip (strip_bom line))) as [q [E3 Hq]].
    destruct (before_hash_cases (clean line)) as [[N1 N2]|[p [t [N1 [N2 N3]]]]]; [congruence|].
    rewrite N1 in H. injection H as ->. exists k, pre, (t ++ q). split; auto. rewrite E1 at 1. rewrite E2 at 1.
    rewrite E3 at 1. change (rstrip (lstrip (strip_bom line))) with (clean line). rewrite N2. reflexivity.
Qed.

(** ** Notations *)
Lemma starts_xn_iff : forall s, starts_xn s = true <-> a_label s.
Proof.
  intro s. unfold starts_xn. rewrite cps_eqb_eq.
  assert (Hl : forall c k, lower_ascii c = k -> 97 <= k <= 122 -> c = k \/ c = k - 32).
  { intros c k H Hk. unfold lower_ascii in H. destruct (N.leb_spec 65 c); cbn [andb] in H; [|lia].
    destruct (N.leb_spec c 90); lia. }
  assert (Hm : forall c, lower_ascii c = 45 -> c = 45).
  { intros c H. unfold lower_ascii in H. destruct (N.leb_spec 65 c); cbn [andb] in H; [|lia]. destruct (N.leb_spec c 90); lia. }
  split.
  - destruct s as [|a [|b [|c [|d t]]]]; cbn [firstn map]; intro H; try discriminate.
    injection H as Ha Hb Hc Hd. apply Hl in Ha; [|lia]. apply Hl in Hb; [|lia]. apply Hm in Hc. apply Hm in Hd. subst c d.
    exists a, b, t. split; auto.
  - intros [x [n [t [-> [[->| ->] [->| ->]]]]]]; reflexivity.
Qed.
Lemma has_u_plus_iff : forall s, has_u_plus s = true <-> mentions_u_plus s.
Proof.
  assert (Hu : forall a, N.eqb (upper_ascii a) 85 = true <-> a = 85 \/ a = 117).
  { intro a. rewrite N.eqb_eq. unfold upper_ascii. destruct (N.leb_spec 97 a); cbn [andb]; [|lia]. destruct (N.leb_spec a 122); lia. }
  assert (Hcons : forall a s, mentions_u_plus s -> mentions_u_plus (a :: s)).
  { intros a s [p [u [t [-> H]]]]. exists (a :: p), u, t. auto. }
  induction s as [|a s IH].
  - split; [discriminate|]. intros [[|? p] [u [t [H _]]]]; discriminate.
  - destruct s as [|b s].
    + split; [discriminate|]. intros [[|? [|? p]] [u [t [H _]]]]; discriminate.
    + change (has_u_plus (a :: b :: s)) with (if N.eqb (upper_ascii a) 85 && N.eqb b 43 then true else has_u_plus (b :: s)).
      destruct (N.eqb (upper_ascii a) 85 && N.eqb b 43)%bool eqn:E.
      * split; auto. intros _. apply andb_true_iff in E. destruct E as [E1 E2]. apply N.eqb_eq in E2. subst b.
        exists [], a, s. split; auto. apply Hu. exact E1.
      * rewrite IH. split; [apply Hcons|]. intros [p [u [t [H Ho]]]]. destruct p as [|x p]; cbn [app] in H.
        -- injection H as -> -> ->. exfalso. apply Hu in Ho. rewrite Ho in E. discriminate.
        -- injection H as _ H. exists p, u, t. auto.
Qed.
Lemma has_blank_iff : forall s, has_blank s = true <-> In 32 s.
Proof. intro s. unfold has_blank. apply (memb_In _ _ N_eqb_iff). Qed.

Lemma parse_label_reads : forall decode s l, parse_label decode false s = Ok l <-> read_as decode s l.
Proof.
  intros decode s l. unfold parse_label, read_as. rewrite <- starts_xn_iff, <- has_u_plus_iff, <- has_blank_iff.
  destruct (starts_xn s).
  - split; [auto|]. intros [[_ H]|[[H _]|[H _]]]; auto; exfalso; apply H; reflexivity.
  - destruct (has_blank s); cbn iota.
    + destruct (parse_codepoint_input s) as [c|e]; cbn [negb]; split.
      * intro H. right. left. split; [discriminate|]. auto.
      * intros [[H _]|[[_ [_ H]]|[_ [H _]]]]; try discriminate; auto. exfalso. apply H. reflexivity.
      * discriminate.
      * intros [[H _]|[[_ [_ H]]|[_ [H _]]]]; try discriminate; auto. exfalso. apply H. reflexivity.
    + destruct (has_u_plus s).
      * destruct (parse_codepoint_input s) as [c|e]; cbn [negb]; split.
        -- intro H. right. left. split; [discriminate|]. auto.
        -- intros [[H _]|[[_ [_ H]]|[_ [_ [H _]]]]]; try discriminate; auto. exfalso. apply H. reflexivity.
        -- discriminate.
        -- intros [[H _]|[[_ [_ H]]|[_ [_ [H _]]]]]; try discriminate; auto. exfalso. apply H. reflexivity.
      * split.
        -- intro H. right. right. split; [discriminate|]. split; [discriminate|]. split; [discriminate|]. congruence.
        -- intros [[H _]|[[_ [[H|H] _]]|[_ [_ [_ H]]]]]; try discriminate. congruence.
Qed.

Lemma read_line_spec : forall decode kc line, exists xs, read_line decode false kc line = Ok xs /\ line_reading decode kc line xs.
Proof.
  intros decode kc line. pose proof (content_exists line) as Hc. unfold line_reading.
  assert (Hgo : content line <> [] -> before_hash (clean line) <> Some [] ->
    exists x, read_line decode false kc line = Ok [x] /\ read_properly decode (content line) x).
  { intros Hne Hn. unfold read_line. unfold content in *. destruct (before_hash (clean line)) as [[|c p]|]; [exfalso; apply Hn; reflexivity| |].
    - destruct (strip (c :: p)) as [|y z] eqn:E; [congruence|]. unfold parse_label_input.
      destruct (parse_label decode false (y :: z)) as [l|e] eqn:P; cbn [bind]; eexists; (split; [reflexivity|]); split; auto.
      + left. split; auto. split; auto. apply parse_label_reads. exact P.
      + right. split; auto. split; [cbn; eauto|]. split; auto. intros l Hl. apply parse_label_reads in Hl. congruence.
    - destruct (clean line) as [|y z] eqn:E; [congruence|]. unfold parse_label_input.
      destruct (parse_label decode false (y :: z)) as [l|e] eqn:P; cbn [bind]; eexists; (split; [reflexivity|]); split; auto.
      + left. split; auto. split; auto. apply parse_label_reads. exact P.
      + right. split; auto. split; [cbn; eauto|]. split; auto. intros l Hl. apply parse_label_reads in Hl. congruence. }
  destruct (content line) as [|c t] eqn:Et.
  - (* no text *)
    destruct (before_hash (clean line)) as [[|c p]|] eqn:Eb.
    + unfold read_line. rewrite Eb. eexists. split; [reflexivity|]. exists []. split; [exact Hc|]. split; [congruence|]. intros _. split.
      * intros [->|Hx]; auto. exfalso. apply Hx. apply comment_only_iff. exact Eb.
      * intros -> _. eexists. split; [reflexivity|]. auto.
    + unfold read_line. rewrite Eb. unfold content in Et. rewrite Eb in Et. rewrite Et. eexists. split; [reflexivity|].
      exists []. split; [exact Hc|]. split; [congruence|]. intros _. split; auto. intros _ Hx. apply comment_only_iff in Hx. congruence.
    + unfold read_line. rewrite Eb. unfold content in Et. rewrite Eb in Et. rewrite Et. eexists. split; [reflexivity|].
      exists []. split; [exact Hc|]. split; [congruence|]. intros _. split; auto. intros _ Hx. apply comment_only_iff in Hx. congruence.
  - destruct Hgo as [x [H1 H2]]; [congruence| |].
    + intro Hx. unfold content in Et. rewrite Hx in Et. vm_compute in Et. discriminate.
    + exists [x]. split; auto. exists (c :: t). split; [exact Hc|]. split; [eauto|discriminate].
Qed.

Lemma read_labels_spec : forall decode kc lines, exists groups,
  read_labels decode false kc lines = (concat groups, Ok tt) /\ Forall2 (line_reading decode kc) lines groups.
Proof.
  intros decode kc lines. induction lines as [|l lines [gs [H1 H2]]]; [exists []; split; auto|].
  destruct (read_line_spec decode kc l) as [xs [H3 H4]]. exists (xs :: gs). cbn [read_labels concat]. rewrite H3, H1. auto.
Qed.

Lemma content_of_unique : forall line a b, content_of line a -> content_of line b -> a = b.
Proof. intros line a b Ha Hb. apply content_unique in Ha. apply content_unique in Hb. congruence. Qed.

(** With do_raise, the first unreadable line ends the reading. *)
Lemma read_line_raise : forall decode kc line,
  match read_line decode true kc line with
  | Ok xs => read_line decode false kc line = Ok xs /\ forall x, In x xs -> rd_valid x = true
  | Raise e => exists x, read_line decode false kc line = Ok [x] /\ rd_valid x = false /\ rd_error x = Some e
  end.
Proof.
  intros decode kc line. unfold read_line.
  assert (Hgo : forall l', match (match l' with [] => Ok [] | _ :: _ => bind (parse_label_input decode true false l') (fun x => Ok [x]) end) with
    | Ok xs => (match l' with [] => Ok [] | _ :: _ => bind (parse_label_input decode false false l') (fun x => Ok [x]) end) = Ok xs /\ forall x, In x xs -> rd_valid x = true
    | Raise e => exists x, (match l' with [] => Ok [] | _ :: _ => bind (parse_label_input decode false false l') (fun x => Ok [x]) end) = Ok [x] /\ rd_valid x = false /\ rd_error x = Some e
    end).
  { intros [|c t]; [split; [auto|intros x []]|]. unfold parse_label_input. destruct (parse_label decode false (c :: t)) as [l|e]; cbn [bind].
    - split; auto. intros x [<-|[]]. reflexivity.
    - eexists. split; [reflexivity|]. auto. }
  destruct (before_hash (clean line)) as [[|c p]|]; try apply Hgo.
  destruct kc; (split; [auto|]); intros x Hx; [destruct Hx as [<-|[]]; reflexivity|contradiction].
Qed.
Lemma read_labels_raise : forall decode kc lines,
  let all := fst (read_labels decode false kc lines) in
  let '(xs, o) := read_labels decode true kc lines in
  (forall x, In x xs -> rd_valid x = true) /\
  match o with
  | Ok _ => xs = all
  | Raise e => exists x rest, all = xs ++ x :: rest /\ rd_valid x = false /\ rd_error x = Some e
  end.
Proof.
  intros decode kc lines. induction lines as [|l lines IH]; [cbn; split; [intros x []|auto]|].
  cbv zeta. cbn [read_labels]. pose proof (read_line_raise decode kc l) as Hl. cbv zeta in IH.
  destruct (read_line decode true kc l) as [xs|e].
  - destruct Hl as [H1 H2]. rewrite H1. destruct (read_labels decode true kc lines) as [ys o]. destruct IH as [I1 I2].
    destruct (read_labels decode false kc lines) as [zs o'] eqn:Ef. cbn [fst] in *. split.
    + intros x Hx. apply in_app_iff in Hx. destruct Hx; auto.
    + destruct o as [u|e]; [congruence|]. destruct I2 as [x [rest [E [I2 I3]]]]. exists x, rest. split; auto. rewrite E, app_assoc. reflexivity.
  - destruct Hl as [x [H1 [H2 H3]]]. rewrite H1. destruct (read_labels decode false kc lines) as [zs o'] eqn:Ef. cbn [fst].
    split; [intros y []|]. exists x, zs. auto.
Qed.

(** ** Notations that are read back *)
Lemma not_a_label_u_plus : forall t, ~ a_label (85 :: t).
Proof. intros t [x [n [u [H [[->| ->] _]]]]]; discriminate. Qed.
Lemma format_cp_u_plus : forall c, c <> [] -> exists t, format_cp c = 85 :: 43 :: t.
Proof. intros [|x [|y c]] H; [congruence| |]; unfold format_cp; cbn [map join]; unfold u_plus; cbn [app]; eauto. Qed.
Lemma reads_format_cp : forall decode c l, c <> [] -> Forall (fun n => n <= 1114111) c -> (read_as decode (format_cp c) l <-> l = c).
Proof.
  intros decode c l Hne Hc. destruct (format_cp_u_plus c Hne) as [t Ht]. pose proof (format_cp_roundtrip c Hc) as Hr.
  rewrite <- parse_label_reads. unfold parse_label.
  assert (Hx : starts_xn (format_cp c) = false).
  { apply not_true_iff_false. intro Hx. apply starts_xn_iff in Hx. rewrite Ht in Hx. exact (not_a_label_u_plus _ Hx). }
  assert (Hu : has_u_plus (format_cp c) = true).
  { apply has_u_plus_iff. exists [], 85, t. rewrite Ht. auto. }
  rewrite Hx, Hu, Hr. destruct (has_blank (format_cp c)); (split; [intro H; apply (f_equal (fun q => match q with Ok v => v | Raise _ => [] end)) in H; symmetry; exact H|intros ->; reflexivity]).
Qed.
Lemma join_two_blank : forall (a b : cps) l, In 32 (join [32] (a :: b :: l)).
Proof. intros a b l. change (join [32] (a :: b :: l)) with (a ++ [32] ++ join [32] (b :: l)). apply in_app_iff. right. left. reflexivity. Qed.
Lemma reads_plain_hex : forall decode x y c l, Forall (fun n => n <= 1114111) (x :: y :: c) ->
  (read_as decode (join [32] (map cp_to_str (x :: y :: c))) l <-> l = x :: y :: c).
Proof.
  intros decode x y c l Hc. rewrite <- parse_label_reads. unfold parse_label.
  set (s := join [32] (map cp_to_str (x :: y :: c))).
  assert (Hb : has_blank s = true) by (apply has_blank_iff; apply join_two_blank).
  assert (Hx : starts_xn s = false).
  { apply not_true_iff_false. intro Hx. apply starts_xn_iff in Hx. destruct Hx as [a [n [t [E [Ha _]]]]].
    unfold s in E. cbn [map] in E. pose proof (cp_to_str_hex x) as Hh. pose proof (cp_to_str_length x) as Hl.
    destruct (cp_to_str x) as [|d r] eqn:Ed; [cbn in Hl; lia|].
    change (join [32] ((d :: r) :: cp_to_str y :: map cp_to_str c)) with (d :: (r ++ [32] ++ join [32] (cp_to_str y :: map cp_to_str c))) in E.
    injection E as E _. inversion Hh as [|? ? H1 _]; subst. unfold hexchar in H1. lia. }
  assert (Hp : parse_codepoint_input s = Ok (x :: y :: c)).
  { unfold parse_codepoint_input, s. rewrite split_join.
    - rewrite <- (map_id (x :: y :: c)) at 2. apply mapM_map_ok with (h := fun n => n). intros a Ha.
      rewrite parse_single_plain. rewrite Forall_forall in Hc. specialize (Hc a Ha). apply N.leb_le in Hc. rewrite Hc. reflexivity.
    - apply Forall_forall. intros w Hw. apply in_map_iff in Hw. destruct Hw as [a [<- _]]. apply cp_to_str_word. }
  rewrite Hx, Hb, Hp. split; [intro H; apply (f_equal (fun q => match q with Ok v => v | Raise _ => [] end)) in H; symmetry; exact H|intros ->; reflexivity].
Qed.

(** A valid reading of a proper text is not empty unless the decoder says so. *)
Lemma split_ws_nonempty : forall s cur, (cur <> [] \/ exists c, In c s /\ is_space c = false) -> split_ws_aux cur s <> [].
Proof.
  induction s as [|c s IH]; intros cur H.
  - cbn [split_ws_aux]. destruct H as [H|[c [[] _]]]. destruct cur; [congruence|discriminate].
  - cbn [split_ws_aux]. destruct (is_space c) eqn:E.
    + destruct cur as [|d cur]; [|discriminate]. apply IH. destruct H as [H|[d [[<-|H] Hd]]]; [congruence|congruence|eauto].
    + apply IH. left. discriminate.
Qed.
Lemma mapM_res_length : forall A B (f : A -> res B) l x, mapM_res f l = Ok x -> length x = length l.
Proof.
  intros A B f l. induction l as [|a l IH]; intros x H; cbn [mapM_res] in H; [injection H as <-; reflexivity|].
  destruct (f a); cbn [bind] in H; [|discriminate]. destruct (mapM_res f l) as [y|] eqn:E; cbn [bind] in H; [|discriminate].
  injection H as <-. cbn [length]. f_equal. auto.
Qed.
Lemma read_as_nonempty : forall decode text l, (forall s, decode s <> Ok []) -> text <> [] -> trimmed text ->
  read_as decode text l -> l <> [].
Proof.
  intros decode text l Hd Hne Ht [[_ H]|[[_ [_ H]]|[_ [_ [_ H]]]]].
  - intros ->. exact (Hd _ H).
  - intros ->. unfold parse_codepoint_input in H. apply mapM_res_length in H.
    assert (Hs : split_ws text <> []).
    { apply split_ws_nonempty. right. destruct text as [|c t]; [congruence|]. exists c. split; [left; auto|]. exact (proj1 Ht c t eq_refl). }
    destruct (split_ws text); [congruence|discriminate].
  - congruence.
Qed.
