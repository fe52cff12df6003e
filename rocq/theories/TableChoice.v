(** Which parser reads a file. *)
From Verif Require Import Base BaseFacts CharModel LgrModel UtilsModel UtilsProofs AnnotateModel AnnotateSpec AnnotateRead
  TableModel TableSpec TableScan TableParts Table3743 TableDoc.

Definition told (line : cps) : cps := strip (hd [] (split_on 35 line)).
Lemma reads_as_told : forall line u, reads_as line u <-> u = told line.
Proof.
  intros line u. unfold reads_as, told. split.
  - intros [v [pre [post [H1 [-> [H2 [H3 H4]]]]]]]. apply uncommented_hd in H1. rewrite H1, strip_around; auto.
  - intros ->. set (v := hd [] (split_on 35 line)). rewrite strip_is.
    destruct (lstrip_split v) as [pre [H1 H2]]. destruct (rstrip_split (lstrip v)) as [post [H3 H4]].
    exists v, pre, post. split; [apply uncommented_hd; reflexivity|]. split; [rewrite <- H3; exact H1|].
    split; [exact H2|]. split; [exact H4|]. rewrite <- strip_is. apply strip_trimmed.
Qed.
Lemma has_token_iff : forall u, has_token u <-> match_u u <> None.
Proof.
  intro u. split.
  - intros [n [rest H]]. apply token_match in H. destruct H as [d [H _]]. congruence.
  - intro H. destruct (match_u u) as [[d t]|] eqn:E; [|contradiction]. destruct (match_u_token _ _ _ E) as [n [_ Hn]]. exists n, t. exact Hn.
Qed.
Lemma has_unit_iff : forall u, has_unit u <-> match_3743 u <> None.
Proof.
  intro u. split.
  - intros [p [rest [n [-> H]]]]. eapply match_3743_some; eauto.
  - intro H. destruct (match_u u) as [[d t]|] eqn:E.
    + destruct (match_u_inv _ _ _ E) as [s' [-> Hm]]. destruct (match_hex_total _ _ _ Hm) as [n Hn].
      assert (Hnum : number s' n t) by (apply number_match; eauto). destruct Hnum as [d' [-> [H2 [H3 _]]]].
      exists (85 :: 43 :: d'), t, n. split; [reflexivity|]. exists d'. auto.
    + destruct (match_hex u) as [[d t]|] eqn:Em.
      * destruct (match_hex_total _ _ _ Em) as [n Hn].
        assert (Hnum : number u n t) by (apply number_match; eauto). destruct Hnum as [d' [-> [H2 [H3 _]]]].
        exists d', t, n. split; [reflexivity|]. exists d'. auto.
      * exfalso. apply H. apply match_3743_none. intros p rest n -> Hp. destruct (unit_shape _ _ Hp) as [q [d [-> [Hq [Hl [Hd _]]]]]].
        assert (Hsome : match_hex (d ++ rest) <> None).
        { pose proof (match_3743_some d n rest) as Hx. unfold match_hex. destruct (take_hex 6 (d ++ rest)) as [d2 t2] eqn:Et.
          destruct (Nat.leb_spec 4 (length d2)) as [|Hlt]; [discriminate|]. exfalso.
          destruct (take_hex_spec _ _ _ _ Et) as [K1 [K2 [K3 K4]]]. destruct K4 as [K4|K4]; [lia|].
          assert (Hlen : (length d2 < length d)%nat) by lia. clear -K1 Hd Hlen K4.
          revert d2 K1 Hlen. induction d as [|a d IH]; intros d2 K1 Hlen; [cbn in Hlen; lia|].
          inversion Hd as [|? ? Ha Hd']; subst. destruct d2 as [|b d2].
          - cbn in K1. apply is_hex_iff in Ha. destruct Ha as [v Ha]. eapply K4; [symmetry; exact K1|exact Ha].
          - cbn in K1. injection K1 as _ K1. apply (IH Hd' d2 K1). cbn in Hlen. lia. }
        destruct Hq as [->| ->].
        -- apply Hsome. exact Em.
        -- apply Hsome. exact E.
Qed.
Lemma In_memb : forall x u, memb N.eqb x u = true <-> In x u.
Proof. intros x u. apply (memb_In _ _ N_eqb_iff). Qed.

Definition telling (line : cps) : Prop := points_3743 line \/ points_4290 line.
Inductive choice (seen : Prop) (lines : list cps) : option format -> Prop :=
| ch_3743 : forall pre line, first_with telling lines pre line -> points_3743 line -> choice seen lines (Some F3743)
| ch_4290 : forall pre line, first_with telling lines pre line -> points_4290 line -> choice seen lines (Some F4290)
| ch_default : (forall l, In l lines -> ~ telling l) -> (seen \/ exists l, In l lines /\ points_table l) -> choice seen lines (Some F4290)
| ch_none : (forall l, In l lines -> ~ telling l) -> ~ seen -> (forall l, In l lines -> ~ points_table l) -> choice seen lines None.

Lemma check_format_choice : forall lines seen, choice (seen = true) lines (check_format seen lines).
Proof.
  induction lines as [|line lines IH]; intro seen.
  - cbn. destruct seen; [apply ch_default|apply ch_none]; auto; intros l [].
  - cbn [check_format]. fold (told line). set (u := told line).
    assert (Hu : forall w, reads_as line w <-> w = u) by (intro w; apply reads_as_told).
    assert (Hself : reads_as line u) by (apply Hu; reflexivity).
    assert (Hpush : forall s b, ~ telling line -> (forall x, s x = true <-> x = true \/ points_table line) ->
              choice (s b = true) lines (check_format (s b) lines) -> choice (b = true) (line :: lines) (check_format (s b) lines)).
    { intros s b Hn Hs Hc. destruct Hc as [pre l [post [-> [K1 K2]]] Hp|pre l [post [-> [K1 K2]]] Hp|Hl Ht|Hl Ht Hp].
      - apply ch_3743 with (pre := line :: pre) (line := l); auto. exists post. split; [reflexivity|]. split; [exact K1|].
        intros y [<-|Hy]; auto.
      - apply ch_4290 with (pre := line :: pre) (line := l); auto. exists post. split; [reflexivity|]. split; [exact K1|].
        intros y [<-|Hy]; auto.
      - apply ch_default; [intros y [<-|Hy]; auto|]. destruct Ht as [Ht|[y [H1 H2]]].
        + apply Hs in Ht. destruct Ht as [Ht|Ht]; [left; exact Ht|right; exists line; split; [left; auto|exact Ht]].
        + right. exists y. split; [right; exact H1|exact H2].
      - apply ch_none; [intros y [<-|Hy]; auto| |].
        + intro K. apply Ht. apply Hs. left. exact K.
        + intros y [<-|Hy]; auto. intro K. apply Ht. apply Hs. right. exact K. }
    destruct (match_u u) as [[d t]|] eqn:Em.
    + assert (Htok : has_token u) by (apply has_token_iff; congruence).
      destruct (memb N.eqb 59 u) eqn:E1.
      * apply In_memb in E1. assert (Hp : points_3743 line) by (exists u; split; [exact Hself|left; auto]).
        apply ch_3743 with (pre := []) (line := line); auto. exists lines. split; [reflexivity|]. split; [left; exact Hp|intros y []].
      * assert (Hn1 : ~ In 59 u) by (intro K; apply In_memb in K; congruence).
        destruct (memb N.eqb 124 u) eqn:E2.
        -- apply In_memb in E2. assert (Hp : points_4290 line) by (exists u; auto).
           apply ch_4290 with (pre := []) (line := line); auto. exists lines. split; [reflexivity|]. split; [right; exact Hp|intros y []].
        -- assert (Hn2 : ~ In 124 u) by (intro K; apply In_memb in K; congruence).
           apply (Hpush (fun _ => true) seen); [| |apply IH].
           ++ intros [[w [Hw [[_ Hx]|[Hx _]]]]|[w [Hw [_ [_ Hx]]]]]; apply Hu in Hw; subst w; contradiction.
           ++ intro x. split; auto. intros _. right. exists u. auto.
    + assert (Htok : ~ has_token u) by (rewrite has_token_iff, Em; intro K; apply K; reflexivity).
      destruct (match_3743 u) as [y|] eqn:E3.
      * assert (Hp : points_3743 line).
        { exists u. split; [exact Hself|right]. split; [exact Htok|]. apply has_unit_iff. congruence. }
        apply ch_3743 with (pre := []) (line := line); auto. exists lines. split; [reflexivity|]. split; [left; exact Hp|intros z []].
      * apply (Hpush (fun x => x) seen); [| |apply IH].
        -- intros [[w [Hw [[Hx _]|[_ Hx]]]]|[w [Hw [Hx _]]]]; apply Hu in Hw; subst w; try contradiction.
           apply has_unit_iff in Hx. congruence.
        -- intro x. split; [auto|]. intros [K|[w [Hw Hx]]]; auto. apply Hu in Hw. subst w. contradiction.
Qed.

Theorem chosen : forall lines,
  match find_parser false lines with
  | F3743 => exists pre line, first_with (fun l => points_3743 l \/ points_4290 l) lines pre line /\ points_3743 line
  | F4290 => (exists pre line, first_with (fun l => points_3743 l \/ points_4290 l) lines pre line /\ points_4290 line) \/
             ((forall l, In l lines -> ~ points_3743 l /\ ~ points_4290 l) /\ exists l, In l lines /\ points_table l)
  | FXml => forall l, In l lines -> ~ points_3743 l /\ ~ points_4290 l /\ ~ points_table l
  end.
Proof.
  intro lines. unfold find_parser.
  assert (Hn : forall l, ~ telling l -> ~ points_3743 l /\ ~ points_4290 l) by (intros l H; split; intro K; apply H; [left|right]; exact K).
  destruct (check_format_choice lines false) as [pre l H1 H2|pre l H1 H2|H1 H2|H1 H2 H3].
  - exists pre, l. auto.
  - left. exists pre, l. auto.
  - right. destruct H2 as [H2|H2]; [discriminate|]. split; auto.
  - intros l Hl. destruct (Hn l (H1 l Hl)) as [K1 K2]. auto.
Qed.
