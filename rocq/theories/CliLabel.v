(** What lgr_validate and lgr_cli say of labels. *)
From Coq Require Import Permutation.
From Verif Require Import Base BaseFacts CharModel RepSpec RangeProofs RepProofs ActionModel ActionSpec LabelModel LabelSpec LabelProofs LabelElig LabelList LabelFinal CollisionModel CollisionSpec CollisionFinal CollisionProofs UtilsModel AnnotateModel AnnotateSpec AnnotateRead AnnotateProofs CliModel CliSpec CliProofs.
Open Scope string_scope.
Open Scope list_scope.

Lemma show_faults_ok : forall inv, reasons_named inv -> exists k, show_faults inv = Ok k /\ Forall2 fault_shown inv k.
Proof.
  induction inv as [|[x reason] inv IH]; intro H; [exists []; split; [reflexivity|constructor]|].
  destruct IH as [k [H1 H2]]; [intros y l Hy; apply (H y l); right; exact Hy|].
  cbn [show_faults]. destruct reason as [l|].
  - destruct (named_rules_ok l) as [names [N1 N2]]; [apply (H x l); left; reflexivity|]. rewrite N1, H1. cbn [bind].
    eexists. split; [reflexivity|]. constructor; [|exact H2]. split; [reflexivity|]. cbn [fst snd]. exact N2.
  - rewrite H1. cbn [bind]. eexists. split; [reflexivity|]. constructor; [|exact H2]. split; [reflexivity|exact I].
Qed.

Section Check.
  Variable decode : cps -> res cps.
  Variable order : list cps -> list cps.
  Variable index : cps -> res cps.
  Variable listing : cps -> list cps -> list (cps * option string) * res unit.
  Variable g : tool_lgr.
  Let rm := tl_rules g.
  Let r := tl_rep g.
  Let acts := tl_actions g.
  Hypothesis Hr : reachable r.

  (** What the collision test needs of the set. *)
  Definition usable (set_labels : list cps) (label : cps) : Prop :=
    set_labels <> [] ->
    reorders order /\ obedient listing /\ Forall plain_text (label :: set_labels) /\
    (forall l, In l (label :: set_labels) -> settled index l).

  Theorem label_refused : forall label variants set_labels e, rules_named r ->
    test_label_eligible rm r acts label false = Ok e -> el_ok e = false ->
    exists tail, check_label decode order index listing g label variants set_labels =
        (VLabel label :: VEligible false :: VDisposition (Some "invalid") :: tail, Ok tt) /\
      refused_lines rm r label (0 <=? el_idx e)%Z tail.
  Proof.
    intros label variants set_labels e Hn He Hok. unfold check_label. fold rm r acts.
    assert (Hne : label <> []) by (intros ->; discriminate He).
    destruct (test_label_eligible_spec rm r acts label false Hr Hne) as [e' [chars [inv [E1 [E2 [E3 [E4 E5]]]]]]].
    rewrite He in E1. injection E1 as <-. rewrite He, Hok, E4.
    destruct E5 as [[H1 [_ [H3 [H4 H5]]]]|[H1 [ds [only [a [i [_ [_ [H3 [H4 [H5 [H6 H7]]]]]]]]]]]].
    - rewrite H4, H3. destruct (show_faults_ok inv (reasons_are_named rm r label chars inv Hn E2)) as [k [K1 K2]].
      destruct inv as [|p inv]; [contradiction|]. rewrite K1. eexists. split; [reflexivity|]. exists chars, (p :: inv).
      split; [exact E2|]. rewrite H5. split; [split; discriminate|]. split; [discriminate|]. intros _. exists k. auto.
    - rewrite H1, H7, Hok, H4. assert (Hd : a_disp a = "invalid").
      { destruct (string_dec (a_disp a) "invalid") as [E|E]; [exact E|]. apply H6 in E. rewrite Hok in E. discriminate. }
      rewrite Hd. eexists. split; [reflexivity|]. exists chars, inv. split; [exact E2|]. rewrite H5. split; [split; [auto|intros _; apply Z.leb_le; lia]|].
      split; [reflexivity|contradiction].
  Qed.

  Theorem label_accepted : forall label set_labels e, usable set_labels label ->
    test_label_eligible rm r acts label false = Ok e -> el_ok e = true ->
    exists tail, check_label decode order index listing g label false set_labels =
        (VLabel label :: VEligible true :: VDisposition (el_disp e) :: tail, Ok tt) /\
      (set_labels = [] -> tail = []) /\
      (set_labels <> [] -> exists v, tail = [VCollisions; v] /\ answer index set_labels label v).
  Proof.
    intros label set_labels e Hu He Hok. unfold check_label. fold rm r acts. rewrite He, Hok. destruct set_labels as [|s set_labels].
    - exists []. split; [reflexivity|]. split; [reflexivity|contradiction].
    - destruct Hu as [U1 [U2 [U3 U4]]]; [discriminate|].
      destruct (collision_answer decode order index listing U1 U2 (s :: set_labels) label U3 U4) as [v [V1 V2]]. rewrite V1.
      exists [VCollisions; v]. split; [|split; [discriminate|intros _; exists v; auto]]. destruct (negb (is_trouble v)); reflexivity.
  Qed.

  (** With the option -g the listing of the variants always fails. *)
  Theorem variants_fail : forall label set_labels e, usable set_labels label ->
    test_label_eligible rm r acts label false = Ok e -> el_ok e = true ->
    let '(ns, o) := check_label decode order index listing g label true set_labels in
    let lines := fst (check_label decode order index listing g label false set_labels) in
    (existsb is_trouble lines = true -> ns = lines /\ o = Ok tt) /\
    (existsb is_trouble lines = false -> ns = lines ++ [VVariants] /\ exists x, o = Raise x /\
       (tl_unidb g = true -> (length label <= 63)%nat -> x = ValueError)).
  Proof.
    intros label set_labels e Hu He Hok.
    assert (Hne : label <> []) by (intros ->; discriminate He).
    assert (HV : exists x, variant_lines g label = ([VVariants], Raise x) /\ (tl_unidb g = true -> (length label <= 63)%nat -> x = ValueError)).
    { unfold variant_lines. fold rm r acts. destruct (tl_unidb g) eqn:Eu.
      - destruct (Nat.le_gt_cases (length label) 63) as [Hl|Hl].
        + destruct (listing_spec rm r acts (tl_script g) Hr label false false false [] Hne Hl) as [ws [zs [o [_ [E _]]]]]. rewrite E.
          destruct zs; cbn [app]; exists ValueError; auto.
        + destruct (listing_refused rm r acts (tl_script g) label true false false false []) as [_ [R _]]. rewrite (R eq_refl Hl).
          eexists. split; [reflexivity|]. intros _ K. lia.
      - destruct (listing_refused rm r acts (tl_script g) label false false false false []) as [R _]. rewrite (R eq_refl).
        eexists. split; [reflexivity|]. discriminate. }
    destruct HV as [x [HV HV']]. unfold check_label. fold rm r acts. rewrite He, Hok. destruct set_labels as [|s set_labels].
    - rewrite HV. cbn. split; [discriminate|]. intros _. split; [reflexivity|]. exists x. auto.
    - destruct Hu as [U1 [U2 [U3 U4]]]; [discriminate|].
      destruct (collision_answer decode order index listing U1 U2 (s :: set_labels) label U3 U4) as [v [V1 V2]]. rewrite V1.
      destruct (is_trouble v) eqn:Et; cbn [negb].
      + cbn. rewrite Et. split; [auto|discriminate].
      + rewrite HV. cbn. rewrite Et. split; [discriminate|]. intros _. split; [reflexivity|]. exists x. auto.
  Qed.

  Theorem empty_stops : forall variants set_labels,
    check_label decode order index listing g [] variants set_labels = ([VLabel []], Raise (LGRApiInvalidParameter "label")).
  Proof. reflexivity. Qed.

  (** The labels one after the other, up to the first exception. *)
  Theorem check_all_spec : forall variants set_labels l, exists groups,
    (forall ns o, check_all decode order index listing g variants set_labels l = (ns, o) -> ns = concat groups) /\
    match snd (check_all decode order index listing g variants set_labels l) with
    | Ok _ => Forall2 (fun x gr => check_label decode order index listing g x variants set_labels = (gr, Ok tt)) l groups
    | Raise e => exists l1 x l2 g1 gr, l = l1 ++ x :: l2 /\ groups = g1 ++ [gr] /\
        Forall2 (fun x gr => check_label decode order index listing g x variants set_labels = (gr, Ok tt)) l1 g1 /\
        check_label decode order index listing g x variants set_labels = (gr, Raise e)
    end.
  Proof.
    intros variants set_labels l. induction l as [|x l [groups [IH1 IH2]]].
    - exists []. cbn [check_all snd]. split; [intros ns o H; injection H as <- _; reflexivity|constructor].
    - cbn [check_all]. destruct (check_label decode order index listing g x variants set_labels) as [gr [[]|e]] eqn:E.
      + destruct (check_all decode order index listing g variants set_labels l) as [ms o']. exists (gr :: groups). cbn [snd concat] in *. split.
        * intros ns o H. injection H as <- <-. rewrite (IH1 ms o' eq_refl). reflexivity.
        * destruct o' as [u|e]; [constructor; assumption|].
          destruct IH2 as [l1 [y [l2 [g1 [gr' [-> [-> [F1 F2]]]]]]]]. exists (x :: l1), y, l2, (gr :: g1), gr'.
          split; [reflexivity|]. split; [reflexivity|]. split; [constructor; assumption|exact F2].
      + exists [gr]. cbn [snd]. split; [intros ns o H; injection H as <- _; cbn [concat]; rewrite app_nil_r; reflexivity|].
        exists [], x, l, [], gr. auto.
  Qed.

  (** The labels of the set. *)
  Theorem keep_set_spec : forall l, (forall x, In x l -> rd_valid x = false -> rd_label x = rd_text x) ->
    ((exists x, In x l /\ outside rm r x) /\ snd (keep_set g l) = Raise TypeError) \/
    (~ (exists x, In x l /\ outside rm r x) /\ exists ns kept, keep_set g l = (ns, Ok kept) /\ set_kept rm r l kept ns).
  Proof.
    induction l as [|x l IH]; intro Hb.
    - right. split; [intros [x [[] _]]|]. exists [], []. split; [reflexivity|constructor].
    - cbn [keep_set]. fold rm r. destruct (rd_valid x) eqn:Ev.
      + destruct (preliminary_spec rm r (rd_label x) Hr) as [p [P1 [P2 [_ P3]]]]. rewrite P1. destruct (pr_ok p) eqn:Ep.
        * assert (Hi : pr_invalid p = []) by (apply P3; reflexivity). rewrite Hi in P2.
          destruct IH as [[[y [Y1 Y2]] IH]|[IH1 [ns [kept [IH2 IH3]]]]]; [intros y Hy; apply Hb; right; exact Hy| |].
          -- left. split; [exists y; split; [right; exact Y1|exact Y2]|]. destruct (keep_set g l) as [ns [k|e]]; cbn [snd] in *; [discriminate|exact IH].
          -- right. rewrite IH2. split.
             ++ intros [y [[<-|Y1] Y2]]; [|apply IH1; exists y; auto]. destruct Y2 as [_ [chars [inv [M N]]]].
                destruct (longest_match_unique_reach rm r (rd_label x) 0 _ _ _ _ P2 M) as [_ U]. apply N. destruct inv; [reflexivity|discriminate].
             ++ exists ns, (rd_label x :: kept). split; [reflexivity|]. apply (sk_in rm r x l kept ns (pr_chars p)); auto.
        * left. split; [|reflexivity]. exists x. split; [left; reflexivity|]. split; [exact Ev|]. exists (pr_chars p), (pr_invalid p).
          split; [exact P2|]. intro Hx. apply P3 in Hx. discriminate.
      + destruct IH as [[[y [Y1 Y2]] IH]|[IH1 [ns [kept [IH2 IH3]]]]]; [intros y Hy; apply Hb; right; exact Hy| |].
        * left. split; [exists y; split; [right; exact Y1|exact Y2]|]. destruct (keep_set g l) as [ns k]. cbn [snd] in *. exact IH.
        * right. rewrite IH2. split.
          -- intros [y [[<-|Y1] Y2]]; [destruct Y2 as [Y2 _]; congruence|apply IH1; exists y; auto].
          -- exists (VSetRefused (rd_label x) (rd_error x) :: ns), kept. split; [reflexivity|].
             rewrite (Hb x (or_introl eq_refl) Ev). constructor; assumption.
  Qed.
End Check.

(** ** The LGR of the script *)

Definition speaks (script : string) (g : tool_lgr) : Prop := exists rest, tl_languages g = script :: rest.
Lemma choose_found : forall script l found,
  (exists l1 g l2, l = l1 ++ g :: l2 /\ speaks script g /\ (forall x, In x l2 -> ~ speaks script x) /\ choose_script script l found = Some g) \/
  ((forall x, In x l -> ~ speaks script x) /\ choose_script script l found = found).
Proof.
  intros script l. induction l as [|g l IH]; intro found; [right; split; [intros x []|reflexivity]|]. cbn [choose_script].
  assert (Hs : {speaks script g} + {~ speaks script g}).
  { destruct (tl_languages g) as [|x k] eqn:E; [right; intros [k Hk]; congruence|].
    destruct (string_dec x script) as [->|N]; [left; exists k; exact E|right; intros [k' Hk]; congruence]. }
  match goal with |- context [choose_script script l ?f] => destruct (IH f) as [[l1 [h [l2 [-> [H1 [H2 H3]]]]]]|[H1 H2]] end.
  - left. exists (g :: l1), h, l2. auto.
  - destruct Hs as [Hs|Hs].
    + left. exists [], g, l. split; [reflexivity|]. split; [exact Hs|]. split; [exact H1|]. rewrite H2. destruct Hs as [k ->]. rewrite String.eqb_refl. reflexivity.
    + right. split; [intros x [<-|Hx]; auto|]. rewrite H2. destruct (tl_languages g) as [|x k] eqn:E; [reflexivity|].
      destruct (String.eqb x script) eqn:Es; [|reflexivity]. exfalso. apply Hs. apply String.eqb_eq in Es. subst x. exists k. exact E.
Qed.

Theorem script_chosen : forall decode order index listing lgrs script variants set_lines lines,
  (2 <= length lgrs)%nat ->
  let out := validate_tool decode order index listing lgrs script variants set_lines lines in
  (script = "" /\ out = ([VTrouble ScriptRequired], Ok tt)) \/
  (script <> "" /\ (forall x, In x lgrs -> ~ speaks script x) /\ out = ([VTrouble ScriptUnknown], Ok tt)) \/
  (script <> "" /\ exists l1 g l2, lgrs = l1 ++ g :: l2 /\ speaks script g /\ (forall x, In x l2 -> ~ speaks script x) /\
     out = validate_set decode order index listing g variants set_lines lines).
Proof.
  intros decode order index listing lgrs script variants set_lines lines Hl out. subst out. unfold validate_tool.
  destruct lgrs as [|a [|b lgrs]]; [cbn in Hl; lia|cbn in Hl; lia|]. destruct (String.eqb script "") eqn:E.
  - left. apply String.eqb_eq in E. auto.
  - right. apply String.eqb_neq in E. destruct (choose_found script (a :: b :: lgrs) None) as [[l1 [g [l2 [H1 [H2 [H3 H4]]]]]]|[H1 H2]].
    + right. split; [exact E|]. exists l1, g, l2. rewrite H4. auto.
    + left. rewrite H2. auto.
Qed.

Theorem set_tool : forall decode order index listing g variants set_lines lines, reachable (tl_rep g) ->
  (forall s, decode s <> Ok []) ->
  let texts := fst (read_labels decode false false set_lines) in
  let '(ns, o) := validate_set decode order index listing g variants set_lines lines in
  ((exists x, In x texts /\ outside (tl_rules g) (tl_rep g) x) /\ o = Raise TypeError /\ (forall l, ~ In (VLabel l) ns)) \/
  (exists kept refused ms, set_kept (tl_rules g) (tl_rep g) texts kept refused /\
     check_all decode order index listing g variants kept lines = (ms, o) /\
     ns = VSetHeader :: refused ++ VSetFooter :: ms).
Proof.
  intros decode order index listing g variants set_lines lines Hr Hd. cbv zeta. unfold validate_set.
  destruct (keep_set_spec g Hr (fst (read_labels decode false false set_lines))) as [[H1 H2]|[H1 [ns [kept [H2 H3]]]]].
  - intros x Hx. apply (readings_fine decode set_lines x Hd Hx).
  - destruct (keep_set g (fst (read_labels decode false false set_lines))) as [ns [k|e]] eqn:E; cbn [snd] in H2; [discriminate|].
    injection H2 as ->. left. split; [exact H1|]. split; [reflexivity|]. intros l [K|K]; [discriminate|].
    revert ns E K. generalize (fst (read_labels decode false false set_lines)). clear. intro rs. generalize (@Raise (list cps) TypeError).
    induction rs as [|x rs IH]; intros o ns E K; cbn [keep_set] in E.
    + injection E as <- <-. destruct K.
    + destruct (rd_valid x).
      * destruct (preliminary _ _ _) as [p|]; [|injection E as <- <-; destruct K].
        destruct (pr_ok p); [|injection E as <- <-; destruct K].
        destruct (keep_set g rs) as [ms [k|e]]; injection E as <- <-; eapply IH; eauto.
      * destruct (keep_set g rs) as [ms k]. injection E as <- <-. destruct K as [K|K]; [discriminate|]. eapply IH; eauto.
  - rewrite H2. destruct (check_all decode order index listing g variants kept lines) as [ms o] eqn:E. right.
    exists kept, ns, ms. auto.
Qed.
