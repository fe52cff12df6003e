(** What lgr_cli says of a label. *)
From Verif Require Import Base BaseFacts CharModel RepSpec RangeProofs RepProofs ActionModel ActionSpec LabelModel LabelSpec LabelProofs LabelElig LabelList LabelFinal AnnotateModel AnnotateSpec AnnotateProofs CliModel CliSpec CliLabel.
Open Scope string_scope.
Open Scope list_scope.

(** ** Types of a generated label *)

Lemma flat_mapM_each : forall A B (P : B -> Prop) (f : A -> option (list B)) l ys,
  (forall x k, In x l -> f x = Some k -> forall y, In y k -> P y) -> flat_mapM f l = Some ys -> forall y, In y ys -> P y.
Proof.
  intros A B P f l. induction l as [|x l IH]; intros ys H E y Hy; cbn [flat_mapM] in E.
  - injection E as <-. destruct Hy.
  - destruct (f x) as [a|] eqn:Ef; [|discriminate]. destruct (flat_mapM f l) as [b|] eqn:Eb; [|discriminate]. injection E as <-.
    apply in_app_iff in Hy. destruct Hy as [Hy|Hy]; [exact (H x a (or_introl eq_refl) Ef y Hy)|].
    exact (IH b (fun z k Hz => H z k (or_intror Hz)) eq_refl y Hy).
Qed.

Section Types.
  Variable rm : rule_oracle.
  Variable r : repertoire.
  Variable script : N -> string.
  Lemma perm_typed : forall lp label fc flt ch p, In p (char_perms rm script lp label fc flt ch) -> let '(_, ds, _, _) := p in ~ In None ds.
  Proof.
    intros lp label fc flt ch p H. unfold char_perms in H. cbv zeta in H.
    assert (K : In p (flat_map (var_perm rm script lp (skipn (ch_len ch) label) fc flt) (get_variants ch)) -> let '(_, ds, _, _) := p in ~ In None ds).
    { intro Hp. apply in_flat_map in Hp. destruct Hp as [v [_ Hp]]. unfold var_perm in Hp.
      assert (Q : forall f, In p (if ctx_var rm v (lp ++ v_cp v ++ skipn (ch_len ch) label) (length lp)
                  then [(PVar v, match v_type v with None => [] | Some t => [Some t] end, true, f)] else []) -> let '(_, ds, _, _) := p in ~ In None ds).
      { intros f Hf. match type of Hf with In _ (if ?c then _ else _) => destruct c end; [|destruct Hf]. destruct Hf as [<-|[]]. destruct (v_type v); cbn; [intros [X|[]]; discriminate|auto]. }
      destruct flt as [f|]; [|exact (Q _ Hp)]. destruct (fc && cp_in_other script f (v_cp v))%bool; [exact (Q _ Hp)|].
      destruct (negb (cp_in_base script f (v_cp v))); [destruct Hp|exact (Q _ Hp)]. }
    match goal with H : In p (if ?c then _ else _) |- _ => destruct c end; [|exact (K H)].
    destruct H as [<-|H]; [intros []|exact (K H)].
  Qed.
  Lemma gen_typed : forall fuel lp label hv fc flt ws, gen_variants rm r script fuel lp label hv fc flt = Some ws -> forall w, In w ws -> ~ In None (vl_disp w).
  Proof.
    induction fuel as [|f IH]; intros lp label hv fc flt ws H; destruct label as [|x label].
    - injection H as <-. intros w [].
    - discriminate H.
    - injection H as <-. intros w [].
    - cbn [gen_variants] in H. set (lab := x :: label) in *. intros w Hw.
      refine (flat_mapM_each _ _ (fun w => ~ In None (vl_disp w)) _ _ _ _ H w Hw). intros ch k _ Hk y Hy.
      destruct (Nat.ltb (ch_len ch) (length lab)).
      + refine (flat_mapM_each _ _ (fun w => ~ In None (vl_disp w)) _ _ _ _ Hk y Hy). intros p k' Hp Hk' z Hz.
        pose proof (perm_typed lp lab fc flt ch p Hp) as T. destruct p as [[[pc ds] isv] flt'].
        destruct (gen_variants rm r script f (lp ++ piece_cp pc) (skipn (ch_len ch) lab) (isv || hv) false flt') as [l|] eqn:E; [|discriminate].
        injection Hk' as <-. apply in_map_iff in Hz. destruct Hz as [w' [<- Hw']]. cbn [vl_disp]. intro N. apply in_app_iff in N.
        destruct N as [N|N]; [exact (IH _ _ _ _ _ _ E w' Hw' N)|exact (T N)].
      + destruct (hv || has_variant ch)%bool; [|injection Hk as <-; destruct Hy]. injection Hk as <-. apply in_map_iff in Hy.
        destruct Hy as [p [<- Hp]]. pose proof (perm_typed lp lab fc flt ch p Hp) as T. destruct p as [[[pc ds] isv] flt']. exact T.
  Qed.
End Types.

(** ** The output *)

Lemma dedup_strings : forall l, NoDup (dedup String.eqb l) /\ forall x, In x (dedup String.eqb l) <-> In x l.
Proof. intro l. split; [apply dedup_NoDup; exact string_eqb_iff|intro x; apply dedup_In; exact string_eqb_iff]. Qed.

Lemma cli_variants_ok : forall own zs,
  (forall z, In z zs -> ~ In None (ls_types z) /\ match ls_invalid z with Some inv => reasons_named inv | None => True end) ->
  exists ns, cli_variants own zs = (ns, Ok tt) /\ Forall2 (variant_shown own) zs ns.
Proof.
  intros own zs. induction zs as [|z zs IH]; intro H; [exists []; split; [reflexivity|constructor]|].
  destruct IH as [ns [E F]]; [intros y Hy; apply H; right; exact Hy|]. destruct (H z (or_introl eq_refl)) as [T R]. cbn [cli_variants].
  assert (Q : (match ls_invalid z with None | Some [] => Ok tt | Some inv => bind (show_faults inv) (fun _ => Ok tt) end) = Ok tt).
  { destruct (ls_invalid z) as [[|p inv]|]; try reflexivity. destruct (show_faults_ok (p :: inv) R) as [k [K _]]. rewrite K. reflexivity. }
  rewrite Q. destruct (named_rules_ok (ls_types z) T) as [names [N1 N2]]. rewrite N1, E. eexists. split; [reflexivity|]. constructor; [|exact F].
  destruct (dedup_strings names) as [D1 D2]. exists (dedup String.eqb names), (shown_action own (ls_idx z)). split; [reflexivity|]. split; [|split; [exact D1|reflexivity]].
  intro t. rewrite D2, N2, in_map_iff. split; [intros [x [Hx K]]; injection Hx as ->; exact K|intro K; exists t; auto].
Qed.

Section Cli.
  Variable g : tool_lgr.
  Let rm := tl_rules g.
  Let r := tl_rep g.
  Let acts := tl_actions g.
  Hypothesis Hr : reachable r.
  Hypothesis Hn : rules_named r.

  Lemma faults_named : forall label is_variant e, test_label_eligible rm r acts label is_variant = Ok e -> reasons_named (el_invalid e).
  Proof.
    intros label isv e He. assert (Hne : label <> []) by (intros ->; discriminate He).
    destruct (test_label_eligible_spec rm r acts label isv Hr Hne) as [e' [chars [inv [E1 [E2 [E3 [E4 _]]]]]]].
    rewrite He in E1. injection E1 as <-. rewrite E4. exact (reasons_are_named rm r label chars inv Hn E2).
  Qed.

  Theorem cli_refused : forall invalid label e, test_label_eligible rm r acts label false = Ok e -> el_ok e = false ->
    cli_label g invalid label = ([CValidation label false], Ok tt).
  Proof.
    intros invalid label e He Hok. unfold cli_label. fold rm r acts. rewrite He, Hok.
    destruct (show_faults_ok (el_invalid e) (faults_named label false e He)) as [k [K _]]. rewrite K. reflexivity.
  Qed.

  Theorem cli_accepted : forall invalid label e, test_label_eligible rm r acts label false = Ok e -> el_ok e = true ->
    tl_unidb g = true -> (length label <= 63)%nat ->
    exists zs due ns, compute_label_disposition rm r acts (tl_script g) true label invalid false false [] = (zs, Ok tt) /\
      cli_label g invalid label = (CValidation label true :: CDisposition label (el_disp e) due :: ns, Ok tt) /\
      Forall2 (variant_shown (length acts)) zs ns /\
      due = (if (Z.of_nat (length acts) <? el_idx e)%Z then (true, (el_idx e - Z.of_nat (length acts))%Z) else (false, el_idx e)).
  Proof.
    intros invalid label e He Hok Hu Hl. unfold cli_label. fold rm r acts. rewrite He, Hok, Hu.
    assert (Hne : label <> []) by (intros ->; discriminate He).
    destruct (listing_spec rm r acts (tl_script g) Hr label invalid false false [] Hne Hl) as [ws [zs [o [W [E [_ [_ [O [Z _]]]]]]]]]. rewrite E.
    assert (J : forall w z, In w ws -> judged rm r acts label w z -> ~ In None (ls_types z) /\ match ls_invalid z with Some inv => reasons_named inv | None => True end).
    { intros w z Hw [_ [J2 [e' [J3 [J4 _]]]]]. rewrite J2, J4. split; [exact (gen_typed rm r (tl_script g) _ _ _ _ _ _ _ W w Hw)|exact (faults_named _ _ e' J3)]. }
    destruct (cli_variants_ok (length acts) (zs ++ [o])) as [ns [N1 N2]].
    { intros z Hz. apply in_app_iff in Hz. destruct Hz as [Hz|[<-|[]]].
      - destruct (Z z Hz) as [w [Hw [_ [J1 _]]]]. exact (J w z Hw J1).
      - destruct O as [[w [Hw [_ J1]]]|[e' [_ [_ [_ T]]]]]; [exact (J w o Hw J1)|].
        rewrite T. split; [intros []|]. revert E. unfold compute_label_disposition.
        destruct (Nat.ltb 63 (length label)); [discriminate|]. cbn [negb]. rewrite W.
        destruct (listing_loop rm r acts label invalid false [] ws [] None) as [ys [[o'|]|x]] eqn:EL.
        + intro E. injection E as E. apply app_inj_tail in E. destruct E as [_ <-].
          assert (G : forall l handled orig ys o', listing_loop rm r acts label invalid false [] l handled orig = (ys, Ok (Some o')) ->
                    (forall y, orig = Some y -> match ls_invalid y with Some inv => reasons_named inv | None => True end) ->
                    match ls_invalid o' with Some inv => reasons_named inv | None => True end).
          { clear - Hr Hn. induction l as [|w l IH]; intros handled orig ys o' E Ho; cbn [listing_loop] in E.
            - injection E as _ E. exact (Ho o' E).
            - destruct (negb false && memb cps_eqb (vl_cp w) handled)%bool; [exact (IH _ _ _ _ E Ho)|]. cbn [negb] in E.
              destruct (judge rm r acts label w) as [x|x] eqn:Ej; [|discriminate].
              destruct (negb (ostring_eqb (ls_disp x) (Some "invalid")) || invalid)%bool; [|exact (IH _ _ _ _ E Ho)].
              destruct (cps_eqb (vl_cp w) label).
              + apply (IH _ _ _ _ E). intros y Hy. injection Hy as <-. unfold judge in Ej.
                destruct (test_label_eligible rm r acts (vl_cp w) (negb (cps_eqb (vl_cp w) label))) as [e|e] eqn:Ee; cbn [bind] in Ej; [|discriminate].
                pose proof (faults_named _ _ e Ee) as F. destruct (negb (el_ok e)); [injection Ej as <-; exact F|].
                destruct (apply_actions rm acts (vl_cp w) (vl_disp w) (vl_only w)) as [d idx]. injection Ej as <-. exact F.
              + destruct (listing_loop rm r acts label invalid false [] l (vl_cp w :: handled) orig) as [ys' o''] eqn:El.
                injection E as <- ->. exact (IH _ _ _ _ El Ho). }
          apply (G ws [] None ys o' EL). discriminate.
        + destruct (test_label_eligible rm r acts label false) as [e2|]; [|discriminate]. intro E. injection E as E. apply app_inj_tail in E.
          destruct E as [_ <-]. exact I.
        + discriminate. }
    exists (zs ++ [o]), (shown_action (length acts) (el_idx e)), ns. rewrite N1. split; [reflexivity|]. split; [reflexivity|]. split; [exact N2|reflexivity].
  Qed.

  Theorem cli_fails : forall invalid label, (label = [] -> cli_label g invalid label = ([], Raise (LGRApiInvalidParameter "label"))) /\
    (forall e, test_label_eligible rm r acts label false = Ok e -> el_ok e = true -> tl_unidb g = false \/ (63 < length label)%nat ->
      exists x due, cli_label g invalid label = ([CValidation label true; CDisposition label (el_disp e) due], Raise x) /\
        x = if tl_unidb g then LGRApiInvalidParameter "label" else LGRApiException).
  Proof.
    intros invalid label. split; [intros ->; reflexivity|]. intros e He Hok H. unfold cli_label. fold rm r acts. rewrite He, Hok.
    destruct (tl_unidb g) eqn:Eu.
    - destruct H as [H|H]; [discriminate|]. destruct (listing_refused rm r acts (tl_script g) label true invalid false false []) as [_ [R _]].
      rewrite (R eq_refl H). eauto.
    - destruct (listing_refused rm r acts (tl_script g) label false invalid false false []) as [R _]. rewrite (R eq_refl). eauto.
  Qed.
End Cli.

(** The action named is the right one, except for the first default action. *)
Theorem action_named : forall own i a, nth_error (own ++ default_actions) i = Some a ->
  (denotes own (shown_action (length own) (Z.of_nat i)) a <-> i <> length own).
Proof.
  intros own i a H. unfold shown_action, denotes. destruct (Z.ltb_spec (Z.of_nat (length own)) (Z.of_nat i)) as [L|L]; cbn [fst snd].
  - split; [lia|]. intros _. exists (i - length own)%nat. split; [lia|]. rewrite nth_error_app2 in H by lia. exact H.
  - split.
    + intros [k [K1 K2]] ->. assert (k = length own) by lia. subst k. assert (N : (length own < length own)%nat) by (apply nth_error_Some; congruence). lia.
    + intro N. exists i. split; [reflexivity|]. rewrite nth_error_app1 in H by lia. exact H.
Qed.

Theorem cli_all_spec : forall g invalid l, exists groups,
  fst (cli_all g invalid l) = concat groups /\
  match snd (cli_all g invalid l) with
  | Ok _ => Forall2 (fun x gr => cli_label g invalid x = (gr, Ok tt)) l groups
  | Raise e => exists l1 x l2 g1 gr, l = l1 ++ x :: l2 /\ groups = g1 ++ [gr] /\
      Forall2 (fun x gr => cli_label g invalid x = (gr, Ok tt)) l1 g1 /\ cli_label g invalid x = (gr, Raise e)
  end.
Proof.
  intros g invalid l. induction l as [|x l [groups [IH1 IH2]]].
  - exists []. split; [reflexivity|constructor].
  - cbn [cli_all]. destruct (cli_label g invalid x) as [gr [[]|e]] eqn:E.
    + destruct (cli_all g invalid l) as [ms o']. exists (gr :: groups). cbn [fst snd concat] in *. split; [rewrite IH1; reflexivity|].
      destruct o' as [u|e]; [constructor; assumption|].
      destruct IH2 as [l1 [y [l2 [g1 [gr' [-> [-> [F1 F2]]]]]]]]. exists (x :: l1), y, l2, (gr :: g1), gr'.
      split; [reflexivity|]. split; [reflexivity|]. split; [constructor; assumption|exact F2].
    + exists [gr]. cbn [fst snd concat]. split; [rewrite app_nil_r; reflexivity|]. exists [], x, l, [], gr. auto.
Qed.
