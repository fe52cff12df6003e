(** Examples for lgr_validate and lgr_cli. *)
From Coq Require Import Permutation.
From Verif Require Import Base BaseFacts CharModel RepSpec RangeProofs RepProofs ActionModel ActionSpec LabelModel LabelSpec LabelFinal UtilsModel CollisionModel CollisionSpec CollisionFinal CollisionWitness AnnotateModel AnnotateSpec AnnotateRead AnnotateProofs AnnotateWitness CliModel CliSpec CliProofs CliLabel CliTest.
Open Scope string_scope.
Open Scope list_scope.

Definition w_lgr : tool_lgr := mkTl ["und-Latn"] true no_rules (built simple_ops) [] (fun _ => "Latin").
Definition w_other : tool_lgr := mkTl ["und-Grek"] true no_rules (built [addc [97]]) [] (fun _ => "Greek").
Lemma w_reachable : reachable (tl_rep w_lgr).
Proof. apply built_reachable. Qed.
Lemma w_named : rules_named (tl_rep w_lgr).
Proof. apply rules_named_by; [apply built_reachable|]. vm_compute. reflexivity. Qed.

Lemma plain_by : forall l, l <> [] -> content l = l -> starts_xn l = false -> has_blank l = false -> has_u_plus l = false -> plain_text l.
Proof.
  intros l H1 H2 H3 H4 H5. split; [exact H1|]. split; [rewrite <- H2 at 2; apply content_exists|].
  split; [|split].
  - intros [x [n [t [-> [Hx Hn]]]]]. destruct Hx as [-> | ->]; destruct Hn as [-> | ->]; discriminate H3.
  - intro Hb. unfold has_blank in H4. apply (memb_false _ _ N_eqb_iff) in H4. contradiction.
  - intros [p [u [t [-> Hu]]]]. clear - H5 Hu. induction p as [|q p IH].
    + destruct Hu as [-> | ->]; discriminate H5.
    + apply IH. revert H5. clear. intro H5. cbn [app has_u_plus] in H5. destruct (p ++ u :: 43 :: t) as [|y k] eqn:E; [reflexivity|].
      match type of H5 with (if ?c then _ else _) = _ => destruct c end; [discriminate|exact H5].
Qed.

Definition w_set : list cps := [txt "a"; txt "d"].
Lemma w_usable : forall l, In l [txt "b"; txt "da"; txt "d"] -> usable as_given sample_index sample_listing w_set l.
Proof.
  intros l Hl _. split; [exact as_given_reorders|]. split; [apply listing_obedient; apply built_reachable|]. split.
  - apply Forall_forall. intros x [<-|[<-|[<-|[]]]]; [|apply plain_by; try (vm_compute; reflexivity); discriminate..].
    destruct Hl as [<-|[<-|[<-|[]]]]; apply plain_by; try (vm_compute; reflexivity); discriminate.
  - intros x Hx. left. destruct Hx as [<-|[<-|[<-|[]]]]; [|eexists; vm_compute; reflexivity..].
    destruct Hl as [<-|[<-|[<-|[]]]]; eexists; vm_compute; reflexivity.
Qed.

(** An action of the LGR itself is never triggered; the first default action is. *)
Definition w_never : action := mkAction "blocked" (Some "never") None None None None.
Definition w_cli : tool_lgr :=
  mkTl ["und-Latn"] true nothing_holds (built [addc [97]; addc [98]; addv [97] [98] (Some "invalid"); addv [97] [99] None; addv [98] [97] (Some "blocked")])
       [w_never] (fun _ => "Latin").
Lemma w_cli_fine : reachable (tl_rep w_cli) /\ rules_named (tl_rep w_cli).
Proof. split; [apply built_reachable|]. apply rules_named_by; [apply built_reachable|]. vm_compute. reflexivity. Qed.
Lemma w_cli_shows : cli_tool w_cli true true [txt "a"; txt "x"; txt "b"] =
  ([CValidation (txt "a") true; CDisposition (txt "a") (Some "valid") (true, 4%Z);
    CVariantLine (txt "b") ["invalid"] (Some "invalid") (false, 1%Z);
    CVariantLine (txt "c") [] (Some "invalid") (false, (-1)%Z);
    CVariantLine (txt "a") [] (Some "valid") (true, 4%Z);
    CValidation (txt "x") false;
    CValidation (txt "b") true; CDisposition (txt "b") (Some "valid") (true, 4%Z);
    CVariantLine (txt "a") ["blocked"] (Some "blocked") (true, 1%Z);
    CVariantLine (txt "b") [] (Some "valid") (true, 4%Z)], Ok tt).
Proof. vm_compute. reflexivity. Qed.
(** The line on "b": the first default action decides, an action of the LGR is named. *)
Lemma w_cli_wrong : exists g invalid label ws w z l1 due l2, reachable (tl_rep g) /\ rules_named (tl_rep g) /\
  label_variants (tl_rules g) (tl_rep g) (tl_script g) label false = Some ws /\ In w ws /\
  judged (tl_rules g) (tl_rep g) (tl_actions g) label w z /\
  ls_idx z = Z.of_nat (length (tl_actions g)) /\
  fst (cli_label g invalid label) = l1 ++ CVariantLine (ls_cp z) ["invalid"] (ls_disp z) due :: l2 /\
  forall a, ~ denotes (tl_actions g) due a.
Proof.
  exists w_cli, true, (txt "a").
  destruct (label_variants (tl_rules w_cli) (tl_rep w_cli) (tl_script w_cli) (txt "a") false) as [ws|] eqn:E; [|vm_compute in E; discriminate].
  vm_compute in E. injection E as <-. eexists. eexists.
  exists (mkListed (txt "b") (Some "invalid") (Some []) 1%Z [Some "invalid"]), [CValidation (txt "a") true; CDisposition (txt "a") (Some "valid") (true, 4%Z)], (false, 1%Z). eexists.
  split; [apply w_cli_fine|]. split; [apply w_cli_fine|]. split; [reflexivity|]. split; [right; left; reflexivity|].
  split.
  - split; [reflexivity|]. split; [reflexivity|]. eexists. split; [vm_compute; reflexivity|]. split; [reflexivity|]. right. split; [reflexivity|].
    exists (mkAction "invalid" None None (Some ["invalid"]) None None), 1%nat. split; [|split; reflexivity]. split; [reflexivity|]. split.
    + split; [exact I|]. exists (Some "invalid"). split; [left; reflexivity|]. exists "invalid". split; [reflexivity|left; reflexivity].
    + intros j b Hj Hb Ht. assert (j = 0%nat) by lia. subst j. injection Hb as <-. destruct Ht as [Ht _]. cbn in Ht. discriminate.
  - split; [reflexivity|]. split; [vm_compute; reflexivity|]. intros a [k [K1 K2]]. cbn [fst snd] in K1. assert (k = 1%nat) by lia. subst k. discriminate.
Qed.

Lemma test_mode : forall g invalid l,
  cli_tool g true invalid l = cli_all g invalid l /\ cli_tool g false invalid l = ([], snd (cli_all g invalid l)).
Proof. intros g invalid l. unfold cli_tool. destruct (cli_all g invalid l) as [ns o]. split; reflexivity. Qed.

Definition w_umlaut : tool_lgr := mkTl ["und-Latn"] true no_rules (built [addc [246]; addc [109]]) [] (fun _ => "Latin").
Lemma a_label_not_read : exists decode order index listing g line label kept ns,
  reachable (tl_rep g) /\ keep_set g (fst (read_labels decode false false [line])) = (ns, Ok kept) /\ In label kept /\
  check_label decode order index listing g label false kept =
    ([VLabel label; VEligible true; VDisposition (Some "valid"); VCollisions; VInSet], Ok tt) /\
  exists tail, check_label decode order index listing g line false kept =
    (VLabel line :: VEligible false :: VDisposition (Some "invalid") :: tail, Ok tt).
Proof.
  exists toy_decode, as_given, sample_index, sample_listing, w_umlaut, (txt "xn--m-0ga"), [246; 109], [[246; 109]], [].
  split; [apply built_reachable|]. split; [vm_compute; reflexivity|]. split; [left; reflexivity|]. split; [vm_compute; reflexivity|].
  eexists. vm_compute. reflexivity.
Qed.
Lemma set_label_ends : exists decode order index listing g set_lines lines,
  reachable (tl_rep g) /\ (forall s, decode s <> Ok []) /\ lines <> [] /\
  validate_set decode order index listing g false set_lines lines = ([VSetHeader], Raise TypeError).
Proof.
  exists toy_decode, as_given, sample_index, sample_listing, w_lgr, [txt "x"], [txt "a"].
  split; [exact w_reachable|]. split; [exact toy_decode_nonempty|]. split; [discriminate|]. vm_compute. reflexivity.
Qed.
