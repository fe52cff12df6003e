(** Samples of labels in an LGR merged from a set. *)
From Coq Require Import Permutation.
From Verif Require Import Base BaseFacts CharModel RepSpec RepProofs ActionModel ActionSpec ActionProofs LabelModel LabelSpec LgrModel LgrSpec LgrProofs LgrReach LgrFinal ValidateModel ValidateSpec ValidateProofs ValidateFinal
  HarmonizeWitness MergeModel MergeSpec MergeFinal MergeContext MergeWitness CombineSpec CombineWitness MergeLabelSpec MergeLabel.
Open Scope string_scope.
Open Scope N_scope.
Open Scope list_scope.

(** Every rule asks that the label begins with 1. *)
Definition one_first : rule_oracle := fun _ label _ => match label with 1 :: _ => true | _ => false end.
Definition ones (m : member) : rule_oracle := one_first.
Definition not_started : action := mkAction "invalid" None (Some "start") None None None.
Definition all_valid : action := mkAction "valid" None None None None None.
Definition strict : member := mkMember ["und-Latn"] (lgr_of (full [1; 2])) None [not_started; all_valid] ["start"] [].
Definition loose : member := mkMember ["und-Grek"] (lgr_of (full [3; 4])) None [] [] [].
Definition seen (x : res elig) : option (bool * option string * bool) :=
  match x with Ok e => Some (el_ok e, el_disp e, match el_invalid e with [] => true | _ => false end) | Raise _ => None end.
Definition seen_by (m : member) (label : cps) := seen (test_label_eligible one_first (lg_rep (mb_lgr m)) (mb_actions m) label false).
Definition seen_merged (x : res merged) (label : cps) :=
  match x with Ok st => seen (test_label_eligible one_first (rebuild st) (mg_actions st) label false) | Raise _ => None end.
Definition is_rebuilt (x : res merged) : bool := match x with Ok st => rebuiltb (lg_rep (mg_lgr st)) (rebuild st) | Raise _ => false end.
Lemma seen_is : forall x ok d, seen x = Some (ok, d, true) -> exists e, x = Ok e /\ el_ok e = ok /\ el_disp e = d /\ el_invalid e = [].
Proof.
  intros [e|] ok d H; [|discriminate]. exists e. cbn in H. destruct (el_invalid e) eqn:I; [|discriminate]. injection H as <- <-. auto.
Qed.
Lemma seen_merged_is : forall l ok d label, (forall m, In m l -> tidy (mb_lgr m)) -> is_rebuilt (merge_given l) = true -> seen_merged (merge_given l) label = Some (ok, d, true) ->
  exists st q e, merge_given l = Ok st /\ rebuilt (lg_rep (mg_lgr st)) q /\ test_label_eligible one_first q (mg_actions st) label false = Ok e /\ el_ok e = ok /\ el_disp e = d /\ el_invalid e = [].
Proof.
  intros l ok d label T R H. destruct (merge_given l) as [st|] eqn:E; [|discriminate]. cbn in R, H. apply seen_is in H. destruct H as [e H].
  exists st, (rebuild st), e. split; [reflexivity|]. split; [eapply rebuild_rebuilt; eauto|exact H].
Qed.
Definition named_all (a : action) : bool := match a_match a, a_not_match a with Some "", _ | _, Some "" => false | _, _ => true end.
Lemma ones_follow : forall l, (forall m a, In m l -> In a (mb_actions m) -> named_all a = true) ->
  (forall m c, In m l -> when_of m c = None /\ not_when_of m c = None) -> rules_follow ones one_first l.
Proof.
  intros l N W. split.
  - intros m a n label Hm Ha Hn. specialize (N m a Hm Ha). split; [|split; reflexivity]. intros ->. unfold named_all in N. destruct Hn as [Hn|Hn]; rewrite Hn in N; [discriminate|destruct (a_match a) as [[|? ?]|]; discriminate].
  - intros m c n label at_ Hm Hn. destruct (W m c Hm). destruct Hn; congruence.
Qed.
Lemma ops_cps : forall ops c, lookup (lg_rep (lgr_of ops)) c <> None -> In c (map ch_cp (all_chars (lg_rep (lgr_of ops)))).
Proof.
  intros ops c H. assert (W : wf_rep (lg_rep (lgr_of ops))) by (apply lgr_reachable_wf, lgr_of_reachable). rewrite lookup_lk in H. destruct (lk (lg_rep (lgr_of ops)) c) as [ch|] eqn:E; [|congruence].
  apply in_map_iff. exists ch. split; [eapply lk_cp; eauto|eapply lk_in_all; eauto].
Qed.
Lemma ops_free : forall ops, forallb (fun ch => none_of (ch_when ch) && none_of (ch_not_when ch))%bool (all_chars (lg_rep (lgr_of ops))) = true ->
  forall c ch, lookup (lg_rep (lgr_of ops)) c = Some ch -> ch_when ch = None /\ ch_not_when ch = None.
Proof.
  intros ops H c ch L. assert (W : wf_rep (lg_rep (lgr_of ops))) by (apply lgr_reachable_wf, lgr_of_reachable). rewrite lookup_lk in L. rewrite forallb_forall in H. specialize (H ch (lk_in_all _ _ _ W L)).
  apply andb_prop in H. destruct H. auto using none_of_sound.
Qed.
Definition selfless (r : repertoire) : bool := forallb (fun ch => negb (existsb (fun v => cps_eqb (v_cp v) (ch_cp ch)) (get_variants ch))) (all_chars r).
Lemma selfless_sound : forall ops, selfless (lg_rep (lgr_of ops)) = true -> no_selves (lg_rep (lgr_of ops)).
Proof.
  intros ops H c (v & ch & L & Hv & Ec). assert (W : wf_rep (lg_rep (lgr_of ops))) by (apply lgr_reachable_wf, lgr_of_reachable). rewrite lookup_lk in L. unfold selfless in H. rewrite forallb_forall in H.
  specialize (H ch (lk_in_all _ _ _ W L)). rewrite (lk_cp _ _ _ L) in H. apply negb_true_iff in H. assert (X : existsb (fun v => cps_eqb (v_cp v) c) (get_variants ch) = true) by (apply existsb_exists; exists v; split; [exact Hv|apply cps_eqb_eq; exact Ec]). congruence.
Qed.
Lemma pair_apart : forall a b, (forall c, has_cp a c -> has_cp b c -> False) -> apart_members [a; b].
Proof.
  intros a b H c (m1 & m2 & rest & P & H1 & H2). pose proof (Permutation_length P) as L. destruct rest; [|discriminate L]. apply Permutation_length_2 in P. destruct P as [[<- <-]|[<- <-]]; eauto.
Qed.

Lemma given_no_selves : forall l st, (forall m, In m l -> tidy (mb_lgr m)) -> merge_given l = Ok st -> apart_members l -> (forall m, In m l -> no_selves (lg_rep (mb_lgr m))) -> no_selves (lg_rep (mg_lgr st)).
Proof. intros l st T E A N. unfold merge_given in E. exact (apart_no_selves given given (given_order variant) l st T E A N). Qed.
Definition both_sides : list member := [strict; loose].
Lemma both_tidy : forall m, In m both_sides -> tidy (mb_lgr m).
Proof. intros m [<-|[<-|[]]]; apply lgr_of_tidy; vm_compute; reflexivity. Qed.
Lemma strict_cps : forall c, has_cp strict c -> c = [1] \/ c = [2].
Proof. intros c H. apply ops_cps in H. vm_compute in H. destruct H as [<-|[<-|[]]]; auto. Qed.
Lemma loose_cps : forall c, has_cp loose c -> c = [3] \/ c = [4].
Proof. intros c H. apply ops_cps in H. vm_compute in H. destruct H as [<-|[<-|[]]]; auto. Qed.
Lemma both_apart : apart_members both_sides.
Proof. apply pair_apart. intros c H1 H2. apply strict_cps in H1. apply loose_cps in H2. destruct H1, H2; congruence. Qed.
Lemma both_free : forall m c ch, In m both_sides -> lookup (lg_rep (mb_lgr m)) c = Some ch -> ch_when ch = None /\ ch_not_when ch = None.
Proof. intros m c ch [<-|[<-|[]]]; apply ops_free; vm_compute; reflexivity. Qed.
Lemma both_follow : rules_follow ones one_first both_sides.
Proof.
  apply ones_follow.
  - intros m a [<-|[<-|[]]]; cbn [strict loose mb_actions In]; intuition subst; reflexivity.
  - intros m c Hm. unfold when_of, not_when_of. destruct (lookup (lg_rep (mb_lgr m)) c) as [ch|] eqn:L; [exact (both_free m c ch Hm L)|auto].
Qed.
Lemma both_selfless : forall m, In m both_sides -> no_selves (lg_rep (mb_lgr m)).
Proof. intros m [<-|[<-|[]]]; apply selfless_sound; vm_compute; reflexivity. Qed.
Lemma both_rebuilt : is_rebuilt (merge_given both_sides) = true. Proof. vm_compute. reflexivity. Qed.
Lemma both_seen : map (seen_merged (merge_given both_sides)) [[1; 3]; [3; 1]; [1; 2]; [3]; [5]] =
  [Some (true, Some "valid", true); Some (false, Some "invalid", true); Some (true, Some "valid", true); Some (false, Some "invalid", true); Some (false, Some "invalid", false)].
Proof. vm_compute. reflexivity. Qed.
Lemma both_fit : forall label i x, (forall y, In y label -> In y [1; 2; 3; 4]) -> nth_error label i = Some x -> fits ones both_sides label i x.
Proof.
  intros label i x H Hx. apply nth_error_In in Hx. apply H in Hx. right. split.
  - cbn in Hx. destruct Hx as [<-|[<-|[<-|[<-|[]]]]]; [exists strict|exists strict|exists loose|exists loose]; (split; [cbn; auto|vm_compute; discriminate]).
  - intros m ch. apply both_free.
Qed.

(** An action of one member decides on labels of another. *)
Lemma other_decides : exists rms rm l st q m label e e', (forall x, In x l -> tidy (mb_lgr x)) /\ NoDup (map get_script l) /\ apart_members l /\ (forall x, In x l -> no_selves (lg_rep (mb_lgr x))) /\
  rules_follow rms rm l /\ merge_given l = Ok st /\ rebuilt (lg_rep (mg_lgr st)) q /\ In m l /\
  test_label_eligible (rms m) (lg_rep (mb_lgr m)) (mb_actions m) label false = Ok e /\ el_ok e = true /\
  test_label_eligible rm q (mg_actions st) label false = Ok e' /\ el_invalid e' = [] /\ el_ok e' = false.
Proof.
  assert (M : seen_by loose [3] = Some (true, Some "valid", true)) by (vm_compute; reflexivity). apply seen_is in M. destruct M as (e & M1 & M2 & _).
  destruct (seen_merged_is both_sides false (Some "invalid") [3] both_tidy both_rebuilt ltac:(vm_compute; reflexivity)) as (st & q & e' & E & R & H1 & H2 & _ & H4).
  exists ones, one_first, both_sides, st, q, loose, [3], e, e'. split; [exact both_tidy|]. split; [repeat constructor; cbn; intuition discriminate|]. split; [exact both_apart|]. split; [exact both_selfless|].
  split; [exact both_follow|]. split; [exact E|]. split; [exact R|]. split; [right; left; reflexivity|]. auto 7.
Qed.

(** A code point that only marks what is outside of the repertoire. *)
Definition self_typed (a : cps) (t : string) := LAddVariant a a (Some t) None None None [] None false false.
Definition out_of_repertoire : action := mkAction "invalid" None None (Some ["out-of-repertoire-var"]) None None.
Definition marking : member := mkMember ["und-Grek"] (lgr_of [lcp [3]; lcp [4]; self_typed [3] "out-of-repertoire-var"]) None [out_of_repertoire] [] [].
Definition marked_set : list member := [mkMember ["und-Latn"] (lgr_of (full [1; 2])) None [] [] []; marking].
Lemma marked_follow : rules_follow ones one_first marked_set.
Proof.
  apply ones_follow.
  - intros m a [<-|[<-|[]]]; cbn [marking mb_actions In]; intuition subst; reflexivity.
  - intros m c Hm. unfold when_of, not_when_of. destruct (lookup (lg_rep (mb_lgr m)) c) as [ch|] eqn:L; [|auto].
    revert L. destruct Hm as [<-|[<-|[]]]; apply ops_free; vm_compute; reflexivity.
Qed.
Lemma marked_tidy : forall m, In m marked_set -> tidy (mb_lgr m).
Proof. intros m [<-|[<-|[]]]; apply lgr_of_tidy; vm_compute; reflexivity. Qed.
Lemma marked_apart : apart_members marked_set.
Proof. apply pair_apart. intros c H1 H2. apply ops_cps in H1. apply ops_cps in H2. vm_compute in H1, H2. intuition congruence. Qed.
Lemma mark_lost : exists rms rm l st q m label e e', (forall x, In x l -> tidy (mb_lgr x)) /\ NoDup (map get_script l) /\ apart_members l /\
  rules_follow rms rm l /\ merge_given l = Ok st /\ rebuilt (lg_rep (mg_lgr st)) q /\ In m l /\
  test_label_eligible (rms m) (lg_rep (mb_lgr m)) (mb_actions m) label false = Ok e /\ el_disp e = Some "invalid" /\ el_ok e = false /\
  test_label_eligible rm q (mg_actions st) label false = Ok e' /\ el_disp e' = Some "blocked" /\ el_ok e' = true.
Proof.
  assert (M : seen_by marking [3] = Some (false, Some "invalid", true)) by (vm_compute; reflexivity). apply seen_is in M. destruct M as (e & M1 & M2 & M3 & _).
  destruct (seen_merged_is marked_set true (Some "blocked") [3] marked_tidy ltac:(vm_compute; reflexivity) ltac:(vm_compute; reflexivity)) as (st & q & e' & E & R & H1 & H2 & H3 & _).
  exists ones, one_first, marked_set, st, q, marking, [3], e, e'. split; [exact marked_tidy|]. split; [repeat constructor; cbn; intuition discriminate|]. split; [exact marked_apart|].
  split; [exact marked_follow|]. split; [exact E|]. split; [exact R|]. split; [right; left; reflexivity|]. auto 7.
Qed.

(** A default action before others. *)
Definition lenient : member := mkMember ["und-Latn"] (lgr_of (full [1; 2])) None [all_valid; not_started] ["start"] [].
Lemma order_lost : exists rms rm l st q m label e e', (forall x, In x l -> tidy (mb_lgr x)) /\ (forall x, In x l -> no_selves (lg_rep (mb_lgr x))) /\
  rules_follow rms rm l /\ merge_given l = Ok st /\ rebuilt (lg_rep (mg_lgr st)) q /\ l = [m] /\
  test_label_eligible (rms m) (lg_rep (mb_lgr m)) (mb_actions m) label false = Ok e /\ el_ok e = true /\
  test_label_eligible rm q (mg_actions st) label false = Ok e' /\ el_ok e' = false.
Proof.
  assert (M : seen_by lenient [2] = Some (true, Some "valid", true)) by (vm_compute; reflexivity). apply seen_is in M. destruct M as (e & M1 & M2 & M3 & _).
  assert (T : forall m, In m [lenient] -> tidy (mb_lgr m)) by (intros m [<-|[]]; apply lgr_of_tidy; vm_compute; reflexivity).
  destruct (seen_merged_is [lenient] false (Some "invalid") [2] T ltac:(vm_compute; reflexivity) ltac:(vm_compute; reflexivity)) as (st & q & e' & E & R & H1 & H2 & H3 & _).
  exists ones, one_first, [lenient], st, q, lenient, [2], e, e'. split; [exact T|]. split; [intros m [<-|[]]; apply selfless_sound; vm_compute; reflexivity|].
  split; [|split; [exact E|]; split; [exact R|]; split; [reflexivity|]; auto 7].
  apply ones_follow.
  - intros m a [<-|[]]; cbn [lenient mb_actions In]; intuition subst; reflexivity.
  - intros m c Hm. unfold when_of, not_when_of. destruct (lookup (lg_rep (mb_lgr m)) c) as [ch|] eqn:L; [|auto].
    revert L. destruct Hm as [<-|[]]; apply ops_free; vm_compute; reflexivity.
Qed.

(** The hypotheses of the theorems. *)
Lemma both_ok : exists st q, (forall m, In m both_sides -> tidy (mb_lgr m)) /\ merge_given both_sides = Ok st /\ rules_follow ones one_first both_sides /\ rebuilt (lg_rep (mg_lgr st)) q /\
  no_selves (lg_rep (mg_lgr st)) /\ (forall i x, nth_error [1; 3] i = Some x -> fits ones both_sides [1; 3] i x) /\ triggered ones strict [3; 1] [] false not_started.
Proof.
  destruct (seen_merged_is both_sides false (Some "invalid") [3] both_tidy both_rebuilt ltac:(vm_compute; reflexivity)) as (st & q & e' & E & R & _).
  exists st, q. split; [exact both_tidy|]. split; [exact E|]. split; [exact both_follow|]. split; [exact R|].
  split; [exact (given_no_selves both_sides st both_tidy E both_apart both_selfless)|]. split.
  - intros i x. apply both_fit. cbn. intuition.
  - split; [left; reflexivity|]. split.
    + intros (_ & H & _). discriminate H.
    + destruct (act_apply_iff one_first not_started [3; 1] [] false) as [[H _]|[_ H]]; [exact H|vm_compute in H; discriminate H].
Qed.
Lemma strict_ok : Permutation both_sides (strict :: [loose]) /\ defaults_last strict /\ no_selves (lg_rep (mb_lgr strict)) /\ (forall c, has_cp strict c -> exists x, c = [x]) /\
  seen_by strict [1; 2] = Some (true, Some "valid", true) /\ (forall x, In x [1; 2] -> only_member both_sides strict [x]) /\
  (forall m' a, In m' [loose] -> ~ triggered ones m' [1; 2] [] false a).
Proof.
  split; [apply Permutation_refl|]. split.
  { exists [not_started], [all_valid]. split; [reflexivity|]. split; intros a [<-|[]].
    - intros (_ & H & _). discriminate H.
    - split; [reflexivity|]. split; [reflexivity|]. right. right. repeat split. }
  split; [apply both_selfless; left; reflexivity|]. split; [intros c H; apply strict_cps in H; destruct H; eauto|]. split; [vm_compute; reflexivity|]. split.
  - intros x Hx. split; [destruct Hx as [<-|[<-|[]]]; vm_compute; discriminate|]. exists [loose]. split; [apply Permutation_refl|]. intros y [<-|[]] H. apply loose_cps in H. destruct Hx as [<-|[<-|[]]]; destruct H; congruence.
  - intros m a [<-|[]] [[] _].
Qed.
Definition listed_types (x : res merged) (label : cps) : option (list (cps * list (option string) * option string)) :=
  match x with
  | Ok st => Some (map (fun z => (ls_cp z, ls_types z, ls_disp z)) (fst (compute_label_disposition one_first (rebuild st) (mg_actions st) (fun _ => "") true label true false false [])))
  | Raise _ => None
  end.
Lemma both_listed : listed_types (merge_given both_sides) [1; 3] = 
  Some [([1; 4], [Some "blocked"], Some "blocked"); ([2; 3], [Some "blocked"], Some "invalid"); ([2; 4], [Some "blocked"; Some "blocked"], Some "invalid"); ([1; 3], [], Some "valid")].
Proof. vm_compute. reflexivity. Qed.
