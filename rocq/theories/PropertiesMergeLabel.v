(** C99: labels in the LGR merged from a set. *)
From Coq Require Import Permutation.
From Verif Require Import Base CharModel RepSpec ActionModel ActionSpec LabelModel LabelSpec LgrModel LgrSpec ValidateSpec CompareLabelSpec MergeModel MergeSpec MergeWitness CombineSpec CombineWitness
  MergeLabelSpec MergeLabel MergeLabelWitness.
Open Scope string_scope.
Open Scope N_scope.
Open Scope list_scope.

(** A label whose code points stand where the members allow them gets no
    complaint, and the members' own actions decide on it, those of the first
    script first; when none triggers the label is valid. *)
Theorem C99_verdict_partial : forall ord_names ord_variants, any_order ord_variants -> forall rms rm l st,
  (forall m, In m l -> tidy (mb_lgr m)) -> merge_lgr_set ord_names ord_variants l = Ok st -> rules_follow rms rm l ->
  forall q, rebuilt (lg_rep (mg_lgr st)) q -> no_selves (lg_rep (mg_lgr st)) ->
  exists l', Permutation l l' /\ in_script_order l' /\
    forall label, label <> [] -> (forall i x, nth_error label i = Some x -> fits rms l label i x) ->
    exists e, test_label_eligible rm q (mg_actions st) label false = Ok e /\ el_invalid e = [] /\
      ((exists m a, first_triggered rms l' label [] false m a /\ el_disp e = Some (a_disp a) /\ (el_ok e = true <-> a_disp a <> "invalid")) \/
       ((forall m a, In m l -> ~ triggered rms m label [] false a) /\ el_disp e = Some "valid" /\ el_ok e = true)).
Proof. exact merged_verdict. Qed.
Print Assumptions C99_verdict_partial.
Example C99_verdict_ex : exists st q, (forall m, In m both_sides -> tidy (mb_lgr m)) /\ merge_given both_sides = Ok st /\ rules_follow ones one_first both_sides /\ rebuilt (lg_rep (mg_lgr st)) q /\
  no_selves (lg_rep (mg_lgr st)) /\ (forall i x, nth_error [1; 3] i = Some x -> fits ones both_sides [1; 3] i x) /\ triggered ones strict [3; 1] [] false not_started.
Proof. exact both_ok. Qed.
Example C99_verdict_ex2 : map (seen_merged (merge_given both_sides)) [[1; 3]; [3; 1]; [1; 2]; [3]; [5]] =
  [Some (true, Some "valid", true); Some (false, Some "invalid", true); Some (true, Some "valid", true); Some (false, Some "invalid", true); Some (false, Some "invalid", false)].
Proof. exact both_seen. Qed.

(** A label without complaint is made of code points of the members. *)
Theorem C99_only_members : forall ord_names ord_variants, any_order ord_variants -> forall rm l st,
  (forall m, In m l -> tidy (mb_lgr m)) -> merge_lgr_set ord_names ord_variants l = Ok st ->
  forall q, rebuilt (lg_rep (mg_lgr st)) q -> forall label e,
  test_label_eligible rm q (mg_actions st) label false = Ok e -> el_invalid e = [] ->
  made_of (fun c _ => exists m, In m l /\ has_cp m c) 0 label.
Proof. exact merged_made. Qed.
Print Assumptions C99_only_members.
Example C99_only_members_ex : seen_merged (merge_given both_sides) [1; 3] = Some (true, Some "valid", true) /\ seen_merged (merge_given both_sides) [5] = Some (false, Some "invalid", false).
Proof. split; vm_compute; reflexivity. Qed.

(** A label of one member gets the verdict it gets there, when the other
    members have nothing to say.  (Partial: see the refutations.) *)
Theorem C99_member_partial : forall ord_names ord_variants, any_order ord_variants -> forall rms rm l st,
  (forall m, In m l -> tidy (mb_lgr m)) -> merge_lgr_set ord_names ord_variants l = Ok st -> rules_follow rms rm l ->
  forall q, rebuilt (lg_rep (mg_lgr st)) q -> no_selves (lg_rep (mg_lgr st)) ->
  forall m rest label e, Permutation l (m :: rest) -> defaults_last m -> no_selves (lg_rep (mb_lgr m)) -> (forall c, has_cp m c -> exists x, c = [x]) ->
  test_label_eligible (rms m) (lg_rep (mb_lgr m)) (mb_actions m) label false = Ok e -> el_invalid e = [] ->
  (forall x, In x label -> only_member l m [x] \/ forall m' ch, In m' l -> lookup (lg_rep (mb_lgr m')) [x] = Some ch -> ch_when ch = None /\ ch_not_when ch = None) ->
  (forall m' a, In m' rest -> ~ triggered rms m' label [] false a) ->
  exists e', test_label_eligible rm q (mg_actions st) label false = Ok e' /\ el_invalid e' = [] /\ el_disp e' = el_disp e /\ el_ok e' = el_ok e.
Proof. exact member_agrees. Qed.
Print Assumptions C99_member_partial.
Example C99_member_ex : Permutation both_sides (strict :: [loose]) /\ defaults_last strict /\ no_selves (lg_rep (mb_lgr strict)) /\ (forall c, has_cp strict c -> exists x, c = [x]) /\
  seen_by strict [1; 2] = Some (true, Some "valid", true) /\ (forall x, In x [1; 2] -> only_member both_sides strict [x]) /\
  (forall m' a, In m' [loose] -> ~ triggered ones m' [1; 2] [] false a).
Proof. exact strict_ok. Qed.

(** Merging members that share no code point makes no code point its own
    variant. *)
Theorem C99_no_selves : forall ord_names ord_variants, any_order ord_variants -> forall l st,
  (forall m, In m l -> tidy (mb_lgr m)) -> merge_lgr_set ord_names ord_variants l = Ok st ->
  apart_members l -> (forall m, In m l -> no_selves (lg_rep (mb_lgr m))) -> no_selves (lg_rep (mg_lgr st)).
Proof. exact apart_no_selves. Qed.
Print Assumptions C99_no_selves.
Example C99_no_selves_ex : apart_members both_sides /\ forall m, In m both_sides -> no_selves (lg_rep (mb_lgr m)).
Proof. exact (conj both_apart both_selfless). Qed.

(** The variants the merged LGR lists are all made with variants of type
    blocked; they are blocked or invalid unless an action of a member decides
    otherwise. *)
Theorem C99_variants_blocked : forall ord_names ord_variants, any_order ord_variants -> forall rms rm l st,
  (forall m, In m l -> tidy (mb_lgr m)) -> merge_lgr_set ord_names ord_variants l = Ok st -> rules_follow rms rm l ->
  forall q, rebuilt (lg_rep (mg_lgr st)) q ->
  exists l', Permutation l l' /\ in_script_order l' /\
    forall script label inc gen wl, label <> [] -> (length label <= 63)%nat ->
    exists zs o, compute_label_disposition rm q (mg_actions st) script true label inc false gen wl = (zs ++ [o], Ok tt) /\ ls_cp o = label /\
      forall z, In z zs -> (forall t, In t (ls_types z) -> t = Some "blocked") /\ In (Some "blocked") (ls_types z) /\
        (ls_disp z = Some "blocked" \/ ls_disp z = Some "invalid" \/
         exists m a only, first_triggered rms l' (ls_cp z) (ls_types z) only m a /\ ls_disp z = Some (a_disp a)).
Proof. exact listed_blocked. Qed.
Print Assumptions C99_variants_blocked.
Example C99_variants_blocked_ex : listed_types (merge_given both_sides) [1; 3] =
  Some [([1; 4], [Some "blocked"], Some "blocked"); ([2; 3], [Some "blocked"], Some "invalid"); ([2; 4], [Some "blocked"; Some "blocked"], Some "invalid"); ([1; 3], [], Some "valid")].
Proof. exact both_listed. Qed.

(** An action of one member decides on the labels of another. *)
Theorem C99_other_actions_refuted : exists rms rm l st q m label e e', (forall x, In x l -> tidy (mb_lgr x)) /\ NoDup (map get_script l) /\ apart_members l /\ (forall x, In x l -> no_selves (lg_rep (mb_lgr x))) /\
  rules_follow rms rm l /\ merge_given l = Ok st /\ rebuilt (lg_rep (mg_lgr st)) q /\ In m l /\
  test_label_eligible (rms m) (lg_rep (mb_lgr m)) (mb_actions m) label false = Ok e /\ el_ok e = true /\
  test_label_eligible rm q (mg_actions st) label false = Ok e' /\ el_invalid e' = [] /\ el_ok e' = false.
Proof. exact other_decides. Qed.
Print Assumptions C99_other_actions_refuted.
(** The type of a code point's variant to itself is lost: a label that is
    invalid in its LGR is eligible in the merged one. *)
Theorem C99_own_type_refuted : exists rms rm l st q m label e e', (forall x, In x l -> tidy (mb_lgr x)) /\ NoDup (map get_script l) /\ apart_members l /\
  rules_follow rms rm l /\ merge_given l = Ok st /\ rebuilt (lg_rep (mg_lgr st)) q /\ In m l /\
  test_label_eligible (rms m) (lg_rep (mb_lgr m)) (mb_actions m) label false = Ok e /\ el_disp e = Some "invalid" /\ el_ok e = false /\
  test_label_eligible rm q (mg_actions st) label false = Ok e' /\ el_disp e' = Some "blocked" /\ el_ok e' = true.
Proof. exact mark_lost. Qed.
Print Assumptions C99_own_type_refuted.
(** A default action that stands before others is dropped, even when the set
    has one member. *)
Theorem C99_default_first_refuted : exists rms rm l st q m label e e', (forall x, In x l -> tidy (mb_lgr x)) /\ (forall x, In x l -> no_selves (lg_rep (mb_lgr x))) /\
  rules_follow rms rm l /\ merge_given l = Ok st /\ rebuilt (lg_rep (mg_lgr st)) q /\ l = [m] /\
  test_label_eligible (rms m) (lg_rep (mb_lgr m)) (mb_actions m) label false = Ok e /\ el_ok e = true /\
  test_label_eligible rm q (mg_actions st) label false = Ok e' /\ el_ok e' = false.
Proof. exact order_lost. Qed.
Print Assumptions C99_default_first_refuted.
