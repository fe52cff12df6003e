(** Property theorems about repertoires (C01, C03-C06, C27, C42).
    Statements only; proofs are in the *Proofs and RepFinal files. *)
From Verif Require Import Base BaseFacts CharModel RepSpec RepProofs VariantProofs IterProofs RangeProofs VarSetSpec VarSetProofs RepFinal StatsNamed.

(** C01: every history of operations on a repertoire behaves, output by
    output, as the same history on a finite map. *)
Theorem C01_repertoire_refines_map : forall ops,
  let r := fst (rep_run empty_rep ops) in
  let a := fst (a_run a_empty ops) in
  snd (rep_run empty_rep ops) = snd (a_run a_empty ops) /\
  (forall c, lookup r c = a_map a c) /\
  NoDup (map ch_cp (all_chars r)) /\
  (forall ch, In ch (all_chars r) <-> a_map a (ch_cp ch) = Some ch) /\
  (forall c, c <> [] -> rep_contains r c = Ok (match a_map a c with Some _ => true | None => false end)) /\
  rep_len r = length (all_chars r).
Proof. exact repertoire_refines_map. Qed.
Print Assumptions C01_repertoire_refines_map.

Example C01_nontrivial :
  let r := fst (rep_run empty_rep [addc [97]; addc [97; 98]; addr 100 110; addc [97]; OpDelChar [97]]) in
  rep_len r = 12%nat /\ rep_contains r [97] = Ok false /\ rep_contains r [97; 98] = Ok true.
Proof. vm_compute. auto. Qed.

(** C03 at repertoire level: full case description of add_range. *)
Theorem C03_add_range_exact : forall r f l cm rf tg w nw sk r' x,
  reachable r -> rep_add_range r f l cm rf tg w nw sk = (r', x) ->
  match x with
  | Ok _ =>
      f < l /\ (forall c, f <= c <= l -> lookup r [c] = None) /\
      (forall d, lookup r' d =
         match d with
         | [c] => if N.leb f c && N.leb c l
                  then Some (mkChar [c] (KRange f l) cm rf tg w nw []) else lookup r d
         | _ => lookup r d
         end) /\
      Permutation (rep_ranges r') ((f, l) :: rep_ranges r)
  | Raise e =>
      (e = AssertionError /\ ~ f < l /\ r' = r) \/
      (e = RangeAlreadyExists f l /\ (forall d, lookup r' d = lookup r d) /\
       Permutation (rep_ranges r') (rep_ranges r)) \/
      (exists c, e = CharAlreadyExists [c] /\ f <= c <= l /\ lookup r [c] <> None /\
         (forall c', f <= c' < c -> lookup r [c'] = None) /\
         (forall d, lookup r' d =
           match d with
           | [c'] => if N.leb f c' && N.ltb c' c
                     then Some (mkChar [c'] (KRange f l) cm rf tg w nw []) else lookup r d
           | _ => lookup r d
           end) /\
         Permutation (rep_ranges r') (rep_ranges r))
  end.
Proof. exact (fun r f l cm rf tg w nw sk r' x H => rep_add_range_spec r f l cm rf tg w nw sk r' x (reachable_wf r H)). Qed.
Print Assumptions C03_add_range_exact.

Example C03_nontrivial : exists r r' , reachable r /\
  rep_add_range r 10 20 None [] [] None None false = (r', Ok tt) /\ lookup r [5; 6] <> None.
Proof.
  exists (fst (rep_run empty_rep [addc [5; 6]; addr 1 3])). eexists.
  split; [eexists; reflexivity|]. split; vm_compute; [reflexivity|discriminate].
Qed.

(** C04: with all members still present, del_range removes exactly them.
    Missing for the full claim: atomicity when a member was deleted on its
    own, refuted below. *)
Theorem C04_del_range_partial : forall r f l,
  reachable r -> f < l -> In (f, l) (rep_ranges r) ->
  (forall c, f <= c <= l -> lookup r [c] <> None) ->
  exists r', rep_del_range r f l = (r', Ok tt) /\
    (forall d, lookup r' d =
       match d with
       | [c] => if N.leb f c && N.leb c l then None else lookup r d
       | _ => lookup r d
       end) /\
    Permutation (rep_ranges r) ((f, l) :: rep_ranges r').
Proof. exact (fun r f l H => rep_del_range_present r f l (reachable_wf r H)). Qed.
Print Assumptions C04_del_range_partial.

(** ... and it raises for no other reason than a bad argument, an unknown
    range (both leave the repertoire unchanged) or a missing member. *)
Theorem C04_del_range_cases_partial : forall r f l r' x,
  reachable r -> rep_del_range r f l = (r', x) ->
  match x with
  | Ok _ => f < l /\ In (f, l) (rep_ranges r) /\ (forall c, f <= c <= l -> lookup r [c] <> None)
  | Raise e => (r' = r /\ (e = AssertionError \/ e = NotInLGR [f])) \/
               (exists c, f <= c <= l /\ e = NotInLGR [c] /\ lookup r [c] = None)
  end.
Proof. exact (fun r f l r' x H => rep_del_range_cases r f l r' x (reachable_wf r H)). Qed.
Print Assumptions C04_del_range_cases_partial.

Theorem C04_del_range_all_or_nothing_refuted :
  exists ops f l, let r := fst (rep_run empty_rep ops) in
    In (f, l) (rep_ranges r) /\
    exists e, snd (rep_del_range r f l) = Raise e /\
    exists c, lookup r c <> None /\ lookup (fst (rep_del_range r f l)) c = None.
Proof. exact del_range_not_atomic. Qed.
Print Assumptions C04_del_range_all_or_nothing_refuted.

Example C04_nontrivial : exists r, reachable r /\ In (100, 120) (rep_ranges r) /\
  forall c, 100 <= c <= 120 -> lookup r [c] <> None.
Proof.
  exists (fst (rep_run empty_rep [addr 100 120; addc [99]])). split; [eexists; reflexivity|].
  split; [vm_compute; auto|]. intros c Hc. apply nrange_In in Hc. revert c Hc.
  apply Forall_forall. vm_compute. repeat constructor; discriminate.
Qed.

(** C05: a range meeting an existing one without strictly containing it is
    refused with no effect.  Missing: a new range strictly containing an
    existing one, refuted below. *)
Theorem C05_overlap_refused_partial : forall r f l rf rl cm rs tg w nw,
  reachable r -> f < l -> In (rf, rl) (rep_ranges r) -> f <= rl -> rf <= l -> (rf <= f \/ l <= rl) ->
  exists r', rep_add_range r f l cm rs tg w nw false = (r', Raise (RangeAlreadyExists f l)) /\
    (forall d, lookup r' d = lookup r d) /\ Permutation (rep_ranges r') (rep_ranges r).
Proof. exact overlap_detected. Qed.
Print Assumptions C05_overlap_refused_partial.

(** A range containing any present code point is refused, however it overlaps. *)
Theorem C05_present_code_point_refused : forall r f l c cm rs tg w nw sk,
  reachable r -> f <= c <= l -> lookup r [c] <> None ->
  exists e, snd (rep_add_range r f l cm rs tg w nw sk) = Raise e.
Proof. exact range_conflict_refused. Qed.
Print Assumptions C05_present_code_point_refused.

Theorem C05_overlap_unchanged_refuted :
  exists ops f l rf rl, let r := fst (rep_run empty_rep ops) in
    In (rf, rl) (rep_ranges r) /\ f <= rf /\ rl <= l /\
    snd (rep_add_range r f l None [] [] None None false) = Raise (CharAlreadyExists [rf]) /\
    exists c, lookup r c = None /\
              lookup (fst (rep_add_range r f l None [] [] None None false)) c <> None.
Proof. exact overlap_not_atomic. Qed.
Print Assumptions C05_overlap_unchanged_refuted.

Theorem C05_overlap_refused_refuted :
  exists ops f l rf rl, let r := fst (rep_run empty_rep ops) in
    In (rf, rl) (rep_ranges r) /\ f < rf /\ rl < l /\
    snd (rep_add_range r f l None [] [] None None false) = Ok tt.
Proof. exact overlap_accepted. Qed.
Print Assumptions C05_overlap_refused_refuted.

Example C05_nontrivial : exists r, reachable r /\ In (10, 20) (rep_ranges r) /\ In (30, 40) (rep_ranges r).
Proof. exists (fst (rep_run empty_rep [addr 30 40; addr 10 20])). split; [eexists; reflexivity|]. vm_compute. auto. Qed.

(** C06: order, uniqueness and soundness of iteration for every reachable
    repertoire; completeness for single code points and sequences, and for
    ranges while no range member has been removed or left over.  Missing:
    ranges in the remaining states, refuted below. *)
Theorem C06_iteration_partial : forall r, reachable r ->
  StronglySorted iter_order (rep_iter r) /\
  NoDup (map ch_cp (rep_iter r)) /\
  (forall c, In c (rep_iter r) -> lookup r (ch_cp c) = Some c) /\
  (forall c, lookup r (ch_cp c) = Some c -> is_range c = false -> In c (rep_iter r)) /\
  (ranges_intact r -> forall c, In c (rep_iter r) <->
     lookup r (ch_cp c) = Some c /\ (forall f l, ch_kind c = KRange f l -> ch_cp c = [f])).
Proof. exact iter_spec_partial. Qed.
Print Assumptions C06_iteration_partial.

Theorem C06_iteration_accounts_partial : forall r, reachable r -> ranges_intact r ->
  forall d, lookup r d <> None <->
    exists c, In c (rep_iter r) /\
      match ch_kind c with
      | KRange f l => exists x, d = [x] /\ f <= x <= l
      | _ => d = ch_cp c
      end.
Proof. exact iter_accounts. Qed.
Print Assumptions C06_iteration_accounts_partial.

Theorem C06_iteration_complete_refuted :
  exists ops c f l, let r := fst (rep_run empty_rep ops) in
    In c (all_chars r) /\ ch_kind c = KRange f l /\ In (f, l) (rep_ranges r) /\
    (forall d, In d (rep_iter r) -> ch_kind d <> KRange f l).
Proof. exact iter_incomplete. Qed.
Print Assumptions C06_iteration_complete_refuted.

(** The unsorted listing, with or without sequences and ranges. *)
Theorem C06_listing_filtered : forall r sequences ranges, reachable r ->
  NoDup (map ch_cp (all_repertoire r sequences ranges)) /\
  forall c, In c (all_repertoire r sequences ranges) <->
    lookup r (ch_cp c) = Some c /\ (sequences = false -> length (ch_cp c) = 1%nat) /\
    (ranges = false -> forall f l, ch_kind c <> KRange f l).
Proof. exact listing_filtered. Qed.
Print Assumptions C06_listing_filtered.

Example C06_listing_nontrivial :
  let r := fst (rep_run empty_rep [addr 10 12; addc [11; 5]; addc [3]]) in
  map (fun p => length (all_repertoire r (fst p) (snd p))) [(true, true); (false, true); (true, false); (false, false)]
  = [5; 4; 2; 1]%nat.
Proof. vm_compute. reflexivity. Qed.

Example C06_nontrivial :
  let r := fst (rep_run empty_rep [addr 10 12; addc [11; 5]; addc [3]; addr 20 22]) in
  map ch_cp (rep_iter r) = [[3]; [10]; [11; 5]; [20]].
Proof. vm_compute. reflexivity. Qed.

Example C06_intact_somewhere : exists r, reachable r /\ ranges_intact r /\ rep_ranges r = [(10, 11)].
Proof.
  exists (fst (rep_run empty_rep [addr 10 11; addc [11; 5]])). split; [eexists; reflexivity|].
  split; [|vm_compute; reflexivity].
  intros c f l Hc Hk x Hx. vm_compute in Hc.
  destruct Hc as [Hc|[Hc|[Hc|[]]]]; subst c; simpl in Hk; try discriminate;
    injection Hk as Hf Hl; subst f l;
    (assert (Hd : x = 10 \/ x = 11) by lia); destruct Hd; subst x; eexists;
    (split; [vm_compute; reflexivity|reflexivity]).
Qed.

(** C27: variant sets. *)
Theorem C27_variant_sets : forall r force, reachable r ->
  exists sets, get_variant_sets r force = Some sets /\ NoDup sets /\
    forall s, In s sets <->
      (StronglySorted cps_lt s /\ (2 <= length s)%nat /\
       exists a, lookup r a <> None /\ forall x, In x s <-> reach r force a x).
Proof. exact (fun r force H => variant_sets_spec r force (reachable_wf r H)). Qed.
Print Assumptions C27_variant_sets.

Theorem C27_variant_sets_disjoint : forall r force sets s1 s2 x, reachable r ->
  (forall a b, edge r force a b -> edge r force b a) ->
  get_variant_sets r force = Some sets -> In s1 sets -> In s2 sets ->
  In x s1 -> In x s2 -> s1 = s2.
Proof. exact (fun r force sets s1 s2 x H => variant_sets_disjoint r force sets s1 s2 x (reachable_wf r H)). Qed.
Print Assumptions C27_variant_sets_disjoint.

(** The symmetry hypothesis is needed. *)
Theorem C27_disjoint_without_symmetry_refuted :
  exists ops sets s1 s2 x, let r := fst (rep_run empty_rep ops) in
    get_variant_sets r false = Some sets /\ In s1 sets /\ In s2 sets /\ In x s1 /\ In x s2 /\ s1 <> s2.
Proof. exact variant_sets_overlap_refuted. Qed.
Print Assumptions C27_disjoint_without_symmetry_refuted.

Example C27_nontrivial :
  let av a b := OpAddVariant [a] (mkVariant [b] None None None None []) in
  let r := fst (rep_run empty_rep [addc [1]; addc [2]; addc [3]; addc [4]; addc [5];
     av 1 2; av 2 1; av 2 3; av 3 2; av 5 4; av 4 5]) in
  get_variant_sets r false = Some [[[1]; [2]; [3]]; [[4]; [5]]].
Proof. vm_compute. reflexivity. Qed.

(** C42: variants of an entry. *)
Theorem C42_variants_form_a_set : forall r c ch, reachable r -> lookup r c = Some ch ->
  NoDup (map vkey (get_variants ch)) /\
  StronglySorted (fun a b => cps_leb (v_cp a) (v_cp b) = true) (get_variants ch) /\
  (is_range ch = true -> get_variants ch = []).
Proof. exact variants_of_entry. Qed.
Print Assumptions C42_variants_form_a_set.

Theorem C42_add_variant : forall r c ch v, reachable r -> lookup r c = Some ch ->
  is_range ch = false -> v_cp v <> [] ->
  (In (vkey v) (map vkey (get_variants ch)) /\
   rep_add_variant r c v = (r, Raise (VariantAlreadyExists c (v_cp v))))
  \/
  (~ In (vkey v) (map vkey (get_variants ch)) /\
   exists r' ch', rep_add_variant r c v = (r', Ok tt) /\ lookup r' c = Some ch' /\
     (forall w, In w (get_variants ch') <-> w = v \/ In w (get_variants ch)) /\
     (forall d, d <> c -> lookup r' d = lookup r d)).
Proof. exact variant_add_spec. Qed.
Print Assumptions C42_add_variant.

Theorem C42_del_variant : forall r c ch vcp w nw, reachable r -> lookup r c = Some ch ->
  is_range ch = false -> vcp <> [] ->
  exists r' ch' b, rep_del_variant r c vcp w nw = (r', Ok b) /\ lookup r' c = Some ch' /\
    (b = true <-> In (vcp, w, nw) (map vkey (get_variants ch))) /\
    (forall u, In u (get_variants ch') <-> In u (get_variants ch) /\ vkey u <> (vcp, w, nw)) /\
    (b = false -> ch' = ch) /\
    (forall d, d <> c -> lookup r' d = lookup r d).
Proof. exact variant_del_spec. Qed.
Print Assumptions C42_del_variant.

Theorem C42_range_member_has_no_variant : forall r c ch v vcp w nw,
  lookup r c = Some ch -> is_range ch = true ->
  rep_add_variant r c v = (r, Raise (LGRFormatException RANGE_NO_CHILD)) /\
  rep_del_variant r c vcp w nw = (r, Raise (LGRFormatException RANGE_NO_CHILD)).
Proof. exact variant_range_refused. Qed.
Print Assumptions C42_range_member_has_no_variant.

Example C42_nontrivial :
  let mk c w := mkVariant [c] (Some "blocked"%string) w None None [] in
  let r := fst (rep_run empty_rep [addc [1]; OpAddVariant [1] (mk 7 None);
     OpAddVariant [1] (mk 3 (Some "r"%string)); OpAddVariant [1] (mk 7 (Some "r"%string)); OpAddVariant [1] (mk 7 None);
     OpDelVariant [1] [7] None None]) in
  exists ch, lookup r [1] = Some ch /\ get_variants ch = [mk 3 (Some "r"%string); mk 7 (Some "r"%string)].
Proof. eexists. vm_compute. split; reflexivity. Qed.
