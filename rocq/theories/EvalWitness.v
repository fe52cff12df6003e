(** Samples for the evaluation with rules. *)
From Verif Require Import Base BaseFacts CharModel RepSpec RepProofs RangeProofs ActionModel ActionSpec LgrModel LabelModel LabelSpec LabelProofs LabelFinal ClassModel ClassSpec ClassFinal RuleModel RuleSpec RuleTable EvalModel EvalSpec EvalProofs EvalErrors EvalFinal.
From Coq Require Import Lia.
Open Scope string_scope.
Open Scope list_scope.
Open Scope nat_scope.

Definition opt_list (o : option string) : list string := match o with Some n => [n] | None => [] end.
Definition names_of (r : repertoire) (acts : list action) : list string :=
  flat_map (fun kl : N * list char => flat_map (fun ch => opt_list (consulted (ch_when ch) (ch_not_when ch)) ++
    flat_map (fun kv : cps * list variant => flat_map (fun v => opt_list (consulted (v_when v) (v_not_when v))) (snd kv)) (ch_variants ch)) (snd kl)) (rep_chars r)
  ++ flat_map (fun a => opt_list (consulted (a_match a) (a_not_match a))) acts.
Lemma mentioned_names : forall r acts n, mentioned r acts n -> In n (names_of r acts).
Proof.
  intros r acts n H. unfold names_of. apply in_app_iff. destruct H as [x l ch n H1 H2 H3|x l ch c vs v n H1 H2 H3 H4 H5|a n H1 H2].
  - left. apply (dget_In _ N_eqb_iff) in H1. apply in_flat_map. exists (x, l). split; [exact H1|]. apply in_flat_map. exists ch. split; [exact H2|]. apply in_app_iff. left. rewrite H3. left. reflexivity.
  - left. apply (dget_In _ N_eqb_iff) in H1. apply (dget_In _ cps_eqb_eq) in H3. apply in_flat_map. exists (x, l). split; [exact H1|]. apply in_flat_map. exists ch. split; [exact H2|]. apply in_app_iff. right.
    apply in_flat_map. exists (c, vs). split; [exact H3|]. apply in_flat_map. exists v. split; [exact H4|]. rewrite H5. left. reflexivity.
  - right. apply in_flat_map. exists a. split; [exact H1|]. rewrite H2. left. reflexivity.
Qed.
Lemma defined_check : forall r acts rules, forallb (fun n => (negb (String.eqb n "") && match dget String.eqb n rules with Some _ => true | None => false end)%bool) (names_of r acts) = true -> all_defined r acts rules.
Proof.
  intros r acts rules H n Hn. apply mentioned_names in Hn. rewrite forallb_forall in H. specialize (H n Hn). apply andb_true_iff in H. destruct H as [H1 H2].
  split; [intros ->; discriminate|]. destruct (dget String.eqb n rules) as [x|]; [exists x; reflexivity|discriminate].
Qed.
Lemma tidy_all_resolve : forall u look l, tidy_rules u look l -> all_resolve u look (rules_run look l).
Proof. intros u look l H n x Hx. exact (tidy_rules_resolve u look l n x H Hx). Qed.

(** 9 may only stand between ones and a tail, 2 may replace it then; a label
    must end in a tail. *)
Definition s_rep : repertoire := built [addc [1]%N; addc [2]%N; addc [3]%N; OpAddChar [9]%N None [] [] (Some "mid") None;
  OpAddVariant [9]%N (mkVariant [2]%N (Some "blocked") (Some "tail") None None [])].
Definition s_acts : list action := [mkAction "invalid" None (Some "tail") None None None].
Lemma s_defined : all_defined s_rep s_acts sample_rules.
Proof. apply defined_check. vm_compute. reflexivity. Qed.
Lemma s_resolve : all_resolve sample_db sample_look sample_rules.
Proof. exact (tidy_all_resolve _ _ _ sample_tidy_rules). Qed.
Lemma s_shaped : shaped_table sample_look.
Proof.
  assert (E : sample_look = [("A", ClPlain (Some "A") None None None [3; 4]%N)]) by (vm_compute; reflexivity).
  intros n c H. rewrite E in H. cbn [dget] in H. destruct (String.eqb n "A"); [injection H as H; subst c; exact I|discriminate].
Qed.
Definition s_eval (label : cps) : res elig := snd (eligible_e sample_db sample_look sample_rules 20 s_rep s_acts label false []).
Definition s_list (label : cps) := fst (snd (compute_e sample_db sample_look sample_rules 20 s_rep s_acts (fun _ => "") label false false false [] [])).

(** ** Counterexamples *)
Definition nope_rep : repertoire := built [OpAddChar [5]%N None [] [] (Some "nope") None; addc [6]%N].
Lemma missing_context : exists r label ok, reachable r /\
  (forall u f acts v k, eligible_e u [] [] f r acts label v k = (k, Raise (KeyErrorStr "nope"))) /\
  forall u f v k, exists e, eligible_e u [] [] f r [] ok v k = (k, Ok e) /\ el_ok e = true.
Proof.
  exists nope_rep, [6; 5]%N, [6]%N. split; [apply built_reachable|]. split; [intros; vm_compute; reflexivity|].
  intros u f v k. destruct v; eexists; (split; [vm_compute; reflexivity|reflexivity]).
Qed.
(** The same LGR, but for the name of its rule. *)
Definition empty_rep_named (n : string) : repertoire := built [OpAddChar [5]%N None [] [] (Some n) None].
Definition only_rule (n : string) : rtable := rules_run [] [Rule 1 (Some n) None [MBehind [MChar [6]%N None]; MAnchor]].
Lemma empty_name : exists label, 
  (let eval n := snd (eligible_e sample_db [] (only_rule n) 20 (empty_rep_named n) [] label false []) in
   eval "" = Raise TypeError /\ exists e, eval "x" = Ok e /\ el_invalid e = [(5%N, Some [Some "x"])]) /\
  snd (add_rule [] [] (Rule 1 (Some "") None [MBehind [MChar [6]%N None]; MAnchor]) false) = Ok tt.
Proof. exists [5]%N. split; [split; [vm_compute; reflexivity|eexists; vm_compute; split; reflexivity]|vm_compute; reflexivity]. Qed.

Lemma missing_sample : let r := built [addc [97]%N; addc [98]%N; addc [97; 98]%N] in
  (forall m, ~ mentioned r [] m) /\ (exists chars, longest_match (fun _ _ _ => true) r [98; 97; 98]%N 0 chars []) /\
  snd (eligible_e sample_db [] [] 5 r [mkAction "valid" (Some "gone") None None None None] [98; 97; 98]%N false []) = Raise (KeyErrorStr "gone").
Proof.
  cbv zeta. split; [intros m Hm; apply mentioned_names in Hm; vm_compute in Hm; exact Hm|]. split; [|vm_compute; reflexivity].
  set (r := built _). set (rm := fun _ _ _ => true).
  destruct (prelim_loop_spec rm r [98; 97; 98]%N (reachable_wf r (built_reachable _)) 3 0 [98; 97; 98]%N eq_refl (Nat.le_0_l _) (le_n _)) as [p [P1 [P2 _]]].
  exists (pr_chars p). assert (E : pr_invalid p = []) by (vm_compute in P1; injection P1 as <-; reflexivity). rewrite E in P2. exact P2.
Qed.
