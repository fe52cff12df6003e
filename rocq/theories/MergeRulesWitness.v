From Coq Require Import Ascii.
From Verif Require Import Base BaseFacts ClassModel ClassSpec ClassProofs ClassFinal RuleModel RuleSpec RuleTable MergeModel MergeContext MergeRulesModel MergeRulesSpec MergeRulesLike MergeRulesTable MergeRulesFinal.
Open Scope string_scope.
Open Scope list_scope.
Open Scope nat_scope.

Definition cls_ref (b : string) : matcher := MClass (ClPlain None (Some b) None None []) None.
Definition cls_tag (t : string) : matcher := MClass (ClPlain None None (Some t) None []) None.
Definition rule_ref (i : nat) (b : string) : matcher := MRule (Rule i None (Some b) []) None.
Definition named_tag (n t : string) : cls := ClPlain (Some n) None (Some t) None [].
Definition others (n b : string) : cls := ClComb (Some n) Complement [ClPlain None (Some b) None None []].

Definition latn : smember := mkSm "und-Latn" [("vowel", [1; 5]%N); ("mark", [30%N])] [named_tag "vowels" "vowel"; others "consonants" "vowels"]
  [Rule 0 (Some "after-vowel") None [MBehind [cls_ref "vowels"]; MAnchor];
   Rule 1 (Some "ends") None [rule_ref 11 "pair"; MEnd];
   Rule 2 (Some "pair") None [cls_ref "consonants"; cls_tag "vowel"];
   Rule 3 (Some "leading-combining-mark") None [MStart; cls_tag "mark"]] [].
Definition grek : smember := mkSm "und-Grek" [("vowel", [9]%N)] [named_tag "vowels" "vowel"]
  [Rule 4 (Some "after-vowel") None [MBehind [cls_ref "vowels"]; MAnchor]; Rule 5 (Some "leading-combining-mark") None [MStart; cls_tag "mark"]]
  [("und-Grek-und-Latn", "after-vowel")].
Definition both_tags : dict string (list N) := [("und-Latn-vowel", [5; 1]%N); ("und-Grek-vowel", [9]%N); ("und-Latn-mark", [30%N])].
Definition pair_set : list smember := [latn; grek].

(** ** The sample is clear *)
Lemma starts_prefix : forall s n, MergeRulesSpec.starts s n -> String.prefix (s ++ "-") n = true.
Proof. intros s n [r ->]. apply prefix_iff. exists r. rewrite app_assoc_s. reflexivity. Qed.
Lemma tag_like_prefix : forall n, tag_like n -> String.prefix "#__internal_tag_" n = true.
Proof. intros n [t ->]. apply prefix_iff. exists t. reflexivity. Qed.
Lemma like_msr_prefix : forall n, like_msr n -> String.prefix msr n = true.
Proof. intros n [t ->]. apply prefix_iff. exists t. reflexivity. Qed.
Lemma kept_plain : forall s own tags t, t <> "" -> no_colon t -> (forall x, code_points_of t own x <-> code_points_of (in_set s t) tags x) -> tag_kept s own tags t.
Proof. intros s own tags t H0 H1 H2. split; [exact H0|]. intros n A _. rewrite (A H1). exact H2. Qed.
Ltac not_start := let H := fresh in intro H; apply starts_prefix in H; vm_compute in H; discriminate H.
Ltac not_tag := let H := fresh in intro H; apply tag_like_prefix in H; vm_compute in H; discriminate H.
Ltac not_msr := let H := fresh in intro H; apply like_msr_prefix in H; vm_compute in H; discriminate H.
Ltac colonless := vm_compute; repeat split; discriminate.
Ltac is_apart := split; not_start.
Ltac same_points l := let x := fresh in intro x; unfold code_points_of; vm_compute dget; split; (let A := fresh in intros [A [B C]]; injection B as <-; exists l; split; [reflexivity|]; cbn in *; tauto).
Lemma latn_clear : clear_set pair_set both_tags latn.
Proof.
  constructor.
  - left. reflexivity.
  - intros x [<-|[<-|[]]]; [left; reflexivity|right; is_apart].
  - is_apart.
  - intros x [<-|[<-|[]]] s; discriminate.
  - colonless.
  - split; repeat constructor; cbn; intuition discriminate.
  - repeat constructor; cbn; intuition discriminate.
  - intros c [<-|[<-|[]]]; eexists; (split; [reflexivity|]); (split; [discriminate|]); (split; [colonless|not_tag]).
  - intros c b [<-|[<-|[]]] H; cbn in H; repeat (destruct H as [<-|H]); try contradiction; (split; [discriminate|]); (split; [colonless|not_tag]).
  - intros c t [<-|[<-|[]]] H; cbn in H; repeat (destruct H as [<-|H]); try contradiction. apply kept_plain; [discriminate|colonless|].
    intro x. unfold code_points_of. vm_compute dget. split; intros [l [E I]]; injection E as <-; (eexists; split; [reflexivity|]); cbn in *; tauto.
  - intros x c [<-|[<-|[]]] H; cbn in H; repeat (destruct H as [<-|H]); try contradiction; eexists; (split; [reflexivity|]); (split; [discriminate|not_tag]).
  - repeat constructor; cbn; intuition discriminate.
  - intros x r [<-|[<-|[]]] H; cbn in H; repeat (destruct H as [<-|H]); try contradiction; eexists; (split; [reflexivity|discriminate]).
  - intros r b H N B. cbn in H. repeat (destruct H as [<-|H]); try contradiction; try (exfalso; apply N; reflexivity); cbn in B; repeat (destruct B as [<-|B]); try contradiction; (split; [discriminate|]); (split; [colonless|split; [not_tag|not_msr]]).
  - intros r t H N B. cbn in H. repeat (destruct H as [<-|H]); try contradiction; try (exfalso; apply N; reflexivity); cbn in B; repeat (destruct B as [<-|B]); try contradiction.
    apply kept_plain; [discriminate|colonless|]. intro x. unfold code_points_of. vm_compute dget. split; intros [l [E I]]; injection E as <-; (eexists; split; [reflexivity|]); cbn in *; tauto.
  - intros x s n [<-|[<-|[]]] H; cbn in H; repeat (destruct H as [H|H]); try contradiction. injection H as <- <-. discriminate.
  - intros x s n [<-|[<-|[]]] H b [r [R [B|B]]]; cbn in H; repeat (destruct H as [H|H]); try contradiction; injection H as <- <-; cbn in R; repeat (destruct R as [<-|R]); try contradiction; cbn in B;
      try (injection B as <-); repeat (destruct B as [<-|B]); try contradiction; vm_compute; discriminate.
Qed.
Definition answers (tags : dict string (list N)) (l : list smember) (n : string) (w : cps) (a : option cps) (i : nat) : option (res bool) :=
  match dget String.eqb n (merged_rules tags l) with
  | Some r => Some (snd (rule_matches sample_db (merged_classes tags l) (merged_rules tags l) 20 r w a i []))
  | None => None
  end.
Definition own_answers (m : smember) (n : string) (w : cps) (a : option cps) (i : nat) : option (res bool) :=
  match dget String.eqb n (own_rules m) with
  | Some r => Some (snd (rule_matches sample_db (own_classes m) (own_rules m) 20 r w a i []))
  | None => None
  end.
Lemma sample_answers :
  own_answers latn "ends" [7; 5]%N None 0 = Some (Ok true) /\ answers both_tags pair_set "und-Latn-ends" [7; 5]%N None 0 = Some (Ok true) /\
  own_answers latn "ends" [7; 9]%N None 0 = Some (Ok false) /\ answers both_tags pair_set "und-Latn-ends" [7; 9]%N None 0 = Some (Ok false) /\
  answers both_tags pair_set "und-Latn-after-vowel" [1; 7]%N (Some [7%N]) 1 = Some (Ok true) /\ answers both_tags pair_set "und-Grek-after-vowel" [1; 7]%N (Some [7%N]) 1 = Some (Ok false) /\
  answers both_tags pair_set "und-Grek-after-vowel" [9; 7]%N (Some [7%N]) 1 = Some (Ok true).
Proof. vm_compute. repeat split; reflexivity. Qed.

(** ** What goes wrong *)
(** A context rule shared by two scripts, that refers to a class. *)
Lemma shared_rule : own_answers grek "after-vowel" [9; 7]%N (Some [7%N]) 1 = Some (Ok true) /\
  answers both_tags pair_set "und-Grek-und-Latn-after-vowel" [9; 7]%N (Some [7%N]) 1 = Some (Raise (RuleError "und-Grek-und-Latn-vowels")).
Proof. vm_compute. split; reflexivity. Qed.
(** One that refers to a tag: nothing is raised, the class is empty. *)
Definition tag_rule (i : nat) : rule := Rule i (Some "after-vowel") None [MBehind [cls_tag "vowel"]; MAnchor].
Definition latn_tag : smember := mkSm "und-Latn" [("vowel", [1; 5]%N)] [] [tag_rule 0] [].
Definition grek_tag : smember := mkSm "und-Grek" [("vowel", [9]%N)] [] [tag_rule 1] [("und-Grek-und-Latn", "after-vowel")].
Lemma shared_tag_rule : own_answers grek_tag "after-vowel" [3; 7]%N (Some [7%N]) 1 = Some (Ok false) /\ own_answers latn_tag "after-vowel" [3; 7]%N (Some [7%N]) 1 = Some (Ok false) /\
  answers both_tags [latn_tag; grek_tag] "und-Grek-und-Latn-after-vowel" [3; 7]%N (Some [7%N]) 1 = Some (Ok true).
Proof. vm_compute. repeat split; reflexivity. Qed.
(** A class with a colon in its name. *)
Definition colon_member : smember := mkSm "und-Latn" [] [ClPlain (Some "x:letters") None None None [1%N]] [Rule 0 (Some "starts") None [MStart; cls_ref "x:letters"]] [].
Lemma colon_class : own_answers colon_member "starts" [1; 7]%N None 0 = Some (Ok true) /\
  answers [] [colon_member] "und-Latn-starts" [1; 7]%N None 0 = Some (Raise (RuleError "und-Latn-x:letters")) /\
  dget String.eqb "x:letters" (merged_classes [] [colon_member]) <> None.
Proof. vm_compute. repeat split; try reflexivity. discriminate. Qed.
(** A name that begins like the common rule. *)
Definition msr_member : smember := mkSm "und-Latn" [] [] [Rule 0 (Some "leading-combining-mark-2") None [MStart; MChar [1%N] None]; Rule 1 (Some "uses") None [rule_ref 2 "leading-combining-mark-2"]] [].
Lemma msr_like : own_answers msr_member "uses" [1; 7]%N None 0 = Some (Ok true) /\
  answers [] [msr_member] "und-Latn-uses" [1; 7]%N None 0 = Some (Raise (RuleError "leading-combining-mark-2")).
Proof. vm_compute. split; reflexivity. Qed.
(** The rule all members share has the content, and the tags, of the first. *)
Definition mark_latn : smember := mkSm "und-Latn" [("mark", [1%N])] [] [Rule 0 (Some "leading-combining-mark") None [MStart; cls_tag "mark"]] [].
Definition mark_grek : smember := mkSm "und-Grek" [("mark", [2%N])] [] [Rule 1 (Some "leading-combining-mark") None [MStart; cls_tag "mark"]] [].
Definition mark_tags : dict string (list N) := [("und-Latn-mark", [1%N]); ("und-Grek-mark", [2%N])].
Lemma common_rule : own_answers mark_grek "leading-combining-mark" [2; 7]%N None 0 = Some (Ok true) /\
  answers mark_tags [mark_latn; mark_grek] "Common-leading-combining-mark" [2; 7]%N None 0 = Some (Ok false) /\
  answers mark_tags [mark_latn; mark_grek] "und-Grek-leading-combining-mark" [2; 7]%N None 0 = None.
Proof. vm_compute. repeat split; reflexivity. Qed.
(** A tag with a colon gathers the code points of all members. *)
Definition sc_latn : smember := mkSm "und-Latn" [("sc:Zyyy", [1%N])] [] [Rule 0 (Some "starts") None [MStart; cls_tag "sc:Zyyy"]] [].
Definition sc_grek : smember := mkSm "und-Grek" [("sc:Zyyy", [2%N])] [] [] [].
Lemma colon_tag : own_answers sc_latn "starts" [2; 7]%N None 0 = Some (Ok false) /\
  answers [("sc:Zyyy", [1; 2]%N)] [sc_latn; sc_grek] "und-Latn-starts" [2; 7]%N None 0 = Some (Ok true).
Proof. vm_compute. split; reflexivity. Qed.
(** A rule defined twice: the LGR goes by the last, the merged LGR by the first. *)
Definition twice : smember := mkSm "und-Latn" [] [] [Rule 0 (Some "starts") None [MStart; MChar [1%N] None]; Rule 1 (Some "starts") None [MStart; MChar [2%N] None]] [].
Lemma redefined : own_answers twice "starts" [2; 7]%N None 0 = Some (Ok true) /\ answers [] [twice] "und-Latn-starts" [2; 7]%N None 0 = Some (Ok false).
Proof. vm_compute. split; reflexivity. Qed.

(** ** The sample meets the other hypotheses *)
Definition sample_obj (i : nat) : option rule := nth_error
  ([Rule 0 (Some "after-vowel") None [MBehind [cls_ref "vowels"]; MAnchor]; Rule 1 (Some "ends") None [rule_ref 11 "pair"; MEnd];
    Rule 2 (Some "pair") None [cls_ref "consonants"; cls_tag "vowel"]; Rule 3 (Some "leading-combining-mark") None [MStart; cls_tag "mark"]] ++
   repeat (Rule 99 None None []) 7 ++ [Rule 11 None (Some "pair") []]) i.
Lemma find_In : forall A k (d : dict string A) v, dget String.eqb k d = Some v -> In v (map snd d).
Proof. intros A k d v H. apply (dget_In _ string_eqb_iff) in H. apply in_map_iff. exists (k, v). auto. Qed.
Lemma own_owned : owned_rules sample_obj (own_rules latn).
Proof.
  intros n r H. apply find_In in H. vm_compute in H. repeat (destruct H as [<-|H]); try contradiction; vm_compute; repeat split; reflexivity.
Qed.
Lemma own_shaped : shaped_table (own_classes latn).
Proof. intros n c H. apply find_In in H. vm_compute in H. repeat (destruct H as [<-|H]); try contradiction; vm_compute; repeat split; auto. Qed.
Lemma ends_resolves : exists r, dget String.eqb "ends" (own_rules latn) = Some r /\ resolves_rule sample_db (own_classes latn) (own_rules latn) r.
Proof.
  eexists. split; [vm_compute; reflexivity|].
  assert (V : denotes sample_db (own_classes latn) (ClPlain None None (Some "vowel") None []) (fun x => (x <= 40)%N /\ In x [1; 5]%N)).
  { eapply D_tag; [vm_compute; reflexivity|]. apply D_literal. intro x. tauto. }
  apply V_children. intros m [<-|[<-|[]]]; [|constructor]. apply V_rule. eapply V_by_ref; [vm_compute; reflexivity|]. apply V_children. intros m [<-|[<-|[]]].
  - apply (V_class _ _ _ _ _ (fun x => (x <= 40)%N /\ ~ ((x <= 40)%N /\ In x [1; 5]%N))). eapply D_by_ref; [vm_compute; reflexivity|]. apply (D_complement _ _ _ _ (fun x => (x <= 40)%N /\ In x [1; 5]%N)); [|intro x; reflexivity].
    eapply D_by_ref; [vm_compute; reflexivity|]. unfold named_tag. eapply D_tag; [vm_compute; reflexivity|]. apply D_literal. intro x. tauto.
  - eapply V_class. exact V.
Qed.


(** The merged rules as objects of their own. *)
Definition set_id (i : nat) (r : rule) : rule := match r with Rule _ n b ch => Rule i n b ch end.
Fixpoint numbered (i : nat) (d : rtable) : rtable := match d with [] => [] | (k, r) :: d' => (k, set_id i r) :: numbered (1 + i) d' end.
Definition fresh_rules : rtable := numbered 20 (merged_rules both_tags pair_set).
Lemma numbered_reread : forall d i, reread d (numbered i d).
Proof.
  induction d as [|[k r] d IH]; intros i n; [exact I|]. cbn [numbered dget]. destruct (String.eqb n k); [|apply IH]. cbn [both].
  destruct r as [j nm b ch]. pose proof (rule_refl (Rule j nm b ch)) as H. inversion H; subst. constructor; assumption.
Qed.
Definition merged_obj (i : nat) : option rule := find (fun r => Nat.eqb (r_id r) i) (Rule 11 None (Some "und-Latn-pair") [] :: map snd fresh_rules).
Lemma merged_owned : owned_rules merged_obj fresh_rules.
Proof. intros n r H. apply find_In in H. vm_compute in H. repeat (destruct H as [<-|H]); try contradiction; vm_compute; repeat split; reflexivity. Qed.
Lemma merged_shaped : shaped_table (merged_classes both_tags pair_set).
Proof. intros n c H. apply find_In in H. vm_compute in H. repeat (destruct H as [<-|H]); try contradiction; vm_compute; repeat split; auto. Qed.
Lemma good_by : forall u look c (Q : N -> Prop) x, shaped c -> denotes u look c Q -> Q x -> good_class u look c.
Proof. intros u look c Q x Hs D Hx. split; [exact Hs|]. intros P DP. exists x. apply (denotes_unique _ _ _ _ _ D DP). exact Hx. Qed.
Lemma good_missing : forall u look b, dget String.eqb b look = None -> good_class u look (ClPlain None (Some b) None None []).
Proof. intros u look b E. split; [exact I|]. intros P D. inversion D; subst. congruence. Qed.
Lemma tag_good : forall look t n l x, dget String.eqb (tag_classname t) look = Some (ClPlain n None None None l) -> (x <= 40)%N -> In x l -> good_class sample_db look (ClPlain None None (Some t) None []).
Proof.
  intros look t n l x E Hx Hi. apply (good_by _ _ _ (fun x => (x <= 40)%N /\ In x l) x); [exact I| |auto]. eapply D_tag; [exact E|]. apply D_literal. intro y. reflexivity.
Qed.
Lemma ref_good : forall look b n t m l x, dget String.eqb b look = Some (ClPlain n None (Some t) None []) -> dget String.eqb (tag_classname t) look = Some (ClPlain m None None None l) -> (x <= 40)%N -> In x l ->
  good_class sample_db look (ClPlain None (Some b) None None []).
Proof.
  intros look b n t m l x E0 E Hx Hi. apply (good_by _ _ _ (fun x => (x <= 40)%N /\ In x l) x); [exact I| |auto]. eapply D_by_ref; [exact E0|]. eapply D_tag; [exact E|]. apply D_literal. intro y. reflexivity.
Qed.
Lemma other_good : forall look a k b n t m l, dget String.eqb a look = Some (ClComb k Complement [ClPlain None (Some b) None None []]) -> dget String.eqb b look = Some (ClPlain n None (Some t) None []) ->
  dget String.eqb (tag_classname t) look = Some (ClPlain m None None None l) -> ~ In 40%N l -> good_class sample_db look (ClPlain None (Some a) None None []).
Proof.
  intros look a k b n t m l E1 E0 E Hi. apply (good_by _ _ _ (fun x => (x <= 40)%N /\ ~ ((x <= 40)%N /\ In x l)) 40%N); [exact I| |split; [apply N.le_refl|tauto]].
  eapply D_by_ref; [exact E1|]. apply (D_complement _ _ _ _ (fun x => (x <= 40)%N /\ In x l)); [|intro y; reflexivity]. eapply D_by_ref; [exact E0|]. eapply D_tag; [exact E|]. apply D_literal. intro y. reflexivity.
Qed.
Ltac goods := repeat match goal with |- _ /\ _ => split | |- True => exact I | |- _ <> [] => discriminate end.
Lemma own_good : good_rules sample_db (own_classes latn) (own_rules latn).
Proof.
  intros n r H. apply find_In in H. vm_compute in H. repeat (destruct H as [<-|H]); try contradiction; cbn [good_rule good_matcher good_count]; goods;
  first [apply (ref_good _ _ (Some "vowels") "vowel" (Some "vowel") [1; 5]%N 1%N); [vm_compute; reflexivity|vm_compute; reflexivity|discriminate|left; reflexivity]
        |apply (other_good _ _ (Some "consonants") "vowels" (Some "vowels") "vowel" (Some "vowel") [1; 5]%N); [vm_compute; reflexivity|vm_compute; reflexivity|vm_compute; reflexivity|cbn; intuition discriminate]
        |apply (tag_good _ _ (Some "vowel") [1; 5]%N 1%N); [vm_compute; reflexivity|discriminate|left; reflexivity]
        |apply (tag_good _ _ (Some "mark") [30]%N 30%N); [vm_compute; reflexivity|discriminate|left; reflexivity]].
Qed.
Lemma merged_good : good_rules sample_db (merged_classes both_tags pair_set) fresh_rules.
Proof.
  intros n r H. apply find_In in H. vm_compute in H. repeat (destruct H as [<-|H]); try contradiction; cbn [good_rule good_matcher good_count]; goods;
  first [apply (ref_good _ _ (Some "und-Latn-vowels") "und-Latn-vowel" (Some "und-Latn-vowel") [5; 1]%N 1%N); [vm_compute; reflexivity|vm_compute; reflexivity|discriminate|right; left; reflexivity]
        |apply (ref_good _ _ (Some "und-Grek-vowels") "und-Grek-vowel" (Some "und-Grek-vowel") [9]%N 9%N); [vm_compute; reflexivity|vm_compute; reflexivity|discriminate|left; reflexivity]
        |apply (other_good _ _ (Some "und-Latn-consonants") "und-Latn-vowels" (Some "und-Latn-vowels") "und-Latn-vowel" (Some "und-Latn-vowel") [5; 1]%N); [vm_compute; reflexivity|vm_compute; reflexivity|vm_compute; reflexivity|cbn; intuition discriminate]
        |apply (tag_good _ _ (Some "und-Latn-vowel") [5; 1]%N 1%N); [vm_compute; reflexivity|discriminate|right; left; reflexivity]
        |apply (tag_good _ _ (Some "und-Latn-mark") [30]%N 30%N); [vm_compute; reflexivity|discriminate|left; reflexivity]
        |apply good_missing; vm_compute; reflexivity].
Qed.

From Verif Require Import CharModel RepSpec LgrModel MergeSpec MergeWitness.
Lemma tags_sample : exists st ch, merge_given [latin; greek] = Ok st /\ lookup (lg_rep (mg_lgr st)) [1%N] = Some ch /\
  In "und-Latn-vowel" (ch_tags ch) /\ In "und-Grek-letter" (ch_tags ch) /\ scripts_apart (get_script latin) (get_script greek).
Proof.
  eexists. eexists. split; [vm_compute; reflexivity|]. split; [vm_compute; reflexivity|]. split; [vm_compute; tauto|]. split; [vm_compute; tauto|]. is_apart.
Qed.
