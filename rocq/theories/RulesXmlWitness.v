(** Sample <rules> sections. *)
From Coq Require Import Ascii.
From Verif Require Import Base BaseFacts UtilsModel ClassModel ClassSpec RuleModel ActionModel
  Rfc7940Model SerialModel RulesXmlModel RulesXmlSpec RulesXmlClass RulesXmlRule RulesXmlFinal RulesXmlSection RulesXmlDoc RulesXmlTrip.
Open Scope string_scope.
Open Scope list_scope.

Definition el (n : string) (a : dict string string) (ch : list xelem) : xelem := XElem LgrNs n a None ch.
Definition tx (n : string) (a : dict string string) (t : string) : xelem := XElem LgrNs n a (Some (txt t)) [].
Definition u0 : unidb := mkDb 200 (fun _ _ => None).
Definition vowel : xelem := tx "class" [("name", "vowel")] " 0061 0065-0066 ".
Definition digit09 : xelem := el "class" [("name", "digit")] [el "range" [("first-cp", "0030"); ("last-cp", "0039")] []; el "char" [("cp", "0061")] []].
Definition ends : xelem := el "rule" [("name", "ends")]
  [el "start" [] []; el "class" [("by-ref", "vowel"); ("count", "1+")] []; el "foo" [] []; el "end" [] []].
Definition both : xelem := el "union" [("name", "both")] [el "class" [("by-ref", "vowel")] []; el "class" [("by-ref", "digit")] []].
Definition outer : xelem := el "rule" [("name", "outer")]
  [el "choice" [] [el "rule" [("by-ref", "ends")] []; el "char" [("cp", "0062"); ("count", "2:3")] []]].
Definition act : xelem := el "action" [("disp", "valid"); ("match", "ends"); ("any-variant", "blocked allocatable")] [].
Definition foreign : xelem := XElem (OtherNs "urn:x") "class" [("name", "vowel")] None [].
Definition section : list xelem := [vowel; ends; digit09; foreign; both; act; outer].
Definition start : rread := fresh_read [("parse_xml", true)].
Definition blank : ruleset := before_rules [("tag", [97%N])].
Definition got {A} (x : res A) (d : A) : A := match x with Ok a => a | Raise _ => d end.
Definition section_of (db : option unidb) : ruleset * rread := got (process_rules db 30 false section blank start) (blank, start).
Lemma section_ok : forall db, In db [None; Some u0] -> process_rules db 30 false section blank start = Ok (section_of db).
Proof. intros db [<-|[<-|[]]]; vm_compute; reflexivity. Qed.
Lemma section_qualified : Forall qualified section.
Proof. repeat (constructor; try discriminate). Qed.
Lemma section_new : new_names (ru_classes blank) section.
Proof.
  intros pre e post n H En. change (class_elems section) with [vowel; digit09; both] in H.
  assert (T : forall t, n = tag_classname t -> In n ["vowel"; "digit"; "both"] -> False).
  { intros t -> Ht. cbn in Ht. repeat (destruct Ht as [Ht|Ht]; [discriminate Ht|]). exact Ht. }
  destruct pre as [|a [|b [|c pre]]]; cbn [app] in H; [injection H as <- <-|injection H as <- <- <-|injection H as <- <- <- <-|exfalso; injection H as <- <- <- H; destruct pre; discriminate H];
    cbn in En; injection En as <-; (split; [reflexivity|]); (split; [intros [t Ht]; apply (T t Ht); cbn; tauto|]); intros x Hx; cbn in Hx;
    repeat (destruct Hx as [<-|Hx]; [discriminate|]); destruct Hx.
Qed.
Lemma section_rules : map fst (ru_rules (fst (section_of None))) = ["ends"; "outer"] /\ map fst (ru_classes (fst (section_of None))) = [tag_classname "tag"; "vowel"; "digit"; "both"] /\
  rd_results (snd (section_of None)) = [("parse_xml", false)].
Proof. vm_compute. auto. Qed.
Lemma section_matches :
  let g := fst (section_of (Some u0)) in let s := snd (section_of (Some u0)) in
  option_map (fun r => map (fun w => snd (rule_matches u0 (ru_classes g) (ru_rules g) 30 r w None 0 (rd_cache s))) [[97; 101]; [98]]%N)
    (dget String.eqb "ends" (ru_rules g)) = Some [Ok true; Ok false].
Proof. vm_compute. reflexivity. Qed.

(** ** What does not hold *)
Definition lost : xelem := el "rule" [("name", "r")] [el "class" [("by-ref", "none")] []].
Lemma forced_with_database : exists l g s u fuel, Forall readable_elem l /\ (exists p, process_rules None fuel true l g s = Ok p) /\
  process_rules (Some u) fuel true l g s = Raise (RuleError "none").
Proof.
  exists [lost], blank, start, u0, 30%nat. assert (E : exists p, process_rules None 30 true [lost] blank start = Ok p) by (eexists; vm_compute; reflexivity).
  split; [apply (proj1 (section_forced _ _ _ _) E)|]. split; [exact E|vm_compute; reflexivity].
Qed.
Definition odd_union : xelem := el "union" [("name", "odd")] [vowel; el "foo" [] []].
Lemma unknown_crashes : process_rules None 30 true [el "foo" [] []; vowel] blank start <> Raise TypeError /\
  process_rules None 30 true [odd_union] blank start = Raise TypeError /\
  process_rules None 30 true [el "class" [("name", "odd")] [el "foo" [] []]] blank start = Raise TypeError.
Proof. repeat split; vm_compute; try reflexivity; discriminate. Qed.
Definition again (t : string) : xelem := tx "class" [("name", "A")] t.
Definition uses_A : xelem := el "rule" [("name", "R")] [el "class" [("by-ref", "A")] []].
Definition redefining : list xelem := [again "0061"; uses_A; again "0062"].
Definition matched (u : unidb) (fuel : nat) (g : ruleset) (s : rread) (n : string) (w : cps) : option (res bool) :=
  option_map (fun r => snd (rule_matches u (ru_classes g) (ru_rules g) fuel r w None 0 (rd_cache s))) (dget String.eqb n (ru_rules g)).
Lemma stale_after_writing : exists u fuel l g s g' s' t' n w, Forall qualified l /\
  process_rules (Some u) fuel false l g s = Ok (g', s') /\ process_rules (Some u) fuel false (serialize_rules g') g s = Ok (g', t') /\
  matched u fuel g' s' n w = Some (Ok true) /\ matched u fuel g' t' n w = Some (Ok false).
Proof.
  set (p := got (process_rules (Some u0) 30 false redefining blank start) (blank, start)).
  set (q := got (process_rules (Some u0) 30 false (serialize_rules (fst p)) blank start) (blank, start)).
  exists u0, 30%nat, redefining, blank, start, (fst p), (snd p), (snd q), "R", [97%N].
  split; [repeat (constructor; try discriminate)|]. repeat split; vm_compute; reflexivity.
Qed.
Definition bare : xelem := el "rule" [("name", "R")] [el "start" [] []; XElem NoNs "end" [] None []].
Lemma unqualified_changes : exists l g s g' s' g'' t', process_rules None 30 false l g s = Ok (g', s') /\
  process_rules None 30 false (serialize_rules g') g s = Ok (g'', t') /\
  dget String.eqb "R" (ru_rules g') = Some (Rule 0 (Some "R") None [MStart]) /\
  dget String.eqb "R" (ru_rules g'') = Some (Rule 0 (Some "R") None [MStart; MEnd]).
Proof.
  set (p := got (process_rules None 30 false [bare] blank start) (blank, start)).
  set (q := got (process_rules None 30 false (serialize_rules (fst p)) blank start) (blank, start)).
  exists [bare], blank, start, (fst p), (snd p), (fst q), (snd q). repeat split; vm_compute; reflexivity.
Qed.
