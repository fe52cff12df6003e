From Verif Require Import Base BaseFacts CharModel ActionModel LabelModel RepSpec RangeProofs LabelSpec LabelFinal AnnotateModel CollisionModel CollisionSpec CollisionFinal CollisionDiff CollisionWitness CollideModel CollideSpec.
Open Scope N_scope.
Open Scope string_scope.
Open Scope list_scope.

Definition no_decode (l : cps) : res cps := Raise ValueError.
Definition as_is (s : string) : string := s.
Definition lop_index := index_of no_rules (built lop_ops) 5.
Definition lop_listing := listing_of no_rules (built lop_ops) [] (fun _ => "Latin").
Definition sample_lines : list cps := [[97; 100]; [100]; [98; 100]; [120]; [85; 43; 122]].
Definition sample_tlds : option (list cps) := Some [[99; 100]; [100]].
Definition sample_report (show : bool) := collision as_is no_decode sample_index sample_listing as_given sample_lines sample_tlds show true.

Lemma sample_shown : sample_report true =
  ([BadLabel [85; 43; 122] (Some ValueError); TldsHeader; IsTld [100]; MissingHeader; IsMissing [120]; CollisionsHeader;
    IndexHeader [97; 100]; Pair false [97; 100] CPrimary [98; 100] CPrimary; Pair true [97; 100] CPrimary [99; 100] CTld; Pair true [98; 100] CPrimary [99; 100] CTld;
    IndexHeader [100]; SummaryHeader;
    DumpHeader [97; 100]; DumpVariant CPrimary [98; 100]; DumpDisposition (Some "blocked"); DumpVariant CTld [99; 100]; DumpDisposition (Some "valid");
    CountHeader; Count "valid" 2; Count "blocked" 1;
    DumpHeader [98; 100]; DumpVariant CPrimary [97; 100]; DumpDisposition (Some "valid"); DumpVariant CTld [99; 100]; DumpDisposition (Some "valid");
    CountHeader; Count "valid" 3; DumpHeader [100]; CountHeader; Count "valid" 1], Ok tt).
Proof. vm_compute. reflexivity. Qed.

Lemma dump_announces : exists lines out a b, collision as_is no_decode lop_index lop_listing as_given lines None true true = (out, Ok tt) /\
  given no_decode lines a /\ given no_decode lines b /\ (exists f ca cb, In (Pair f a ca b cb) out) /\ ~ collide lop_index a b.
Proof.
  exists [[98]; [99]]. eexists. exists [98], [99]. split; [vm_compute; reflexivity|]. split; [eexists; split; [left; reflexivity|]; split; reflexivity|].
  split; [eexists; split; [right; left; reflexivity|]; split; reflexivity|]. split; [exists false, CPrimary, CVariant; right; right; left; reflexivity|].
  intros [_ [i [H1 H2]]]. vm_compute in H1, H2. congruence.
Qed.
Lemma dump_stops : exists lines, snd (collision as_is no_decode lop_index lop_listing as_given lines None true true) = Raise LGRException /\
  snd (collision as_is no_decode lop_index lop_listing as_given lines None false true) = Ok tt.
Proof. exists [[97]; [98]]. split; vm_compute; reflexivity. Qed.
Lemma tld_hidden : exists lines tlds out a b, collision as_is no_decode sample_index sample_listing as_given lines (Some tlds) false true = (out, Ok tt) /\
  given no_decode lines a /\ given no_decode tlds b /\ collide sample_index a b /\ forall f x cx y cy, In (Pair f x cx y cy) out -> f = false.
Proof.
  exists [[97]; [98]], [[98]]. eexists. exists [97], [98]. split; [vm_compute; reflexivity|]. split; [eexists; split; [left; reflexivity|]; split; reflexivity|].
  split; [eexists; split; [left; reflexivity|]; split; reflexivity|]. split; [split; [discriminate|]; exists [97]; split; vm_compute; reflexivity|].
  intros f x cx y cy H. cbn [In] in H. repeat (destruct H as [H|H]; [congruence|]). contradiction.
Qed.
