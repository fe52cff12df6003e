(** What the annotation tool does to the files, and what the merge tool prints. *)
From Verif Require Import Base CharModel RepSpec ActionModel LabelModel LabelSpec CliModel CliLabel AnnotateModel AnnotateSpec AnnToolModel.
Open Scope string_scope.
Open Scope list_scope.

(** Only the file [name] differs; it holds [l]. *)
Definition only_changed (st st' : files) (name : string) (l : list cps) : Prop :=
  dget String.eqb name st' = Some l /\ forall f, f <> name -> dget String.eqb f st' = dget String.eqb f st.
(** The last LGR of the set whose first language is the script. *)
Definition last_speaker (script : string) (gs : list tool_lgr) (g : tool_lgr) : Prop :=
  exists l1 l2, gs = l1 ++ g :: l2 /\ speaks script g /\ forall x, In x l2 -> ~ speaks script x.
(** The LGRs of the files. *)
Definition members (read_file : string -> res (option tool_lgr)) (fs : list string) (gs : list tool_lgr) : Prop :=
  Forall2 (fun f g => read_file f = Ok (Some g)) fs gs.
Definition passes (schema : option (string -> bool)) (f : string) : Prop :=
  match schema with Some ok => ok f = true | None => True end.

(** Text between quotes, without an end of line, ending with one. *)
Definition quoted (text : cps) : Prop :=
  exists q body, text = 98%N :: q :: body ++ [q; 10]%N /\ (q = 34 \/ q = 39)%N /\ ~ In 10%N body.
