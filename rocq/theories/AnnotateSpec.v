(** Specification of what a line of a label list stands for and of what the
    annotation of a label must show. *)
From Verif Require Import Base CharModel RepSpec ActionModel ActionSpec LabelModel LabelSpec UtilsModel CollisionModel AnnotateModel.

Definition blank (s : cps) : Prop := Forall (fun c => is_space c = true) s.

(** Neither starts nor ends with whitespace. *)
Definition trimmed (s : cps) : Prop :=
  (forall c t, s = c :: t -> is_space c = false) /\ (forall t c, s = t ++ [c] -> is_space c = false).

(** The text of a line: without byte order marks in front, surrounding
    whitespace and the comment that starts at the first '#'. *)
Definition content_of (line text : cps) : Prop :=
  exists k pre post tail,
    line = repeat bom k ++ pre ++ text ++ post ++ tail /\ blank pre /\ blank post /\
    (tail = [] \/ exists t, tail = hash_mark :: t) /\
    ~ In hash_mark text /\ trimmed text /\ (pre = [] -> forall t, text <> bom :: t).

(** A line holding a comment only. *)
Definition comment_only (line : cps) : Prop := exists k pre t, line = repeat bom k ++ pre ++ hash_mark :: t /\ blank pre.

(** Text starting with xn--, in any case. *)
Definition a_label (s : cps) : Prop :=
  exists x n t, s = x :: n :: 45 :: 45 :: t /\ (x = 120 \/ x = 88) /\ (n = 110 \/ n = 78).
(** Text containing U+ or u+. *)
Definition mentions_u_plus (s : cps) : Prop := exists p u t, s = p ++ u :: 43 :: t /\ (u = 85 \/ u = 117).

(** What a text is read as. *)
Definition read_as (decode : cps -> res cps) (text label : cps) : Prop :=
  (a_label text /\ decode text = Ok label) \/
  (~ a_label text /\ (In 32 text \/ mentions_u_plus text) /\ parse_codepoint_input text = Ok label) \/
  (~ a_label text /\ ~ In 32 text /\ ~ mentions_u_plus text /\ label = text).

Definition read_properly (decode : cps -> res cps) (text : cps) (x : reading) : Prop :=
  rd_text x = text /\
  ((rd_valid x = true /\ rd_error x = None /\ read_as decode text (rd_label x)) \/
   (rd_valid x = false /\ (exists e, rd_error x = Some e) /\ rd_label x = text /\ forall l, ~ read_as decode text l)).

(** The readings given by one line. *)
Definition line_reading (decode : cps -> res cps) (keep_commented : bool) (line : cps) (xs : list reading) : Prop :=
  exists text, content_of line text /\
    (text <> [] -> exists x, xs = [x] /\ read_properly decode text x) /\
    (text = [] -> (keep_commented = false \/ ~ comment_only line -> xs = []) /\
                  (keep_commented = true -> comment_only line -> exists x, xs = [x] /\ rd_valid x = true /\ rd_label x = rd_text x)).

(** Rules have names (an empty name counts as no rule in part of the code). *)
Definition rules_named (r : repertoire) : Prop :=
  forall ch, entry r ch -> ch_when ch <> Some ""%string /\ ch_not_when ch <> Some ""%string.

Definition reason_note (p : N * option (list (option string))) (n : note) : Prop :=
  match snd p with
  | None => n = NotInRepertoire_ (fst p)
  | Some l => exists names, n = BreaksRules (fst p) names /\ l = map Some names
  end.

(** The disposition [d] of a label; [inv]: the code points at fault; [by_]: the
    number and content of the action that decided, if any. *)
Definition outcome (rm : rule_oracle) (r : repertoire) (acts : list action) (label : cps)
  (d : option string) (inv : list (N * option (list (option string)))) (by_ : option (nat * action)) : Prop :=
  exists chars, longest_match rm r label 0 chars inv /\
    match by_ with
    | None => inv <> [] /\ d = Some "invalid"%string
    | Some (i, a) => inv = [] /\ d = Some (a_disp a) /\
        exists ds only, (forall t, In t ds <-> self_type rm r label t) /\
          (only = true <-> ds <> [] /\ all_self_mapped rm r label) /\ decided_by rm acts label ds only a i
    end.

(** The lines for one reading: a refused text with its error, or the label with
    its disposition, then the code points at fault with the reasons, or the
    action that refused it, except the very first action. *)
Definition annotation (rm : rule_oracle) (r : repertoire) (acts : list action) (x : reading) (ns : list note) : Prop :=
  (rd_valid x = false /\ ns = [Refused (rd_text x) (rd_error x)]) \/
  (rd_valid x = true /\ exists d inv by_ rest, outcome rm r acts (rd_label x) d inv by_ /\
     ns = Verdict (rd_label x) d NoCollision :: rest /\
     match by_ with
     | None => Forall2 reason_note inv rest
     | Some (i, a) => rest = (if String.eqb (a_disp a) "invalid" then match i with O => [] | _ => [ByRule (Z.of_nat i) a] end else [])
     end).

Definition is_rule_note (n : note) : bool := match n with ByRule _ _ => true | _ => false end.

(** The lines for one reading with a set of labels; the rule shown is left out. *)
Definition set_annotation_lines (rm : rule_oracle) (r : repertoire) (acts : list action)
  (index : cps -> res cps) (listing : cps -> list cps -> list (cps * option string) * res unit)
  (kept : list cps) (x : reading) (ns : list note) : Prop :=
  (rd_valid x = false /\ ns = [Refused (rd_text x) (rd_error x)]) \/
  (rd_valid x = true /\ exists d inv by_ v rest, outcome rm r acts (rd_label x) d inv by_ /\
     ns = Verdict (rd_label x) d v :: rest /\
     (if ostring_eqb d (Some "invalid"%string) then v = NoCollision else set_annotation index listing kept (rd_label x) = Ok v) /\
     Forall2 reason_note inv (filter (fun n => negb (is_rule_note n)) rest)).

(** The labels of the set that are kept and the lines shown for the others. *)
Inductive filtered (rm : rule_oracle) (r : repertoire) : list reading -> list cps -> list note -> Prop :=
| filtered_end : filtered rm r [] [] []
| filtered_bad : forall x l k ns, rd_valid x = false -> filtered rm r l k ns ->
    filtered rm r (x :: l) k (Refused (rd_text x) (rd_error x) :: ns)
| filtered_out : forall x l k ns chars inv, rd_valid x = true -> longest_match rm r (rd_label x) 0 chars inv -> inv <> [] ->
    filtered rm r l k ns -> filtered rm r (x :: l) k (SetInvalid (rd_label x) :: ns)
| filtered_in : forall x l k ns chars, rd_valid x = true -> longest_match rm r (rd_label x) 0 chars [] ->
    filtered rm r l k ns -> filtered rm r (x :: l) (rd_label x :: k) ns.
