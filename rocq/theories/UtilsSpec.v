(** Specification vocabulary for collapsed ranges. *)
From Verif Require Import Base.

(** All the code points a list of inclusive ranges stands for. *)
Definition expand_ranges_list (rs : list (N * N)) : list N :=
  flat_map (fun p => nrange (fst p) (snd p)) rs.

(** Disjoint and not adjacent, in increasing order. *)
Definition separated (a b : N * N) : Prop := snd a + 1 < fst b.

