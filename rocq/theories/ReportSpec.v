(** What the reader of XML documents reports: vocabulary of the statements. *)
From Verif Require Import Base UtilsModel SerialModel.

(** Dictionary order. *)
Inductive before : cps -> cps -> Prop :=
| bf_end : forall y b, before [] (y :: b)
| bf_less : forall x y a b, x < y -> before (x :: a) (y :: b)
| bf_same : forall x a b, before a b -> before (x :: a) (x :: b).
Definition begins (p s : cps) : Prop := exists rest, s = p ++ rest.
(** [b] comes just after [a] in [l]. *)
Definition follows {A} (a b : A) (l : list A) : Prop := exists l1 l2, l = l1 ++ a :: b :: l2.

(** The code points of the <char> elements, in order. *)
Inductive chars_of : list data_elem -> list cps -> Prop :=
| co_end : chars_of [] []
| co_char : forall s a vs c l cs, parse_cps s = Ok c -> chars_of l cs -> chars_of (DChar s a vs :: l) (c :: cs)
| co_range : forall f la a vs l cs, chars_of l cs -> chars_of (DRange f la a vs :: l) cs
| co_other : forall l cs, chars_of l cs -> chars_of (DOther :: l) cs.
