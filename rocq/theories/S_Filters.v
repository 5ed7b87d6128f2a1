(* Specification vocabulary for the random filters of the mixing model. *)
From Coq Require Import Permutation.
From Verif Require Import PyNum PyList PyMon PyRng M_Matching M_Rule M_Mixing.

Section Spec.
Variable L : learner.
(* k different members, in some order *)
Definition some_of (k : nat) (rs out : list (rule L)) : Prop := length out = k /\ exists rest, Permutation rs (out ++ rest).
(* measured, with a fitness that is a number of at least zero; with a positive one *)
Definition graded (r : rule L) : Prop := exists a q, att r = Some a /\ fitness a = Fin q /\ 0 <= q.
Definition promising (r : rule L) : Prop := exists a q, att r = Some a /\ fitness a = Fin q /\ 0 < q.
Definition hopeless (r : rule L) : Prop := exists a q, att r = Some a /\ fitness a = Fin q /\ q == 0.
Definition unmatched (r : rule L) : Prop := exists a, att r = Some a /\ fitness a = NInf.
(* graded rules, separated *)
Inductive separated : list (rule L) -> list (rule L) -> Prop :=
| sep_nil : separated [] []
| sep_take r rs good : promising r -> separated rs good -> separated (r :: rs) (r :: good)
| sep_skip r rs good : hopeless r -> separated rs good -> separated (r :: rs) good.
End Spec.
