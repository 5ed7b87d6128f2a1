(* Specification vocabulary for the ant colony. *)
From Verif Require Import PyNum PyList PyMon PyRng M_Matching M_Rule M_Mixing M_Solution M_Aco.

Definition in_range (lo hi : Q) (x : num) : Prop := exists q, x = Fin q /\ lo <= q <= hi.
Definition in_range_or_nan (lo hi : Q) (x : num) : Prop := x = NaN \/ in_range lo hi x.
(* one (deselect, select) pair for each of the n rules; all values satisfy P *)
Definition pairs_for (P : num -> Prop) (n : nat) (rows : list (num * num)) : Prop :=
  length rows = n /\ Forall (fun t => P (fst t) /\ P (snd t)) rows.
(* one pair for each of the n * n pairs of rules *)
Definition square_for (P : num -> Prop) (n : nat) (m : list (list (num * num))) : Prop :=
  length m = n /\ Forall (pairs_for P n) m.
(* the solution fitness is always a number *)
Definition finite_fit {L} (E : env L) : Prop := forall e k j, exists q, efit E e k j = Fin q.
(* the rules have been fitted and their fitness is a number *)
Definition measured {L} (pool : list (rule L)) (fs : list Q) : Prop :=
  Forall2 (fun r q => fitness_of L r = Ok (Fin q)) pool fs.
(* not all equally fit; all equally fit *)
Definition varied (fs : list Q) : Prop := exists f f', In f fs /\ In f' fs /\ f < f'.
Definition all_same (fs : list Q) : Prop := forall f f', In f fs -> In f' fs -> f == f'.
Definition positive (x : num) : Prop := exists q, x = Fin q /\ 0 < q.
(* positive numbers have positive powers and roots *)
Definition pow_pos (A : amath) : Prop := forall x a, 0 < x -> exists y, m_pow A (Fin x) a = Fin y /\ 0 < y.
Definition sqrt_pos (A : amath) : Prop := forall x, 0 < x -> exists y, m_sqrt A (Fin x) = Fin y /\ 0 < y.
