(* Specification vocabulary for the self-adapting genetic algorithms. *)
From Verif Require Import PyNum PyList PyMon PyRng PyStat M_Matching M_Rule M_Mixing M_Solution S_Solution M_GenomeOps S_GenomeOps M_GA M_Saga.

Definition within (lo hi q : Q) : Prop := lo <= q <= hi.
(* a finite value in the interval; NaN and the infinities are not *)
Definition nwithin (lo hi : Q) (x : num) : Prop := exists q, x = Fin q /\ within lo hi q.

(* saga1: both rates between their configured bounds *)
Definition s1_within (c : s1cfg) (r : rates) : Prop :=
  within (s1_mmin c) (s1_mmax c) (r_mut r) /\ within (s1_cmin c) (s1_cmax c) (r_cross r).
(* bounds are not negative, multipliers increase *)
Definition s1_sane (c : s1cfg) : Prop := 1 <= s1_mmult c /\ 1 <= s1_cmult c /\ 0 <= s1_mmin c /\ 0 <= s1_cmin c.

(* saga2: all that is assumed of sqrt, of cos(pi/2 x) on [0, 1) and of exp(-10) *)
Definition trig_ok (t : trig) : Prop :=
  (forall q, 0 < q -> exists x, t_sqrt t (Fin q) = Fin x /\ 0 < x /\ x * x <= q + 1) /\
  (forall q, 0 <= q < 1 -> exists x, t_cos t (Fin q) = Fin x /\ 0 < x <= 1) /\
  0 < t_tiny t < 1.
Definition s2_within (c : s2cfg) (r : rates2) : Prop :=
  nwithin (s2_cmin c) (s2_cmax c) (cur_cmin r) /\ nwithin (s2_mmin c) (s2_mmax c) (cur_mmax r).

(* saga3: the rates a solution carries *)
Definition params_ok (p : params) : Prop := within 0 1 (p_cross p) /\ within 0 1 (p_mut p).

(* the fittest go through unchanged, new objects join them; all are measured *)
Definition elitists_kept {K L} (E : env L) (size : nat) (ratio : Q) (s s' : hst K) (pop pop' : list nat) : Prop :=
  exists el new, pop' = el ++ new /\ fittest_k s (n_elitists size ratio) pop el /\
    length new = (2 * (size / 2))%nat /\ Forall (fun r => ~ live s r) new /\ Forall (honest E s') pop' /\
    (forall r bits a, In r el -> shows s r bits a -> shows s' r bits a).
