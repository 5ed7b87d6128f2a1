(* Weights from which one can draw (C68). *)
From Verif Require Import PyNum PyList S_Float.

(* at most a million weights, none of them negative, not all of them 0, and the sum far from the largest double *)
Definition usable (ws : list Q) : Prop :=
  Forall dyadic ws /\ Forall (fun w => 0 <= w) ws /\ (Z.of_nat (length ws) <= 2 ^ 20)%Z /\ 0 < qsum ws /\ qsum ws <= (2 # 1) ^ 900.
