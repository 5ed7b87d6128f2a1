(* Specification vocabulary for the ageing optimizer. *)
From Verif Require Import PyNum PyList PyMon PyRng M_Matching M_Rule M_Mixing M_Solution S_Solution M_Sas.

(* just born (or just cloned) *)
Definition newborn (s : hst sas_sol) (r : nat) : Prop := has_ext s r 3%Z.
Definition alive (s : hst sas_sol) (r : nat) : Prop := exists age, has_ext s r age /\ (0 < age)%Z.
(* fitted, so that it has a fitness *)
Definition measured (s : hst sas_sol) (r : nat) : Prop := exists f, has_fit s r f.
