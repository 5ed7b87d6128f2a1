(* Specification vocabulary for predictions of single samples and whole batches. *)
From Verif Require Import PyNum PyList PyMon PyRng M_Matching M_Rule M_Mixing.

(* filters without a generator *)
Definition steady (f : sfilter) : Prop := match f with KeepAll | NBestFitness _ => True | NRandom _ | RouletteWheel _ => False end.
(* every sample has d features *)
Definition width_of (d : nat) (X : matrix) : Prop := Forall (fun x : row => length x = d) X.
(* the same numbers *)
Definition same_numbers : list Q -> list Q -> Prop := Forall2 Qeq.
