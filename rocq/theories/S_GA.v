(* Specification vocabulary for the genetic algorithm. *)
From Verif Require Import PyNum M_GenomeOps M_GA.
(* the same configuration with another number of generations *)
Definition with_iter (c : gcfg) (i : nat) : gcfg := mkG i (g_size c) (g_ratio c) (g_sel c) (g_x c) (g_xrate c) (g_mrate c).
