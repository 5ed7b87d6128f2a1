(* Parameter ranges of the fitness functions. *)
From Coq Require Import Reals.
From Verif Require Import M_Fitness.
Open Scope R_scope.

(* emary: a weight in [0,1]; wu: any non-zero alpha *)
Definition rule_params_ok (k : rule_fitness_kind) : Prop :=
  match k with PseudoAccuracy => True | VolumeEmary a => 0 <= a <= 1 | VolumeWu a => a <> 0 end.
(* strict preferences need both objectives to count; the pseudo-BIC has no range *)
Definition sol_params_ok (k : sol_fitness_kind) : Prop :=
  match k with PseudoBIC => False | ComplexityEmary a => 0 < a < 1 | ComplexityWu a => a <> 0 end.
