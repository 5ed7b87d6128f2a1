(* Properties C12 and C18: fitness values. *)
From Coq Require Import Reals Qreals.
From Verif Require Import PyNum PyMon M_Matching S_Matching M_Fitness S_Fitness L_Fitness.
From Coq Require Import Lra.
Open Scope R_scope.

(* ----- C12: rule fitness ----- *)
Theorem C12_rule_fitness_range_partial : forall k space m e,
  rule_params_ok k -> 0 <= e -> (0 < space_volume space)%Q ->
  mt m <> MinPercentage -> proper m -> inside space m ->
  exists f, rule_fitness k space (Q2R (volume m)) e = Ok (Some f) /\ 0 <= f <= 100.
Proof. exact rule_fitness_in_range. Qed.
Print Assumptions C12_rule_fitness_range_partial.
(* smaller error and larger volume never make the fitness smaller *)
Theorem C12_rule_fitness_monotone : forall k space vol vol' e e' f f',
  rule_params_ok k -> (0 < space_volume space)%Q -> 0 <= e' -> e' <= e -> 0 <= vol -> vol <= vol' ->
  rule_fitness k space vol e = Ok (Some f) -> rule_fitness k space vol' e' = Ok (Some f') -> f <= f'.
Proof. exact rule_fitness_monotone. Qed.
Print Assumptions C12_rule_fitness_monotone.
Theorem C12_rule_fitness_best : forall k space,
  rule_params_ok k -> (0 < space_volume space)%Q -> rule_fitness k space (Q2R (space_volume space)) 0 = Ok (Some 100).
Proof. exact rule_fitness_best. Qed.
Print Assumptions C12_rule_fitness_best.
(* min-percentage rules report too large a volume and get more than 100 *)
Theorem C12_range_min_percentage_refuted : exists a m space e f,
  0 <= a <= 1 /\ mt m = MinPercentage /\ proper m /\ inside space m /\ (0 < space_volume space)%Q /\ 0 <= e /\
  rule_fitness (VolumeEmary a) space (Q2R (volume m)) e = Ok (Some f) /\ 100 < f.
Proof. exact minpct_above_100. Qed.
Print Assumptions C12_range_min_percentage_refuted.
(* a constant feature makes the volume-based fitness a division by zero *)
Theorem C12_flat_space_not_a_number : forall k space vol e,
  k <> PseudoAccuracy -> (space_volume space == 0)%Q -> rule_fitness k space vol e = Ok None.
Proof. exact rule_fitness_flat. Qed.
Print Assumptions C12_flat_space_not_a_number.
Example C12_satisfiable :
  let space := [((-(1))%Q, 1%Q); (0%Q, 4%Q)] in let m := mkMatching OrderedBound [(0%Q, 1%Q); (1%Q, 3%Q)] in
  rule_params_ok (VolumeEmary (99/100)) /\ rule_params_ok (VolumeWu (5/100)) /\ (0 < space_volume space)%Q /\
  mt m <> MinPercentage /\ proper m /\ inside space m /\
  (space_volume [(1%Q, 1%Q); (0%Q, 4%Q)] == 0)%Q.
Proof.
  split; [simpl; lra|]. split; [simpl; lra|]. split; [reflexivity|]. split; [discriminate|].
  split; [repeat constructor; simpl; Lqa.lra|]. split; [repeat constructor; simpl; Lqa.lra|]. reflexivity.
Qed.

(* ----- C18: solution fitness ----- *)
Theorem C18_solution_fitness_range : forall k n e c s,
  sol_params_ok k -> 0 <= e -> (0 < n)%nat -> (c <= n)%nat ->
  exists f, sol_fitness k n e c s = Ok (Some f) /\ 0 <= f <= 100.
Proof. exact sol_fitness_in_range. Qed.
Print Assumptions C18_solution_fitness_range.
(* a smaller error is strictly better as long as not every possible rule is selected *)
Theorem C18_error_strict_partial : forall k n e e' c s s' f f',
  sol_params_ok k -> 0 <= e' -> e' < e -> (c < n)%nat ->
  sol_fitness k n e c s = Ok (Some f) -> sol_fitness k n e' c s' = Ok (Some f') -> f < f'.
Proof. exact sol_fitness_error_mono. Qed.
Print Assumptions C18_error_strict_partial.
Theorem C18_complexity_strict : forall k n e c c' s s' f f',
  sol_params_ok k -> 0 <= e -> (c' < c)%nat -> (c <= n)%nat ->
  sol_fitness k n e c s = Ok (Some f) -> sol_fitness k n e c' s' = Ok (Some f') -> f < f'.
Proof. exact sol_fitness_complexity_mono. Qed.
Print Assumptions C18_complexity_strict.
(* Wu with every rule selected ignores the error *)
Theorem C18_error_strict_refuted : exists n e e' s f, (0 < n)%nat /\ 0 <= e' /\ e' < e /\
  sol_fitness (ComplexityWu (3/10)) n e n s = Ok (Some f) /\ sol_fitness (ComplexityWu (3/10)) n e' n s = Ok (Some f).
Proof. exact wu_full_not_strict. Qed.
Print Assumptions C18_error_strict_refuted.
(* the pseudo-BIC also prefers the smaller error and the fewer rules, at equal genome length (at least two) *)
Theorem C18_bic_strict : forall n e e' c c' s f f',
  (1 < s)%nat -> 0 < e' -> e' <= e -> (c' <= c)%nat -> (e' < e \/ (c' < c)%nat) ->
  sol_fitness PseudoBIC n e c s = Ok (Some f) -> sol_fitness PseudoBIC n e' c' s = Ok (Some f') -> f < f'.
Proof. exact bic_strict. Qed.
Print Assumptions C18_bic_strict.
(* growing the pool (zero padding) does not change the fitness *)
Theorem C18_genome_length_irrelevant : forall k n e c s s', sol_params_ok k -> sol_fitness k n e c s = sol_fitness k n e c s'.
Proof. exact sol_fitness_size_irrelevant. Qed.
Print Assumptions C18_genome_length_irrelevant.
(* ... unlike the pseudo-BIC *)
Theorem C18_genome_length_bic_refuted : exists n e c s f f', (s < 5)%nat /\ sol_fitness PseudoBIC n e c s = Ok (Some f) /\
  sol_fitness PseudoBIC n e c (s + 1) = Ok (Some f') /\ f' < f.
Proof. exact bic_size_matters. Qed.
Print Assumptions C18_genome_length_bic_refuted.
Example C18_satisfiable : sol_params_ok (ComplexityEmary (85/100)) /\ sol_params_ok (ComplexityWu (3/10)) /\
  0 <= 1/3 /\ 1/3 < 1/2 /\ (2 < 3)%nat /\ (3 <= 8)%nat /\
  exists f f', sol_fitness PseudoBIC 8 (1/2) 3 8 = Ok (Some f) /\ sol_fitness PseudoBIC 8 (1/3) 2 8 = Ok (Some f').
Proof. simpl. repeat split; try lra; try (repeat constructor; fail). eexists; eexists; split; reflexivity. Qed.
