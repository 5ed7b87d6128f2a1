(* C69: rates, pheromones and means in double precision. *)
From Coq Require Import Permutation.
From Verif Require Import PyNum PyFloat PyList PyMon M_FloatFitness M_FloatRates S_Float S_FloatRates L_FloatFitnessEx L_FloatRates L_FloatRatesEx.

(* saga1: whatever is rounded and whatever the diversity in each generation, the rates stay between their limits. *)
Theorem C69_saga1_rates_in_range : forall c, sane_range c -> forall gdms r, rates_within c r -> double (fst r) -> double (snd r) -> exists r', fadjusts c gdms r = Ok r' /\ rates_within c r'.
Proof. exact adjusts_all. Qed.
Print Assumptions C69_saga1_rates_in_range.
Example C69_saga1_rates_in_range_ex : sane_range default_range /\ rates_within default_range (d10 (25 # 1000), d10 (75 # 100)) /\ double (d10 (25 # 1000)) /\ double (d10 (75 # 100)) /\
  fadjusts default_range [Fin 1; Fin 1; Fin 0; NaN] (d10 (25 # 1000), d10 (75 # 100)) <> Ok (d10 (25 # 1000), d10 (75 # 100)).
Proof. exact default_range_ex. Qed.

(* ... and move in the documented direction: low diversity (a high measure) means more mutation and less crossover. *)
Theorem C69_saga1_direction : forall c gdm r r', sane_range c -> rates_within c r -> double (fst r) -> double (snd r) -> fadjust c gdm r = Ok r' ->
  (nlt (v_max c) gdm = true -> nle (fst r) (fst r') = true /\ nle (snd r') (snd r) = true) /\
  (nlt (v_max c) gdm = false -> nlt gdm (v_min c) = true -> nle (fst r') (fst r) = true /\ nle (snd r) (snd r') = true) /\
  (nlt (v_max c) gdm = false -> nlt gdm (v_min c) = false -> r' = r).
Proof. exact adjust_direction. Qed.
Print Assumptions C69_saga1_direction.
Example C69_saga1_direction_ex : fadjust default_range (Fin (1 # 2)) (d10 (25 # 1000), d10 (75 # 100)) =
  Ok (pymin (m_max default_range) (fmul (d10 (25 # 1000)) (d10 (11 # 10))), pymax (c_min default_range) (fdiv (d10 (75 # 100)) (d10 (11 # 10)))).
Proof. exact direction_ex. Qed.

(* Full property: saga2's rates lie between their limits.  Proved: up to a relative excess of 3 * 2^-53, whatever the mean. *)
Theorem C69_saga2_mutation_rate_partial : forall lo hi mean fmx f, double_upto 1 lo -> double_upto 1 hi -> nle lo hi = true -> double_upto 100 mean -> double_upto 100 fmx -> double_upto 100 f -> nle f fmx = true ->
  nle lo (fmrate lo hi mean fmx f) = true /\ nle (fmrate lo hi mean fmx f) (nadd hi (nmul (Fin (3 * (2 # 1) ^ (-53))) hi)) = true.
Proof. exact mutation_rate_bound. Qed.
Print Assumptions C69_saga2_mutation_rate_partial.
Theorem C69_saga2_crossover_rate_partial : forall lo hi mean fmn fmx fa fb, double_upto 1 lo -> double_upto 1 hi -> nle lo hi = true -> double_upto 100 mean -> double_upto 100 fmn -> double_upto 100 fmx ->
  within (fmn, fmx) fa -> within (fmn, fmx) fb ->
  nle (nsub lo (nmul (Fin (3 * (2 # 1) ^ (-53))) hi)) (fxrate lo hi mean fmn fmx fa fb) = true /\ nle (fxrate lo hi mean fmn fmx fa fb) hi = true.
Proof. exact crossover_rate_bound. Qed.
Print Assumptions C69_saga2_crossover_rate_partial.
Example C69_saga2_rates_ex : double_upto 1 (d10 (4 # 10)) /\ double_upto 1 (d10 (9 # 10)) /\ nle (d10 (4 # 10)) (d10 (9 # 10)) = true /\ double_upto 100 (d10 (51 # 10)) /\ double_upto 100 (d10 (13 # 10)) /\ double_upto 100 (d10 (99 # 10)) /\
  within (d10 (13 # 10), d10 (99 # 10)) (d10 (7 # 1)) /\ within (d10 (13 # 10), d10 (99 # 10)) (d10 (13 # 10)).
Proof. exact rate_ex. Qed.
Theorem C69_mutation_rate_above_maximum_refuted : exists lo hi mean fmx f, double_upto 1 lo /\ double_upto 1 hi /\ nle lo hi = true /\ double_upto 100 mean /\ double_upto 100 fmx /\ double_upto 100 f /\ nle f fmx = true /\
  nlt hi (fmrate lo hi mean fmx f) = true.
Proof. exact above_maximum. Qed.
Print Assumptions C69_mutation_rate_above_maximum_refuted.
Theorem C69_crossover_rate_below_minimum_refuted : exists lo hi mean fmn fmx fa fb, double_upto 1 lo /\ double_upto 1 hi /\ nle lo hi = true /\ double_upto 100 mean /\ double_upto 100 fmn /\ double_upto 100 fmx /\
  within (fmn, fmx) mean /\ within (fmn, fmx) fa /\ within (fmn, fmx) fb /\ nlt (fxrate lo hi mean fmn fmx fa fb) lo = true.
Proof. exact below_minimum. Qed.
Print Assumptions C69_crossover_rate_below_minimum_refuted.

(* Full property: a mean (of fitness values, logged or compared with) lies between the smallest and the largest value and is their exact mean.  Proved: up to 2 n 2^-53 times the largest value. *)
Theorem C69_mean_partial : forall t fs lo hi, fs <> [] -> (Z.of_nat (length fs) <= 2 ^ 20)%Z -> Forall dyadic fs -> 0 <= lo -> hi <= 100 -> Forall (fun q => lo <= q <= hi) fs -> Permutation (leaves t) (map Fin fs) ->
  exists m, fmean t (length fs) = Fin m /\ Qabs (m - qsum fs / qofnat (length fs)) <= 2 * qofnat (length fs) * (2 # 1) ^ (-53) * hi + (2 # 1) ^ (-1075) /\
    lo - 2 * qofnat (length fs) * (2 # 1) ^ (-53) * hi - (2 # 1) ^ (-1075) <= m <= hi + 2 * qofnat (length fs) * (2 # 1) ^ (-53) * hi + (2 # 1) ^ (-1075).
Proof. exact mean_close. Qed.
Print Assumptions C69_mean_partial.
Example C69_mean_partial_ex : some_fitness <> [] /\ (Z.of_nat (length some_fitness) <= 2 ^ 20)%Z /\ Forall dyadic some_fitness /\ 0 <= 3 # 4 /\ 5 # 2 <= 100 /\ Forall (fun q => 3 # 4 <= q <= 5 # 2) some_fitness /\
  Permutation (leaves (Plus (Leaf (Fin (5 # 2))) (Plus (Leaf (Fin (3 # 4))) (Leaf (Fin (9 # 8)))))) (map Fin some_fitness).
Proof. exact mean_ex. Qed.

(* Of equally fit solutions the mean can exceed the maximum: the diversity measure of saga1 exceeds 1, and saga2 mutates with the largest instead of the smallest rate
   and crosses with the smallest instead of the largest (0.4 and 0.9 by default). *)
Theorem C69_equally_fit_refuted : exists f t n, double_upto 100 f /\ Permutation (leaves t) (repeat f n) /\ nlt f (fmean t n) = true /\ nlt (Fin 1) (fgdm t n f) = true /\
  (forall lo hi, fmrate lo hi (fmean t n) f f = hi) /\
  neqb (fxrate (round (Fin (4 # 10))) (round (Fin (9 # 10))) (fmean t n) f f f f) (round (Fin (4 # 10))) = true.
Proof. exact equally_fit. Qed.
Print Assumptions C69_equally_fit_refuted.

(* Ant colony: whatever is rounded, and even if a sum overflows, every pheromone lies between its limits afterwards. *)
Theorem C69_pheromones_in_range : forall evaporation lo hi deltas p, double_upto 1 evaporation -> finite lo -> finite hi -> nle lo hi = true -> amount lo -> finite p -> amount p -> Forall amount deltas ->
  within (lo, hi) (fpheromone evaporation lo hi deltas p).
Proof. exact pheromone_bound. Qed.
Print Assumptions C69_pheromones_in_range.
Example C69_pheromones_in_range_ex : double_upto 1 (d10 (1 # 10)) /\ finite (d10 (1 # 2)) /\ finite (d10 50) /\ nle (d10 (1 # 2)) (d10 50) = true /\ amount (d10 (1 # 2)) /\ Forall amount [d10 (33 # 10); PInf] /\
  fpheromone (d10 (1 # 10)) (d10 (1 # 2)) (d10 50) [] (d10 (1 # 2)) = d10 (1 # 2).
Proof. exact pheromone_ex. Qed.

(* Where no ant leaves anything the pheromone does not rise; what ants leave never lowers it. *)
Theorem C69_pheromone_direction : forall evaporation lo hi deltas p, double_upto 1 evaporation -> finite lo -> finite hi -> nle lo hi = true -> amount lo -> finite p -> within (lo, hi) p -> Forall amount deltas ->
  nle (fpheromone evaporation lo hi [] p) p = true /\ nle (fpheromone evaporation lo hi [] p) (fpheromone evaporation lo hi deltas p) = true.
Proof. exact pheromone_direction. Qed.
Print Assumptions C69_pheromone_direction.
Example C69_pheromone_direction_ex : within (d10 (1 # 2), d10 50) (d10 (7 # 2)) /\ nlt (fpheromone (d10 (1 # 10)) (d10 (1 # 2)) (d10 50) [] (d10 (7 # 2))) (d10 (7 # 2)) = true /\
  nlt (d10 (7 # 2)) (fpheromone (d10 (1 # 10)) (d10 (1 # 2)) (d10 50) [d10 (33 # 10); d10 (1 # 10)] (d10 (7 # 2))) = true.
Proof. exact (conj (conj eq_refl eq_refl) (conj eq_refl eq_refl)). Qed.
