(* C66, C67: what rounding does to volumes, fitness values and errors. *)
From Coq Require Import Permutation.
From Verif Require Import PyNum PyFloat PyList PyMon M_Matching M_Float M_FloatFitness S_Float L_Float L_FloatFitness L_FloatFitnessEx.

(* ----- C66: fitness in double precision ----- *)
(* The share of the input space that a rule inside it covers is a number between 0 and 1, whatever is rounded. *)
Theorem C66_share_between_0_and_1 : forall space bounds,
  Forall finite_pair space -> Forall finite_pair bounds -> Forall2 lies_in space bounds ->
  is_fin (fspace_volume space) = true -> nlt (Fin 0) (fspace_volume space) = true ->
  within (Fin 0, Fin 1) (fshare (mkF OrderedBound bounds) space).
Proof. exact share_range. Qed.
Print Assumptions C66_share_between_0_and_1.
Example C66_share_between_0_and_1_ex : Forall finite_pair unit_space /\ Forall finite_pair some_bounds /\ Forall2 lies_in unit_space some_bounds /\
  is_fin (fspace_volume unit_space) = true /\ nlt (Fin 0) (fspace_volume unit_space) = true /\ nlt (Fin 0) (fshare (mkF OrderedBound some_bounds) unit_space) = true.
Proof. exact share_ex. Qed.

(* A rule that contains another one has no smaller volume. *)
Theorem C66_wider_not_smaller : forall outer bounds,
  Forall finite_pair outer -> Forall finite_pair bounds -> Forall2 lies_in outer bounds -> is_fin (fvolume (mkF OrderedBound outer)) = true ->
  nle (fvolume (mkF OrderedBound bounds)) (fvolume (mkF OrderedBound outer)) = true.
Proof. exact volume_mono. Qed.
Print Assumptions C66_wider_not_smaller.
Example C66_wider_not_smaller_ex : Forall finite_pair more_bounds /\ Forall finite_pair some_bounds /\ Forall2 lies_in more_bounds some_bounds /\ is_fin (fvolume (mkF OrderedBound more_bounds)) = true.
Proof. exact wider_ex. Qed.

(* Full property: every fitness of a rule lies between 0 and 100.  Proved: for rules inside an input space whose volume is finite and positive,
   and with Wu's quotient for rules whose share is not 0.  exp: np.exp, of which only this is used: below -0.0002 it lies between 0 and 1 - 2^-13. *)
Theorem C66_rule_fitness_partial : forall exp error space bounds alpha,
  (forall x, nle x (fmul (Fin (-(2))) (Fin least_error)) = true -> within (Fin 0, Fin (1 - (2 # 1) ^ (-13))) (exp x)) -> nle (Fin least_error) error = true ->
  Forall finite_pair space -> Forall finite_pair bounds -> Forall2 lies_in space bounds -> is_fin (fspace_volume space) = true -> nlt (Fin 0) (fspace_volume space) = true ->
  finite alpha -> within (Fin 0, Fin 1) alpha ->
  within (Fin 0, Fin 100) (fvolume_fitness (femary alpha) (fpseudo_accuracy exp (Fin 2) error) (mkF OrderedBound bounds) space) /\
  (nlt (Fin 0) (fshare (mkF OrderedBound bounds) space) = true ->
   within (Fin 0, Fin 100) (fvolume_fitness (fwu alpha) (fpseudo_accuracy exp (Fin 2) error) (mkF OrderedBound bounds) space)).
Proof. exact volume_fitness_range. Qed.
Print Assumptions C66_rule_fitness_partial.
Example C66_rule_fitness_partial_ex :
  (forall x, nle x (fmul (Fin (-(2))) (Fin least_error)) = true -> within (Fin 0, Fin (1 - (2 # 1) ^ (-13))) (some_exp x)) /\ nle (Fin least_error) (Fin 3) = true /\
  finite (d10 (85 # 100)) /\ within (Fin 0, Fin 1) (d10 (85 # 100)).
Proof. exact (conj some_exp_law (conj eq_refl alpha_ex)). Qed.

(* The same for solutions: k of at most n rules chosen. *)
Theorem C66_solution_fitness_partial : forall exp error k n alpha,
  (forall x, nle x (fmul (Fin (-(2))) (Fin least_error)) = true -> within (Fin 0, Fin (1 - (2 # 1) ^ (-13))) (exp x)) -> nle (Fin least_error) error = true ->
  (k <= n)%nat -> (0 < n)%nat -> finite alpha -> within (Fin 0, Fin 1) alpha ->
  within (Fin 0, Fin 100) (fcomplexity_fitness (femary alpha) (fpseudo_accuracy exp (Fin 2) error) (Fin (qofnat k)) (Fin (qofnat n))) /\
  (nlt (Fin 0) (fc_norm (Fin (qofnat k)) (Fin (qofnat n))) = true ->
   within (Fin 0, Fin 100) (fcomplexity_fitness (fwu alpha) (fpseudo_accuracy exp (Fin 2) error) (Fin (qofnat k)) (Fin (qofnat n)))).
Proof. exact complexity_fitness_range. Qed.
Print Assumptions C66_solution_fitness_partial.
Example C66_solution_fitness_partial_ex :
  (forall x, nle x (fmul (Fin (-(2))) (Fin least_error)) = true -> within (Fin 0, Fin (1 - (2 # 1) ^ (-13))) (some_exp x)) /\ nle (Fin least_error) (Fin 3) = true /\
  finite (d10 (85 # 100)) /\ within (Fin 0, Fin 1) (d10 (85 # 100)) /\ (3 <= 7)%nat.
Proof. exact (conj some_exp_law (conj eq_refl (conj (proj1 alpha_ex) (conj (proj2 alpha_ex) (proj1 (Nat.leb_le 3 7) eq_refl))))). Qed.

(* Wu's quotient by itself does not stay between 0 and 1 when its two arguments do. *)
Theorem C66_wu_above_one_refuted : exists alpha x1 x2,
  finite alpha /\ finite x1 /\ finite x2 /\ within (Fin 0, Fin 1) alpha /\ within (Fin 0, Fin 1) x1 /\ within (Fin 0, Fin 1) x2 /\ nlt (Fin 1) (fwu alpha x1 x2) = true.
Proof. exact wu_above_one. Qed.
Print Assumptions C66_wu_above_one_refuted.

(* With 1024 features scaled to [-1, 1] the volume of the space overflows: the rule that covers everything has no fitness (NaN), and a rule of positive volume has share 0. *)
Theorem C66_many_features_refuted : exists space small, Forall finite_pair space /\ Forall finite_pair small /\ Forall2 lies_in space small /\ Forall2 lies_in space space /\
  (length space <= 32 * 32)%nat /\ nlt (Fin 0) (fvolume (mkF OrderedBound small)) = true /\
  fshare (mkF OrderedBound small) space = Fin 0 /\
  (forall alpha acc, is_nan (fvolume_fitness (femary alpha) acc (mkF OrderedBound space) space) = true) /\
  (forall alpha acc, is_nan (fvolume_fitness (fwu alpha) acc (mkF OrderedBound space) space) = true).
Proof. exact many_features. Qed.
Print Assumptions C66_many_features_refuted.

(* A smaller error need not give a larger fitness: np.exp is 0 below -746, so two errors above 373 give the same fitness to rules of the same volume. *)
Theorem C66_large_errors_refuted : forall exp : num -> num, (forall x, nle x (Fin (-(746))) = true -> exp x = Fin 0) ->
  exists e1 e2, finite e1 /\ finite e2 /\ nlt e1 e2 = true /\
  forall f m space, fvolume_fitness f (fpseudo_accuracy exp (Fin 2) e1) m space = fvolume_fitness f (fpseudo_accuracy exp (Fin 2) e2) m space.
Proof. exact large_errors_alike. Qed.
Print Assumptions C66_large_errors_refuted.

(* ----- C67: errors in double precision ----- *)
(* Whatever the order of the additions, the error of n samples is at least 1e-4 and is the exact mean squared error (or 1e-4) up to a relative error of (2n + 6) 2^-53. *)
Theorem C67_error_accurate : forall t y p, y <> [] -> length y = length p -> (Z.of_nat (length y) <= 2 ^ 50)%Z -> Forall moderate_value y -> Forall moderate_value p ->
  Permutation (leaves t) (fsquares (map Fin y) (map Fin p)) ->
  exists e, ferror_by t (length y) = Fin e /\ least_error <= e /\
    let exact := qmax (mean_squared y p) least_error in Qabs (e - exact) <= (2 * qofnat (length y) + 6) * (2 # 1) ^ (-53) * exact.
Proof. exact mse_error. Qed.
Print Assumptions C67_error_accurate.
Example C67_error_accurate_ex : ys <> [] /\ length ys = length ps /\ Forall moderate_value ys /\ Forall moderate_value ps /\ Permutation (leaves blocks) (fsquares (map Fin ys) (map Fin ps)).
Proof. exact error_ex. Qed.

(* Full property: the error does not depend on the order of the additions.  Proved: up to a relative difference of (4n + 12) 2^-53. *)
Theorem C67_order_partial : forall t1 t2 y p, y <> [] -> length y = length p -> (Z.of_nat (length y) <= 2 ^ 50)%Z -> Forall moderate_value y -> Forall moderate_value p ->
  Permutation (leaves t1) (fsquares (map Fin y) (map Fin p)) -> Permutation (leaves t2) (fsquares (map Fin y) (map Fin p)) ->
  exists e1 e2, ferror_by t1 (length y) = Fin e1 /\ ferror_by t2 (length y) = Fin e2 /\
    Qabs (e1 - e2) <= (4 * qofnat (length y) + 12) * (2 # 1) ^ (-53) * qmax (mean_squared y p) least_error.
Proof. exact orders_close. Qed.
Print Assumptions C67_order_partial.
Example C67_order_partial_ex : ys <> [] /\ length ys = length ps /\ Forall moderate_value ys /\ Forall moderate_value ps /\ Permutation (leaves blocks) (fsquares (map Fin ys) (map Fin ps)).
Proof. exact error_ex. Qed.

(* The same samples in another order can give another error. *)
Theorem C67_order_refuted : exists y p t1 t2, Forall finite y /\ Forall finite p /\ length y = length p /\
  Permutation (leaves t1) (fsquares y p) /\ Permutation (leaves t2) (fsquares y p) /\ nlt (ferror_by t1 (length y)) (ferror_by t2 (length y)) = true.
Proof. exact order_matters. Qed.
Print Assumptions C67_order_refuted.
