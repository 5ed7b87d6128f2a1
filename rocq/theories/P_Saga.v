(* C27: self-adaptive rates; C50: breeding leaves the parents alone; C23 for the self-adapting variants *)
From Coq Require Import Arith.
From Verif Require Import PyNum PyList PyMon PyRng PyStat M_Matching M_Rule L_RuleProps M_Mixing M_Solution S_Solution
  L_HeapProps M_Composition M_GenomeOps S_GenomeOps L_GenomeProps M_GA M_Saga S_Saga L_Num L_SagaProps.
Open Scope Q_scope.

(* saga1: over all learning runs *)
Theorem C27_saga1_rates_in_range : forall {L} c cc (steps : list (env L * rng)) i g0 st s,
  s1_sane c -> s1_within c i ->
  compose (saga1 c) cc steps (fresh_comp (saga1 c) i) (mkH [] [] g0) = (Ok st, s) -> s1_within c (cint st).
Proof. exact @saga1_in_range. Qed.
Print Assumptions C27_saga1_rates_in_range.
(* low diversity: more mutation, less crossover; high diversity: the opposite *)
Theorem C27_saga1_direction : forall c fs r r' v, s1_sane c -> s1_within c r -> gdm fs = Ok v -> s1_adjust c fs r = Ok r' ->
  (nlt (Fin (s1_vmax c)) v = true -> r_mut r <= r_mut r' /\ r_cross r' <= r_cross r) /\
  (nlt (Fin (s1_vmax c)) v = false -> nlt v (Fin (s1_vmin c)) = true -> r_mut r' <= r_mut r /\ r_cross r <= r_cross r') /\
  (nlt (Fin (s1_vmax c)) v = false -> nlt v (Fin (s1_vmin c)) = false -> r' = r).
Proof. exact saga1_direction. Qed.
Print Assumptions C27_saga1_direction.
(* saga3: every solution that exists at any time, whether the run ends normally or not *)
Theorem C27_saga3_rates_in_unit_interval : forall {L} c cc (steps : list (env L * rng)) g0 r x,
  has_ext (snd (compose (saga3 c) cc steps (fresh_comp (saga3 c) tt) (mkH [] [] g0))) r x -> params_ok x.
Proof. exact @saga3_in_range. Qed.
Print Assumptions C27_saga3_rates_in_unit_interval.
(* saga2: the rate of one mating, for parents within the recorded statistics *)
Theorem C27_saga2_crossover_rate_in_range : forall lo hi mean fmin fmax fa fb,
  lo <= hi -> fmin <= mean <= fmax -> fmin <= fa <= fmax -> fmin <= fb <= fmax ->
  nwithin lo hi (s2_xrate (Fin lo) (Fin hi) (mkFstats (Fin mean) (Fin fmin) (Fin fmax)) (Fin fa) (Fin fb)).
Proof. exact s2_xrate_in_range. Qed.
Print Assumptions C27_saga2_crossover_rate_in_range.
(* saga2: the rate of one mutation, for children not fitter than the recorded maximum *)
Theorem C27_saga2_mutation_rate_in_range : forall lo hi mean fmin fmax f, lo <= hi -> mean <= fmax -> f <= fmax ->
  nwithin lo hi (s2_mrate (Fin lo) (Fin hi) (mkFstats (Fin mean) (Fin fmin) (Fin fmax)) (Fin f)).
Proof. exact s2_mrate_in_range. Qed.
Print Assumptions C27_saga2_mutation_rate_in_range.
(* saga2: the moving bounds, if the quality measure were in [0, 1] *)
Theorem C27_saga2_bounds_in_range : forall c q, s2_cmin c <= s2_cmax c -> s2_mmin c <= s2_mmax c -> 0 <= q <= 1 ->
  s2_within c (s2_rates c (Fin q)).
Proof. exact s2_rates_in_range. Qed.
Print Assumptions C27_saga2_bounds_in_range.
(* ... which it is not: the similarity exceeds 1, and a run of two generations leaves the range, whatever sqrt and cos *)
Theorem C27_saga2_bounds_refuted : forall t, trig_ok t ->
  exists E (s : hst plain) pop pop' r s', built s /\
    Forall (fun q => exists bits a, shows s q bits a /\ length bits = length (epool E)) pop /\
    s2_cmin cfg2 <= s2_cmax cfg2 /\ s2_mmin cfg2 <= s2_mmax cfg2 /\
    s2_run t cfg2 mean_learner E ZeroInit pop (s2_init cfg2) s = (Ok (pop', r), s') /\
    nlt (cur_cmin r) (Fin (s2_cmin cfg2)) = true /\ nlt (Fin (s2_mmax cfg2)) (cur_mmax r) = true.
Proof. exact s2_bounds_violated. Qed.
Print Assumptions C27_saga2_bounds_refuted.
(* equally fit members: 0/0, both rates become NaN *)
Theorem C27_saga2_nan_refuted : forall t, exists E (s : hst plain) pop pop' s',
  built s /\ Forall (fun q => exists bits a, shows s q bits a /\ length bits = length (epool E)) pop /\
  s2_run t cfg2 mean_learner E ZeroInit pop (s2_init cfg2) s = (Ok (pop', mkRates2 NaN NaN), s').
Proof. exact s2_nan_rates. Qed.
Print Assumptions C27_saga2_nan_refuted.
(* a child fitter than the maximum of the statistics gets a negative mutation rate *)
Theorem C27_saga2_mutation_rate_refuted : exists (E : env mean_learner) (s : hst plain) pop fs st a b c s1 s2 f fa fb rate,
  built s /\ Forall (honest E s) pop /\ In a pop /\ In b pop /\ fitnesses pop s = (Ok fs, s) /\ stats fs = Ok st /\
  has_fit s a fa /\ has_fit s b fb /\
  crossover false Uniform (s2_xrate (Fin (s2_cmin cfg2)) (Fin (s2_cmax cfg2)) st fa fb) a b s = (Ok c, s1) /\
  fit E c s1 = (Ok c, s2) /\ has_fit s2 c f /\
  s2_mrate (Fin (s2_mmin cfg2)) (Fin (s2_mmax cfg2)) st f = Fin rate /\ rate < 0 < s2_mmin cfg2.
Proof. exact s2_mrate_below_minimum. Qed.
Print Assumptions C27_saga2_mutation_rate_refuted.

(* ----- C50 ----- *)
Theorem C50_crossover_keeps_everyone : forall {K} both x rate (s : hst K) a b ba aa bb ab,
  built s -> shows s a ba aa -> shows s b bb ab -> length ba = length bb ->
  exists c s', crossover both x rate a b s = (Ok c, s') /\
    forall r bits at_ e, shows s r bits at_ -> has_ext s r e -> shows s' r bits at_ /\ has_ext s' r e.
Proof. exact @crossover_keeps. Qed.
Print Assumptions C50_crossover_keeps_everyone.
Theorem C50_mutation_keeps_everyone : forall {K} rate (s : hst K) r0 b0 a0, built s -> shows s r0 b0 a0 ->
  exists c s', bit_flips rate r0 s = (Ok c, s') /\
    forall r bits at_ e, shows s r bits at_ -> has_ext s r e -> shows s' r bits at_ /\ has_ext s' r e.
Proof. exact @bit_flips_keeps. Qed.
Print Assumptions C50_mutation_keeps_everyone.
(* saga3: without recombination the child is the parent, whose own rates are overwritten *)
Theorem C50_saga3_parent_refuted : exists pmut (s s' : hst saga_sol) a b bits at_ p p',
  built s /\ shows s a bits at_ /\ has_ext s a p /\ saga_cross pmut a b s = (Ok a, s') /\
  shows s' a bits at_ /\ has_ext s' a p' /\ ~ p_mut p == p_mut p'.
Proof. exact saga_cross_alters_parent. Qed.
Print Assumptions C50_saga3_parent_refuted.

(* ----- C23: one generation of each variant ----- *)
Theorem C23_saga1_elitists_survive : forall {L} (E : env L) c pop r (s : hst plain) z s',
  deterministic (emix E) -> (forall e k j, is_nan (efit E e k j) = false) ->
  built s -> Forall (honest E s) pop -> s1_step c E (pop, r) s = (Ok z, s') ->
  elitists_kept E (s1_size c) (s1_ratio c) s s' pop (fst z).
Proof. exact @saga1_elitists. Qed.
Print Assumptions C23_saga1_elitists_survive.
Theorem C23_saga2_elitists_survive : forall {L} (E : env L) t c z (s : hst plain) z' s',
  deterministic (emix E) -> (forall e k j, is_nan (efit E e k j) = false) ->
  built s -> Forall (honest E s) (z_pop z) -> s2_step t c E z s = (Ok z', s') ->
  elitists_kept E (s2_size c) (s2_ratio c) s s' (z_pop z) (z_pop z').
Proof. exact @saga2_elitists. Qed.
Print Assumptions C23_saga2_elitists_survive.
Theorem C23_saga3_elitists_survive : forall {L} (E : env L) c pop (s : hst saga_sol) pop' s',
  deterministic (emix E) -> (forall e k j, is_nan (efit E e k j) = false) ->
  built s -> Forall (honest E s) pop ->
  saga_generation E (s3_size c) (s3_ratio c) (s3_sel c) (saga_cross (s3_pmut c)) saga_flips pop s = (Ok pop', s') ->
  elitists_kept E (s3_size c) (s3_ratio c) s s' pop pop'.
Proof. exact @saga3_elitists. Qed.
Print Assumptions C23_saga3_elitists_survive.

(* the defaults of saga1 with a population of 4; two learning iterations end normally and the rates have moved *)
Example C27_satisfiable :
  let c := mkS1 3 4 (3#10) (SelTournament 2) Uniform (5#1000) (15#100) (1#1000) (25#100) (11#10) (1#2) 1 (11#10) in
  s1_sane c /\ s1_within c (mkRates (1#1000) (9#10)) /\
  exists st s, compose (saga1 c) (mkCcfg (RandomInit (1#2)) true true)
      [(count_env by_count, scripted [1#3; 2#3; 1#4; 3#4; 2#5; 3#7]); (count_env by_count, scripted [1#9; 2#9; 5; 7; 4#9])]
      (fresh_comp (saga1 c) (mkRates (1#1000) (9#10))) (mkH [] [] (scripted [])) = (Ok st, s) /\ 1#1000 < r_mut (cint st).
Proof.
  cbv zeta. split; [repeat split; discriminate|]. split; [repeat split; discriminate|].
  match goal with |- exists st s, ?r = _ /\ _ =>
    destruct (ran_ok r (fun st _ => qlt (1#1000) (r_mut (cint st)))) as (st & s & H1 & H2) end; [vm_compute; reflexivity|].
  exists st, s. split; [exact H1|]. apply qlt_iff. exact H2.
Qed.
(* saga3: a run that ends with parameter-carrying solutions *)
Example C27_saga3_satisfiable :
  let c := mkS3 2 2 (1#2) (SelTournament 2) (1#10) in
  exists st s x, compose (saga3 c) (mkCcfg (RandomInit (1#2)) true true) [(count_env by_count, scripted [1#3; 2#3; 1#4; 3#4; 2#5; 3#7])]
    (fresh_comp (saga3 c) tt) (mkH [] [] (scripted [])) = (Ok st, s) /\ has_ext s 3 x.
Proof.
  cbv zeta. match goal with |- exists st s x, ?r = _ /\ _ =>
    destruct (ran_ok r (fun _ s => Nat.ltb 3 (length (sols s)))) as (st & s & H1 & H2) end; [vm_compute; reflexivity|].
  exists st, s. destruct (nth_error (sols s) 3) as [o|] eqn:E.
  - exists (sext o). split; [exact H1|]. exists o. auto.
  - apply nth_error_None in E. apply Nat.ltb_lt in H2. exfalso. apply (Nat.lt_irrefl 3). eapply Nat.lt_le_trans; eauto.
Qed.
(* something that satisfies what is assumed of sqrt and cos *)
Example C27_trig_satisfiable : trig_ok (mkTrig (fun _ => Fin 1) (fun _ => Fin 1) (1#20000)).
Proof.
  split; [intros q Hq; exists 1; split; [reflexivity|split; [reflexivity|cbn; rewrite <- (Qplus_0_l (1 * 1)); apply Qplus_le_compat; [apply Qlt_le_weak; exact Hq|discriminate]]]|].
  split; [intros q _; exists 1; repeat split; discriminate|split; reflexivity].
Qed.
