(* C77: fit notices exactly the settings without a variant for the representation, and the repository's own configurations behave as its tests expect. *)
From Coq Require Import Lia Permutation.
From Verif Require Import PyNum PyList PyMon PyRng L_Num M_Matching M_Rule L_RuleProps M_RuleGen M_Mixing M_Discovery S_Discovery L_DiscoveryEx M_Novelty S_Novelty M_Solution M_Composition M_GenomeOps M_GA M_Fit S_Fit L_FitEx M_Shipped S_Shipped L_ShippedEx M_Logging M_Defaults
  S_Live M_Tested S_Tested L_LiveEx L_Tested L_TestedNs L_TestedMix.

(* the evolution strategy: fit never raises; it learns if the initialisation and the mutation have a variant for the representation and step
   sizes that are not negative, otherwise the estimator is marked as failed *)
Theorem C77_es_decides : forall (L : learner) rngof c mu k K (O : optimizer K) i cc mix f (G : logger L) p os clean X y d (e : est (es_discovery L rngof c k) (shipped_composition L rngof O i cc mix f) G),
  es_mut c = Mut mu -> init_suits (d_init (es_d c)) (d_type (es_d c)) -> mutation_suits mu (d_type (es_d c)) -> es_sel c <> RRoulette ->
  (es_operator c = EsAnd -> (0 < es_delay c)%nat /\ (es_delay c < es_iter c)%nat) -> (0 < es_iter c)%nat -> (0 < es_lambda c)%nat ->
  working_composer f cc O i -> mixing_works mix -> table d X y -> X <> [] -> d <> 0%nat -> usable (d_accept (es_d c)) -> given_dim d k ->
  seedable (random_state p) -> working_logger L G -> (0 < n_iter p)%nat -> (0 < n_rules p)%nat -> (n_initial p = 0 \/ (step e < n_iter p /\ ~ asks (d_origin (es_d c))))%nat ->
  exists e', fit p os clean X y e = (Ok tt, e') /\ M_Fit.is_fitted e' = true /\
    ((init_works (d_init (es_d c)) (d_type (es_d c)) /\ mutation_works mu (d_type (es_d c))) /\ learned_model d e' \/
     ~ (init_works (d_init (es_d c)) (d_type (es_d c)) /\ mutation_works mu (d_type (es_d c))) /\ gave_up d e').
Proof. exact @es_decides. Qed.
Print Assumptions C77_es_decides.
(* random search: the same for its initialisation *)
Theorem C77_rs_decides : forall (L : learner) rngof c k K (O : optimizer K) i cc mix f (G : logger L) p os clean X y d (e : est (rs_discovery L rngof c k) (shipped_composition L rngof O i cc mix f) G),
  init_suits (d_init (rs_d c)) (d_type (rs_d c)) -> (0 < rs_generated c)%nat ->
  working_composer f cc O i -> mixing_works mix -> table d X y -> X <> [] -> d <> 0%nat -> usable (d_accept (rs_d c)) -> given_dim d k ->
  seedable (random_state p) -> working_logger L G -> (0 < n_iter p)%nat -> (0 < n_rules p)%nat -> (n_initial p = 0 \/ (step e < n_iter p /\ ~ asks (d_origin (rs_d c))))%nat ->
  exists e', fit p os clean X y e = (Ok tt, e') /\ M_Fit.is_fitted e' = true /\
    (init_works (d_init (rs_d c)) (d_type (rs_d c)) /\ learned_model d e' \/ ~ init_works (d_init (rs_d c)) (d_type (rs_d c)) /\ gave_up d e').
Proof. exact @rs_decides. Qed.
Print Assumptions C77_rs_decides.
(* one setting of each kind: a step size below zero, a mutation without a variant, and a pair that works *)
Example C77_decides_satisfiable :
  init_suits (NormalInit (Scalar (-1))) OrderedBound /\ ~ init_works (NormalInit (Scalar (-1))) OrderedBound /\
  mutation_suits (MutUniformIncrease (Scalar 1)) UnorderedBound /\ ~ mutation_works (MutUniformIncrease (Scalar 1)) UnorderedBound /\
  init_suits (NormalInit (Pair 1 2)) CenterSpread /\ init_works (NormalInit (Pair 1 2)) CenterSpread /\ mutation_suits (MutHalfnormIncrease (Pair 1 2)) CenterSpread /\ mutation_works (MutHalfnormIncrease (Pair 1 2)) CenterSpread /\
  working_composer small_error default_ccfg ga_o tt /\ mixing_works mix1 /\ table 1 dx dyy /\ dx <> [] /\ usable (Variance 1) /\ given_dim 1 default_constraint /\ working_logger ML (stdout_logger ML (mkRng (fun _ => 0) 0)) /\
  seedable (random_state tested_params) /\ (0 < n_iter tested_params)%nat /\ (0 < n_rules tested_params)%nat /\ n_initial tested_params = 0%nat.
Proof.
  split; [exact I|]. split; [intros H; apply H; reflexivity|]. split; [exact I|]. split; [intros []|]. split; [exact I|]. split; [split; discriminate|]. split; [exact I|]. split; [split; discriminate|].
  split; [apply ga_works|]. split; [exact I|]. split; [exact dx_table|]. split; [discriminate|]. split; [intros H; apply qeq_iff in H; discriminate H|]. split; [exact I|]. split; [apply Logs_stdout|].
  split; [exact I|]. split; [cbn; lia|]. split; [cbn; lia|reflexivity].
Qed.
(* novelty search, with a selection that always finds two parents: fit never raises; it learns if initialisation, crossover and mutation have a
   variant for the representation, otherwise the estimator is marked as failed *)
Theorem C77_ns_decides : forall (L : learner) rngof c mu k K (O : optimizer K) i cc mix f (G : logger L) p os clean X y d (e : est (ns_discovery L rngof c k) (shipped_composition L rngof O i cc mix f) G),
  (forall m a, exists q, rfitness L m a = Fin q) ->
  ns_mut c = Mut mu -> init_suits (d_init (ns_d c)) (d_type (ns_d c)) -> crossing_suits (ns_rate c) (d_type (ns_d c)) -> mutation_suits mu (d_type (ns_d c)) -> ns_sel c <> RRoulette ->
  (0 < ns_iter c)%nat -> (2 <= ns_mu c)%nat -> (ns_k c + 2 < ns_lambda c)%nat -> type_ok (ns_type c) ->
  working_composer f cc O i -> mixing_works mix -> table d X y -> X <> [] -> d <> 0%nat -> usable (d_accept (ns_d c)) -> given_dim d k ->
  seedable (random_state p) -> working_logger L G -> (0 < n_iter p)%nat -> (0 < n_rules p)%nat -> (n_initial p = 0 \/ (step e < n_iter p /\ ~ asks (d_origin (ns_d c))))%nat ->
  let good := init_works (d_init (ns_d c)) (d_type (ns_d c)) /\ crossing_works (ns_rate c) (d_type (ns_d c)) /\ mutation_works mu (d_type (ns_d c)) in
  exists e', fit p os clean X y e = (Ok tt, e') /\ M_Fit.is_fitted e' = true /\ (good /\ learned_model d e' \/ ~ good /\ gave_up d e').
Proof. exact @ns_decides. Qed.
Print Assumptions C77_ns_decides.
(* the default settings, and centres and spreads, which cannot be crossed *)
Example C77_ns_satisfiable :
  let c := mkNs (mkDcfg OrderedBound (HalfnormInit (1 # 10)) (Clip []) (Variance 1) (SquaredError true)) 10 16 160 15 10 false (1 # 5) (Mut (MutNormal (Scalar (1 # 10)))) RRandom NBasic TBasic ANovel 15 in
  Forall (fun c => init_suits (d_init (ns_d c)) (d_type (ns_d c)) /\ crossing_suits (ns_rate c) (d_type (ns_d c)) /\ ns_sel c <> RRoulette /\ (0 < ns_iter c)%nat /\ (2 <= ns_mu c)%nat /\ (ns_k c + 2 < ns_lambda c)%nat /\ type_ok (ns_type c)) [c; ns_centres] /\
  crossing_works (ns_rate c) (d_type (ns_d c)) /\ ~ crossing_works (ns_rate ns_centres) (d_type (ns_d ns_centres)) /\ usable (d_accept (ns_d c)) /\ crossing_suits 0 MinPercentage /\ crossing_works 0 MinPercentage.
Proof.
  intros c. split; [|split; [left; reflexivity|split; [intros [H|H]; [discriminate|apply H; reflexivity]|]]].
  - repeat apply Forall_cons; [| |apply Forall_nil]; (split; [exact I|]).
    + split; [left; reflexivity|]. split; [discriminate|]. split; [cbn; lia|]. split; [cbn; lia|]. split; [cbn; lia|exact I].
    + split; [right; right; discriminate|]. split; [discriminate|]. split; [cbn; lia|]. split; [cbn; lia|]. split; [cbn; lia|exact I].
  - split; [intros H; apply qeq_iff in H; discriminate H|]. split; [right; left; discriminate|right; discriminate].
Qed.
(* all combinations of tests/test_matching_functions.py: the estimator is marked as failed for exactly those for which the test allows an
   error, whatever the data, the seed and the local model; but no call of fit raises, so the handler of the test is never entered *)
Theorem C77_matching_suite : forall t mu i, In (t, mu, i) matching_suite -> forall (L : learner) rngof f g os clean X y d (e : est (tested_discovery L rngof t mu i) (tested_composition L rngof f) (stdout_logger L g)),
  table d X y -> X <> [] -> d <> 0%nat ->
  exists e', fit tested_params os clean X y e = (Ok tt, e') /\ M_Fit.is_fitted e' = true /\ is_error e' = wanted_error t mu i /\ if wanted_error t mu i then gave_up d e' else learned_model d e'.
Proof. exact matching_suite_decided. Qed.
Print Assumptions C77_matching_suite.
(* all combinations of tests/test_ns.py learn *)
Theorem C77_novelty_suite : forall c, In c novelty_suite -> forall (L : learner) rngof f g os clean X y d (e : est (ns_discovery L rngof c default_constraint) (default_composition L rngof f) (tested_logger L g)),
  (forall m a, exists q, rfitness L m a = Fin q) -> table d X y -> X <> [] -> d <> 0%nat ->
  exists e', fit ns_params os clean X y e = (Ok tt, e') /\ M_Fit.is_fitted e' = true /\ learned_model d e'.
Proof. exact novelty_suite_learns. Qed.
Print Assumptions C77_novelty_suite.
(* and so do the other tests and the examples, with any logger of the library *)
Theorem C77_examples : forall x, In x examples -> forall (L : learner) rngof f (G : logger L) os clean X y d (e : est (example_discovery L rngof x) (example_composition L rngof x f) G),
  working_logger L G -> table d X y -> X <> [] -> d <> 0%nat ->
  exists e', fit (x_params x) os clean X y e = (Ok tt, e') /\ M_Fit.is_fitted e' = true /\ learned_model d e'.
Proof. exact examples_learn. Qed.
Print Assumptions C77_examples.
Example C77_suites_satisfiable :
  length matching_suite = 60%nat /\ length (filter (fun x => wanted_error (fst (fst x)) (snd (fst x)) (snd x)) matching_suite) = 20%nat /\
  In (UnorderedBound, MutHalfnormIncrease (Scalar 2), MeanInit) matching_suite /\ In (MinPercentage, MutUniform (Pair 2 2), NormalInit (Pair (1 # 10) (1 # 10))) matching_suite /\
  length novelty_suite = 36%nat /\ In (tested_ns NPareto 20 (TLocal 15) ANone) novelty_suite /\ length examples = 9%nat /\ (forall m a, exists q, rfitness mean_learner m a = Fin q) /\ table 2 [[0; 1]; [2; 3]] [5; 7].
Proof.
  split; [reflexivity|]. split; [reflexivity|]. split; [cbn; tauto|]. split; [cbn; tauto|]. split; [reflexivity|]. split; [cbn; tauto|]. split; [reflexivity|].
  split; [intros m a; eexists; reflexivity|]. split; [repeat constructor|reflexivity].
Qed.

(* tests/test_mixing_model.py, for the hundred rules in any order and every random generator (for any number of rules and of places): the
   fittest four come in ascending order of fitness; four different rules are drawn; the wheel draws four rules, none of fitness 0 *)
Theorem C77_mixing_filters : forall (L : learner) n k (rs : list (rule L)) g, shuffled n rs -> (0 < k < n)%nat ->
  (exists out, apply_filter L (NBestFitness k) rs g = (Ok out, g) /\ Forall2 numbered (seq (n - k) k) out) /\
  (exists out g', apply_filter L (NRandom k) rs g = (Ok out, g') /\ length out = k /\ exists rest, Permutation rs (out ++ rest)) /\
  (exists out g', apply_filter L (RouletteWheel k) rs g = (Ok out, g') /\ length out = k /\ Forall (fun r => exists j, (0 < j)%nat /\ (j < n)%nat /\ numbered j r) out).
Proof. intros L n k rs g HS Hk. split; [|split]; [apply best_of; [exact HS|lia]|apply (random_of L n); assumption|apply wheel_of; assumption]. Qed.
Print Assumptions C77_mixing_filters.
Theorem C77_mixing_experiences : forall (L : learner) (rs : list (rule L)), shuffled 100 rs ->
  (forall dim, Permutation (experiences ExpAsIs dim rs) (map qofnat (seq 0 100))) /\
  (forall dim i, (i < 100)%nat -> let c := CapExperience (Some (qofnat i / 2)) (Some (qofnat i)) in largest (qofnat i) (experiences c dim rs) /\ smallest (qofnat i / 2) (experiences c dim rs)) /\
  (let c := CapExperienceWithDimensionality (Some 5) (Some 20) in Forall (fun t : nat * nat * nat => let '(dim, hi, lo) := t in largest (qofnat hi) (experiences c dim rs) /\ smallest (qofnat lo) (experiences c dim rs)) [(2, 40, 10); (4, 80, 20); (6, 99, 30)]%nat).
Proof. intros L rs HS. split; [|split]; [intros dim; apply as_is; exact HS|intros dim i Hi; apply capped_test; assumption|apply dims_test; exact HS]. Qed.
Print Assumptions C77_mixing_experiences.
Example C77_mixing_satisfiable : shuffled 100 (rev (map (test_rule mean_learner) (seq 0 100))).
Proof. apply test_rules. Qed.
