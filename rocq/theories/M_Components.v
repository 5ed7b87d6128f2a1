(* The parameters of the shipped classes: __init__ of each, in the order of assignment.  Ridge has one parameter here.
   Classes of the same name in different modules carry the module's name. *)
From Coq Require Import String.
From Verif Require Import PyNum PyList PyMon M_Objects.
Local Open Scope string_scope.

Definition component (ns order : list string) : classinfo := mkClass (Some ns) order [] [] [] [] ["get_params"; "set_params"] Plain.
(* with computed attributes and assertions *)
Definition checked (ns order : list string) (ps : list (string * atom)) (dv : list (string * (formula * string))) (ds : list demand) : classinfo :=
  mkClass (Some ns) order ps [] dv ds ["get_params"; "set_params"] Plain.
(* a population based composition: what its base classes take and assign (optimizer/base.py:16-18, optimizer/solution/base.py:33-46, 68-86),
   and what it assigns itself *)
Definition composition (ns own : list string) : classinfo :=
  component ns (["random_state"; "n_jobs"; "n_iter"; "init"; "archive"; "warm_start"; "population_size"] ++ own).
(* a class without get_params *)
Definition opaque : classinfo := mkClass None [] [] [] [] [] [] Plain.
(* rule/initialization.py:33-61 *)
Definition rule_init (ns order : list string) : classinfo :=
  mkClass (Some ns) order [] [("model", "Ridge"); ("fitness", "VolumeWu")] [] []
    ["get_params"; "set_params"; "generate_matching_function"; "ordered_bound"; "unordered_bound"; "centre_spread"; "min_percentage"] Initializer.
(* optimizer/rule/generation_operator.py:15-35 *)
Definition operator (ns order : list string) (ps : list (string * atom)) : classinfo :=
  mkClass (Some ns) order ps [] [] [] ["get_params"; "set_params"; "ordered_bound"; "unordered_bound"; "center_spread"; "min_percentage"] Operator.
(* solution/initialization.py:25-32 *)
Definition solution_init (ns order : list string) : classinfo :=
  mkClass (Some ns) order [] [("mixing", "ErrorExperienceHeuristic"); ("fitness", "ComplexityWu")] [] [] ["get_params"; "set_params"; "pad"] Plain.

Definition table : list (string * classinfo) := [
  (* suprb.py:80-106 *)
  ("SupRB", mkClass (Some ["early_stopping_delta"; "early_stopping_patience"; "logger"; "matching_type"; "n_initial_rules"; "n_iter"; "n_jobs"; "n_rules"; "random_state"; "rule_discovery"; "solution_composition"; "verbose"])
     ["n_iter"; "n_initial_rules"; "n_rules"; "matching_type"; "rule_discovery"; "solution_composition"; "random_state"; "verbose"; "logger"; "n_jobs"; "early_stopping_patience"; "early_stopping_delta"]
     [] [] [] [] ["fit"; "predict"; "score"; "get_params"; "set_params"; "check_early_stopping"; "step_"] Plain);
  (* optimizer/rule/es/es.py:51-89 *)
  ("ES1xLambda", checked ["acceptance"; "constraint"; "delay"; "init"; "lmbda"; "mutation"; "n_iter"; "n_jobs"; "operator"; "origin_generation"; "random_state"; "selection"]
     ["random_state"; "n_jobs"; "n_iter"; "origin_generation"; "init"; "acceptance"; "constraint"; "lmbda"; "delay"; "operator"; "mutation"; "selection"]
     [] [] [Comparable "delay"; Below (Some ("operator", "&")) ["delay"] 0 "n_iter"]);
  (* optimizer/rule/rs/rs.py:42-65 *)
  ("rule.RandomSearch", component ["acceptance"; "constraint"; "init"; "n_iter"; "n_jobs"; "origin_generation"; "random_state"; "rules_generated"; "selection"]
     ["random_state"; "n_jobs"; "n_iter"; "origin_generation"; "init"; "acceptance"; "constraint"; "selection"; "rules_generated"]);
  (* optimizer/rule/ns/ns.py:57-98 *)
  ("NoveltySearch", checked ["acceptance"; "constraint"; "crossover"; "init"; "lmbda"; "mu"; "mutation"; "n_elitists"; "n_iter"; "n_jobs"; "novelty_calculation"; "origin_generation"; "random_state"; "roh"; "selection"; "use_population_for_archive"]
     ["random_state"; "n_jobs"; "n_iter"; "origin_generation"; "init"; "acceptance"; "constraint"; "mu"; "lmbda"; "roh"; "crossover"; "mutation"; "selection"; "n_elitists"; "novelty_calculation"; "use_population_for_archive"]
     [] [] [Below None ["novelty_calculation"; "k_neighbor"] 2 "lmbda"]);
  (* optimizer/rule/ns/novelty_calculation.py:10-18, 62-110, novelty_search_type.py:16-40, archive.py *)
  ("NoveltyCalculation", component ["archive"; "k_neighbor"; "novelty_search_type"] ["novelty_search_type"; "archive"; "k_neighbor"]);
  ("ProgressiveMinimalCriteria", component ["archive"; "k_neighbor"; "novelty_search_type"] ["novelty_search_type"; "archive"; "k_neighbor"]);
  ("NoveltyFitnessPareto", component ["archive"; "k_neighbor"; "novelty_search_type"] ["novelty_search_type"; "archive"; "k_neighbor"]);
  ("NoveltyFitnessBiased", checked ["archive"; "novelty_bias"; "novelty_search_type"] ["novelty_bias"; "novelty_search_type"; "archive"] [("k_neighbor", AInt 15)] [("fitness_bias", (Complement, "novelty_bias"))] []);
  ("NoveltySearchType", component [] []); ("MinimalCriteria", component ["min_examples_matched"] ["min_examples_matched"]); ("LocalCompetition", component ["max_neighborhood_range"] ["max_neighborhood_range"]);
  ("ArchiveNovel", component [] []); ("ArchiveRandom", component [] []); ("ArchiveNone", component [] []);
  (* optimizer/rule/origin.py:42-50, selection.py, acceptance.py:17-34, constraint.py:23-54 *)
  ("Matching", component ["use_elitist"] ["use_elitist"]); ("SquaredError", component ["use_elitist"] ["use_elitist"]);
  ("UniformInputOrigin", component [] []); ("UniformSamplesOrigin", component [] []);
  ("Fittest", component [] []); ("rule.Random", component [] []); ("rule.RouletteWheel", component [] []); ("NondominatedSort", component [] []);
  ("MaxError", component ["max_error"] ["max_error"]); ("Variance", component ["beta"] ["beta"]);
  ("CombinedConstraint", component ["clip"; "min_range"] ["min_range"; "clip"]); ("Clip", component ["bounds"] ["bounds"]); ("MinRange", component ["min_range"] ["min_range"]);
  (* rule/initialization.py:33-45, 130-141, 169-178 *)
  ("MeanInit", rule_init ["bounds"; "fitness"; "matching_type"; "model"] ["bounds"; "model"; "fitness"; "matching_type"]);
  ("NormalInit", rule_init ["bounds"; "fitness"; "matching_type"; "model"; "sigma"] ["bounds"; "model"; "fitness"; "matching_type"; "sigma"]);
  ("HalfnormInit", rule_init ["bounds"; "fitness"; "matching_type"; "model"; "sigma"] ["bounds"; "model"; "fitness"; "matching_type"; "sigma"]);
  (* optimizer/rule/mutation.py:12-21, 44-48; crossover.py:9-13: UniformCrossover has no sigma *)
  ("Normal", operator ["matching_type"; "sigma"] ["matching_type"; "sigma"] []); ("Halfnorm", operator ["matching_type"; "sigma"] ["matching_type"; "sigma"] []);
  ("HalfnormIncrease", operator ["matching_type"; "sigma"] ["matching_type"; "sigma"] []); ("rule.Uniform", operator ["matching_type"; "sigma"] ["matching_type"; "sigma"] []);
  ("UniformIncrease", operator ["matching_type"; "sigma"] ["matching_type"; "sigma"] []);
  ("SigmaRange", operator ["high"; "low"; "mutation"] ["mutation"; "low"; "high"] [("matching_type", AInt 0); ("sigma", AFloat (Fin (1 # 10)))]);
  ("UniformCrossover", operator ["crossover_rate"; "matching_type"] ["matching_type"; "crossover_rate"] []);
  (* rule/fitness.py:22-66, sklearn.linear_model.Ridge *)
  ("VolumeWu", component ["alpha"] ["alpha"]); ("VolumeEmary", component ["alpha"] ["alpha"]); ("PseudoAccuracy", component [] []); ("Ridge", component ["alpha"] ["alpha"]);
  (* rule/matching.py:46-55, 81-90, 128-137, 172-182 *)
  ("OrderedBound", component ["bounds"] ["bounds"]); ("UnorderedBound", component ["bounds"] ["bounds"]); ("CenterSpread", component ["bounds"] ["bounds"]); ("MinPercentage", component ["bounds"] ["bounds"]);
  (* optimizer/solution/ga/base.py:37-64, mutation.py:11-20, crossover.py:27-32, selection.py:45-49 *)
  ("GeneticAlgorithm", component ["archive"; "crossover"; "elitist_ratio"; "init"; "mutation"; "n_iter"; "n_jobs"; "population_size"; "random_state"; "selection"; "warm_start"]
     ["random_state"; "n_jobs"; "n_iter"; "init"; "archive"; "warm_start"; "population_size"; "mutation"; "crossover"; "selection"; "elitist_ratio"]);
  (* optimizer/solution/rs/base.py:30-48 *)
  ("solution.RandomSearch", composition ["archive"; "init"; "n_iter"; "n_jobs"; "population_size"; "random_state"; "warm_start"] []);
  (* optimizer/solution/abc/base.py:38-61, aco/base.py:43-75, gwo/base.py:33-56, pso/base.py:39-65 *)
  ("ArtificialBeeColonyAlgorithm", composition ["archive"; "food"; "init"; "n_iter"; "n_jobs"; "population_size"; "random_state"; "trials_limit"; "warm_start"] ["trials_limit"; "food"]);
  ("AntColonyOptimization", composition ["archive"; "builder"; "evaporation_rate"; "init"; "max_pheromone"; "min_pheromone"; "n_iter"; "n_jobs"; "pheromones"; "population_size"; "random_state"; "selection"; "warm_start"]
     ["evaporation_rate"; "max_pheromone"; "min_pheromone"; "builder"; "selection"; "pheromones"]);
  ("GreyWolfOptimizer", composition ["archive"; "init"; "n_iter"; "n_jobs"; "n_leaders"; "population_size"; "position"; "random_state"; "warm_start"] ["n_leaders"; "position"]);
  ("ParticleSwarmOptimization", composition ["a_max"; "a_min"; "archive"; "init"; "movement"; "n_iter"; "n_jobs"; "population_size"; "random_state"; "warm_start"] ["a_min"; "a_max"; "movement"]);
  (* optimizer/solution/saga1/base.py:41-88, saga2/base.py:48-85, saga3/base.py:42-69 *)
  ("saga1.SelfAdaptingGeneticAlgorithm", composition ["archive"; "crossover"; "crossover_rate"; "crossover_rate_max"; "crossover_rate_min"; "crossover_rate_multiplier"; "elitist_ratio"; "init"; "mutation"; "mutation_rate";
      "mutation_rate_max"; "mutation_rate_min"; "mutation_rate_multiplier"; "n_iter"; "n_jobs"; "population_size"; "random_state"; "selection"; "v_max"; "v_min"; "warm_start"]
     ["v_min"; "v_max"; "mutation_rate"; "mutation_rate_min"; "mutation_rate_max"; "mutation_rate_multiplier"; "crossover_rate"; "crossover_rate_min"; "crossover_rate_max"; "crossover_rate_multiplier"; "mutation"; "crossover"; "selection"; "elitist_ratio"]);
  ("saga2.SelfAdaptingGeneticAlgorithm", checked ["archive"; "crossover"; "crossover_rate_max"; "crossover_rate_min"; "elitist_ratio"; "init"; "mutation"; "mutation_rate_max"; "mutation_rate_min"; "n_iter"; "n_jobs"; "population_size";
      "random_state"; "selection"; "warm_start"]
     ["random_state"; "n_jobs"; "n_iter"; "init"; "archive"; "warm_start"; "population_size"; "mutation_rate_min"; "mutation_rate_max"; "crossover_rate_min"; "crossover_rate_max"; "mutation"; "crossover"; "selection"; "elitist_ratio"]
     [] [("mutation_rate_current_max", (Same, "mutation_rate_max")); ("crossover_rate_current_min", (Same, "crossover_rate_min"))] []);
  ("saga3.SelfAdaptingGeneticAlgorithm", composition ["archive"; "crossover"; "elitist_ratio"; "init"; "mutation"; "n_iter"; "n_jobs"; "population_size"; "random_state"; "selection"; "warm_start"] ["mutation"; "crossover"; "selection"; "elitist_ratio"]);
  (* optimizer/solution/sas/base.py:43-69: the size of the population is set through the base class and is no parameter *)
  ("SasGeneticAlgorithm", checked ["archive"; "crossover"; "init"; "initial_population_size"; "mutation"; "n_iter"; "n_jobs"; "random_state"; "selection"; "warm_start"]
     ["random_state"; "n_jobs"; "n_iter"; "init"; "archive"; "warm_start"; "initial_population_size"; "mutation"; "crossover"; "selection"]
     [] [("population_size", (Same, "initial_population_size"))] []);
  (* their operators: optimizer/solution/saga1/crossover.py:12-45, mutation.py:13-20 (the same in saga2; saga3/solution_extension.py:31-70, mutation.py), saga3/crossover.py:9-10,
     saga3/initialization.py:24-31, saga3/archive.py, sas/crossover.py, mutation.py, selection.py:16, initialization.py:24-31, archive.py; ga/selection.py:16-49 *)
  ("saga1.NPoint", component ["n"] ["n"]); ("saga1.Uniform", component [] []); ("saga1.BitFlips", component [] []); ("saga2.NPoint", component ["n"] ["n"]); ("saga2.Uniform", component [] []); ("saga2.BitFlips", component [] []);
  ("saga3.BitFlips", component [] []); ("SagaCrossover", component ["parameter_mutation_rate"] ["parameter_mutation_rate"]);
  ("SagaRandomInit", solution_init ["fitness"; "mixing"; "p"] ["mixing"; "fitness"; "p"]); ("SagaElitist", component [] []);
  ("sas.NPoint", component ["crossover_rate"; "n"] ["crossover_rate"; "n"]); ("sas.Uniform", component ["crossover_rate"] ["crossover_rate"]); ("sas.BitFlips", component ["mutation_rate"] ["mutation_rate"]); ("Ageing", component [] []);
  ("SasRandomInit", solution_init ["fitness"; "mixing"; "p"] ["mixing"; "fitness"; "p"]); ("SasElitist", component [] []);
  ("solution.Random", component [] []); ("solution.RouletteWheel", component [] []); ("LinearRank", component [] []); ("ga.Uniform", component ["crossover_rate"] ["crossover_rate"]);
  (* optimizer/solution/abc/food.py:27-67, aco/builder.py:55-56, 131-140, aco/pheromones.py:9-16, aco/selection.py:16-17, gwo/position.py, pso/movement.py:58-61, 97, 171-173 *)
  ("abc.Sigmoid", component [] []); ("Bitwise", component [] []); ("DimensionFlips", component ["flip_rate"] ["flip_rate"]);
  ("Binary", component ["alpha"; "beta"; "tau0"] ["alpha"; "beta"; "tau0"]); ("Complete", component ["alpha"; "beta"; "tau0"; "use_partial_route"] ["alpha"; "beta"; "tau0"; "use_partial_route"]);
  ("aco.Fitness", component ["c"] ["c"]); ("NBest", component ["n"] ["n"]); ("gwo.Crossover", component [] []); ("gwo.Sigmoid", component [] []);
  ("pso.Sigmoid", component ["b"; "c"; "v_max"] ["b"; "c"; "v_max"]); ("SigmoidQuantum", component [] []); ("BinaryQuantum", component ["n_attractors"; "p_learning"] ["p_learning"; "n_attractors"]);
  ("BitFlips", component ["mutation_rate"] ["mutation_rate"]); ("NPoint", component ["crossover_rate"; "n"] ["crossover_rate"; "n"]); ("Tournament", component ["k"] ["k"]);
  (* solution/initialization.py:43-69, optimizer/solution/archive.py:10-36; Elitist starts with an empty list *)
  ("ZeroInit", solution_init ["fitness"; "mixing"] ["mixing"; "fitness"]); ("RandomInit", solution_init ["fitness"; "mixing"; "p"] ["mixing"; "fitness"; "p"]); ("Elitist", component [] []);
  (* solution/fitness.py:41-62, mixing_model.py:69-85 *)
  ("ComplexityWu", component ["alpha"] ["alpha"]); ("ComplexityEmary", component ["alpha"] ["alpha"]); ("PseudoBIC", component [] []);
  ("ErrorExperienceHeuristic", mkClass (Some ["experience_calculation"; "experience_weight"; "filter_subpopulation"]) ["filter_subpopulation"; "experience_calculation"; "experience_weight"] [("input_size", ANone)] [] [] [] ["get_params"; "set_params"] Plain);
  (* logging/default.py, stdout.py:15-16 *)
  ("DefaultLogger", component [] []); ("StdoutLogger", component ["progress_bar"] ["progress_bar"])
].
(* every other class (numpy.ndarray, FilterSubpopulation, ExperienceCalculation, ...) has no get_params *)
Definition shipped (c : string) : classinfo := match find (fun nc => String.eqb (fst nc) c) table with Some nc => snd nc | None => opaque end.
(* attributes of int, float, ... that the wrapper may meet *)
Definition plain_values (a : atom) : list string :=
  match a with AInt _ | AFloat _ | ABool _ => ["real"; "imag"; "conjugate"] | AStr _ => ["lower"; "upper"; "format"] | _ => [] end.
