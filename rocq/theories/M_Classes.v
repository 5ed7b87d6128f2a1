(* The constructors of the shipped classes that the configuration in a file may name: parameters and defaults as in __init__,
   sorted by name as get_params lists them.  Only a selection of the classes of the library. *)
From Coq Require Import String.
From Verif Require Import PyNum PyList PyMon M_Json.
Local Open Scope string_scope.

Definition opt (n : string) (d : tree) : param := mkParam n (Some d) None.
Definition req (n : string) : param := mkParam n None None.
(* default None, replaced in _validate_components *)
Definition filled (n : string) (d : tree) : param := mkParam n (Some TNone) (Some d).
Definition int (z : Z) : tree := TPrim (PInt z).
Definition flt (q : Q) : tree := TPrim (PFloat (Fin q)).
Definition txt (s : string) : tree := TPrim (PStr s).
Definition flag (b : bool) : tree := TPrim (PBool b).
Definition anything (ps : list (string * tree)) : bool := true.
Definition comp (ps : list param) : cinfo := mkInfo true ps anything.
(* classes without get_params *)
Definition other (ps : list param) : cinfo := mkInfo false ps anything.

(* sklearn 1.0, linear_model/_ridge.py: Ridge(alpha=0.01) of rule/initialization.py:45 *)
Definition ridge (alpha : Q) : tree :=
  TObj "sklearn.linear_model._ridge.Ridge"
    [("alpha", flt alpha); ("copy_X", flag true); ("fit_intercept", flag true); ("max_iter", TNone); ("normalize", txt "deprecated");
     ("positive", flag false); ("random_state", TNone); ("solver", txt "auto"); ("tol", flt (1 # 1000))].
(* rule/fitness.py:57-66 *)
Definition volume_wu (alpha : Q) : tree := TObj "suprb.rule.fitness.VolumeWu" [("alpha", flt alpha)].
(* rule/initialization.py:33-45 *)
Definition mean_init (fitness : tree) : tree :=
  TObj "suprb.rule.initialization.MeanInit" [("bounds", TNone); ("fitness", fitness); ("matching_type", TNone); ("model", ridge (1 # 100))].
(* solution/mixing_model.py:8-11, 43-46, 76-85; fitness.py:53-62 *)
Definition keep_all : tree := TObj "suprb.solution.mixing_model.FilterSubpopulation" [("random_state", int 42); ("rule_amount", int 6)].
Definition as_is : tree := TObj "suprb.solution.mixing_model.ExperienceCalculation" [("lower_bound", TPrim (PFloat NInf)); ("upper_bound", TPrim (PFloat PInf))].
Definition heuristic (calc : tree) (weight : tree) (filter : tree) : tree :=
  TObj "suprb.solution.mixing_model.ErrorExperienceHeuristic" [("experience_calculation", calc); ("experience_weight", weight); ("filter_subpopulation", filter)].
Definition complexity_wu (alpha : Q) : tree := TObj "suprb.solution.fitness.ComplexityWu" [("alpha", flt alpha)].
(* solution/initialization.py:25-32, 59-69 *)
Definition random_init (fitness mixing : tree) : tree :=
  TObj "suprb.solution.initialization.RandomInit" [("fitness", fitness); ("mixing", mixing); ("p", flt (1 # 2))].
Definition usual_init : tree := random_init (complexity_wu (3 # 10)) (heuristic as_is (int 1) keep_all).
(* optimizer/solution/archive.py, ga/selection.py:45-49, ga/crossover.py:27-32, ga/mutation.py:11-20 *)
Definition elitist : tree := TObj "suprb.optimizer.solution.archive.Elitist" [].
Definition tournament (k : Z) : tree := TObj "suprb.optimizer.solution.ga.selection.Tournament" [("k", int k)].
Definition npoint (n : Z) : tree := TObj "suprb.optimizer.solution.ga.crossover.NPoint" [("crossover_rate", flt (9 # 10)); ("n", int n)].
Definition bitflips (r : Q) : tree := TObj "suprb.optimizer.solution.ga.mutation.BitFlips" [("mutation_rate", flt r)].
(* optimizer/rule/constraint.py:23-54, acceptance.py:27-34, origin.py, selection.py:19-24, mutation.py *)
Definition no_clip : tree := TObj "suprb.optimizer.rule.constraint.Clip" [("bounds", TNone)].
Definition min_range : tree := TObj "suprb.optimizer.rule.constraint.MinRange" [("min_range", flt (1 # 1000000))].
Definition combined : tree := TObj "suprb.optimizer.rule.constraint.CombinedConstraint" [("clip", no_clip); ("min_range", min_range)].
Definition variance (beta : tree) : tree := TObj "suprb.optimizer.rule.acceptance.Variance" [("beta", beta)].
Definition matching_origin : tree := TObj "suprb.optimizer.rule.origin.Matching" [("use_elitist", flag true)].
Definition fittest : tree := TObj "suprb.optimizer.rule.selection.Fittest" [].
Definition halfnorm_increase (sigma : tree) : tree := TObj "suprb.optimizer.rule.mutation.HalfnormIncrease" [("matching_type", TNone); ("sigma", sigma)].

(* es.py:86-87: with "&" the delay must be smaller than n_iter; numbers only *)
Definition delay_fits (ps : list (string * tree)) : bool :=
  match assoc ps "operator", assoc ps "delay", assoc ps "n_iter" with
  | Some (TPrim (PStr o)), Some (TPrim (PInt d)), Some (TPrim (PInt n)) => negb (String.eqb o "&") || Z.ltb d n
  | _, _, _ => true
  end.

Definition shipped : list (string * cinfo) := [
  (* suprb.py:80-106 *)
  ("suprb.suprb.SupRB", comp [opt "early_stopping_delta" (int 0); opt "early_stopping_patience" (int (-1)); opt "logger" TNone; opt "matching_type" TNone;
     opt "n_initial_rules" (int 0); opt "n_iter" (int 32); opt "n_jobs" (int 1); opt "n_rules" (int 4); opt "random_state" TNone;
     opt "rule_discovery" TNone; opt "solution_composition" TNone; opt "verbose" (int 1)]);
  (* es.py:51-89 *)
  ("suprb.optimizer.rule.es.es.ES1xLambda", mkInfo true [opt "acceptance" (variance (int 1)); opt "constraint" combined; opt "delay" (int 146);
     opt "init" (mean_init (volume_wu (1 # 20))); opt "lmbda" (int 20); opt "mutation" (halfnorm_increase (flt (122 # 100))); opt "n_iter" (int 10000); opt "n_jobs" (int 1);
     opt "operator" (txt "&"); opt "origin_generation" matching_origin; opt "random_state" TNone; opt "selection" fittest] delay_fits);
  ("suprb.optimizer.rule.acceptance.Variance", comp [opt "beta" (int 1)]);
  ("suprb.optimizer.rule.acceptance.MaxError", comp [opt "max_error" (flt (1 # 100))]);
  ("suprb.optimizer.rule.constraint.CombinedConstraint", comp [opt "clip" TNone; opt "min_range" TNone]);
  ("suprb.optimizer.rule.constraint.Clip", comp [opt "bounds" TNone]);
  ("suprb.optimizer.rule.constraint.MinRange", comp [opt "min_range" (flt (1 # 1000000))]);
  ("suprb.optimizer.rule.origin.Matching", comp [opt "use_elitist" (flag true)]);
  ("suprb.optimizer.rule.selection.Fittest", comp []);
  ("suprb.optimizer.rule.selection.RouletteWheel", comp []);
  ("suprb.optimizer.rule.mutation.HalfnormIncrease", comp [opt "matching_type" TNone; opt "sigma" (flt (1 # 10))]);
  ("suprb.optimizer.rule.mutation.Normal", comp [opt "matching_type" TNone; opt "sigma" (flt (1 # 10))]);
  ("suprb.rule.initialization.MeanInit", comp [opt "bounds" TNone; filled "fitness" (volume_wu (1 # 20)); opt "matching_type" TNone; filled "model" (ridge (1 # 100))]);
  ("suprb.rule.fitness.VolumeWu", comp [opt "alpha" (flt (1 # 20))]);
  ("suprb.rule.fitness.PseudoAccuracy", comp []);
  ("sklearn.linear_model._ridge.Ridge", comp [opt "alpha" (flt 1); opt "copy_X" (flag true); opt "fit_intercept" (flag true); opt "max_iter" TNone; opt "normalize" (txt "deprecated");
     opt "positive" (flag false); opt "random_state" TNone; opt "solver" (txt "auto"); opt "tol" (flt (1 # 1000))]);
  (* rule/matching.py:46-55, 81-90, 128-137, 172-182; bounds has a default in OrderedBound only *)
  ("suprb.rule.matching.OrderedBound", comp [opt "bounds" (TArr [])]);
  ("suprb.rule.matching.UnorderedBound", comp [req "bounds"]);
  ("suprb.rule.matching.CenterSpread", comp [req "bounds"]);
  ("suprb.rule.matching.MinPercentage", comp [req "bounds"]);
  (* ga/base.py:37-64 *)
  ("suprb.optimizer.solution.ga.base.GeneticAlgorithm", comp [opt "archive" elitist; opt "crossover" (npoint 3); opt "elitist_ratio" (flt (17 # 100)); opt "init" usual_init;
     opt "mutation" (bitflips (1 # 1000)); opt "n_iter" (int 32); opt "n_jobs" (int 1); opt "population_size" (int 32); opt "random_state" TNone; opt "selection" (tournament 5); opt "warm_start" (flag true)]);
  ("suprb.optimizer.solution.ga.mutation.BitFlips", comp [opt "mutation_rate" (flt (5 # 100))]);
  ("suprb.optimizer.solution.ga.crossover.NPoint", comp [opt "crossover_rate" (flt (9 # 10)); opt "n" (int 2)]);
  ("suprb.optimizer.solution.ga.crossover.Uniform", comp [opt "crossover_rate" (flt (9 # 10))]);
  ("suprb.optimizer.solution.ga.selection.Tournament", comp [opt "k" (int 5)]);
  ("suprb.optimizer.solution.ga.selection.Random", comp []);
  ("suprb.optimizer.solution.archive.Elitist", comp []);
  ("suprb.solution.initialization.RandomInit", comp [filled "fitness" (complexity_wu (3 # 10)); filled "mixing" (heuristic as_is (int 1) keep_all); opt "p" (flt (1 # 2))]);
  ("suprb.solution.fitness.ComplexityWu", comp [opt "alpha" (flt (3 # 10))]);
  ("suprb.solution.fitness.PseudoBIC", comp []);
  ("suprb.solution.mixing_model.ErrorExperienceHeuristic", comp [opt "experience_calculation" as_is; opt "experience_weight" (int 1); opt "filter_subpopulation" keep_all]);
  ("suprb.solution.mixing_model.FilterSubpopulation", other [opt "random_state" (int 42); opt "rule_amount" (int 6)]);
  ("suprb.solution.mixing_model.NBestFitness", other [opt "random_state" (int 42); opt "rule_amount" (int 6)]);
  ("suprb.solution.mixing_model.NRandom", other [opt "random_state" (int 42); opt "rule_amount" (int 6)]);
  ("suprb.solution.mixing_model.RouletteWheel", other [opt "random_state" (int 42); opt "rule_amount" (int 6)]);
  ("suprb.solution.mixing_model.ExperienceCalculation", other [opt "lower_bound" (TPrim (PFloat NInf)); opt "upper_bound" (TPrim (PFloat PInf))]);
  ("suprb.solution.mixing_model.CapExperience", other [opt "lower_bound" (TPrim (PFloat NInf)); opt "upper_bound" (TPrim (PFloat PInf))]);
  ("suprb.solution.mixing_model.CapExperienceWithDimensionality", other [opt "lower_bound" (TPrim (PFloat NInf)); opt "upper_bound" (TPrim (PFloat PInf))]);
  (* saga1/base.py:41-64, mutation.py:11-20, crossover.py:27-32, selection.py:45-49 *)
  ("suprb.optimizer.solution.saga1.base.SelfAdaptingGeneticAlgorithm", comp [opt "archive" elitist;
     opt "crossover" (TObj "suprb.optimizer.solution.saga1.crossover.NPoint" [("n", int 3)]); opt "crossover_rate" (flt (3 # 4)); opt "crossover_rate_max" (flt 1); opt "crossover_rate_min" (flt (1 # 2));
     opt "crossover_rate_multiplier" (flt (11 # 10)); opt "elitist_ratio" (flt (17 # 100)); opt "init" usual_init; opt "mutation" (TObj "suprb.optimizer.solution.saga1.mutation.BitFlips" []);
     opt "mutation_rate" (flt (25 # 1000)); opt "mutation_rate_max" (flt (1 # 4)); opt "mutation_rate_min" (flt (1 # 1000)); opt "mutation_rate_multiplier" (flt (11 # 10));
     opt "n_iter" (int 32); opt "n_jobs" (int 1); opt "population_size" (int 32); opt "random_state" TNone;
     opt "selection" (TObj "suprb.optimizer.solution.saga1.selection.Tournament" [("k", int 5)]); opt "v_max" (flt (15 # 100)); opt "v_min" (flt (5 # 1000)); opt "warm_start" (flag true)]);
  ("suprb.optimizer.solution.saga1.crossover.NPoint", comp [opt "n" (int 2)]);
  ("suprb.optimizer.solution.saga1.mutation.BitFlips", comp []);
  ("suprb.optimizer.solution.saga1.selection.Tournament", comp [opt "k" (int 5)]);
  (* sas/base.py:43-55, mutation.py:12-15, crossover.py:28-33, selection.py:16, initialization.py:21-31, archive.py:12 *)
  ("suprb.optimizer.solution.sas.base.SasGeneticAlgorithm", comp [opt "archive" (TObj "suprb.optimizer.solution.sas.archive.SasElitist" []);
     opt "crossover" (TObj "suprb.optimizer.solution.sas.crossover.NPoint" [("crossover_rate", flt (9 # 10)); ("n", int 3)]);
     opt "init" (TObj "suprb.optimizer.solution.sas.initialization.SasRandomInit" [("fitness", complexity_wu (3 # 10)); ("mixing", heuristic as_is (int 1) keep_all); ("p", flt (1 # 2))]);
     opt "initial_population_size" (int 100); opt "mutation" (TObj "suprb.optimizer.solution.sas.mutation.BitFlips" [("mutation_rate", flt (1 # 1000))]);
     opt "n_iter" (int 32); opt "n_jobs" (int 1); opt "random_state" TNone; opt "selection" (TObj "suprb.optimizer.solution.sas.selection.Ageing" []); opt "warm_start" (flag true)]);
  ("suprb.optimizer.solution.sas.archive.SasElitist", comp []);
  ("suprb.optimizer.solution.sas.crossover.NPoint", comp [opt "crossover_rate" (flt (9 # 10)); opt "n" (int 2)]);
  ("suprb.optimizer.solution.sas.initialization.SasRandomInit", comp [filled "fitness" (complexity_wu (3 # 10)); filled "mixing" (heuristic as_is (int 1) keep_all); opt "p" (flt (1 # 2))]);
  ("suprb.optimizer.solution.sas.mutation.BitFlips", comp [opt "mutation_rate" (flt (5 # 100))]);
  ("suprb.optimizer.solution.sas.selection.Ageing", comp []);
  (* logging/default.py, logging/stdout.py:15-16 *)
  ("suprb.logging.default.DefaultLogger", comp []);
  ("suprb.logging.stdout.StdoutLogger", comp [opt "progress_bar" (flag true)]);
  (* numpy *)
  ("numpy.ndarray", other [req "shape"])
].
Definition library (c : string) : option cinfo := assoc shipped c.
