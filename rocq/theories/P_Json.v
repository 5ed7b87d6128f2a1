(* Properties of saved configurations: C44. *)
From Coq Require Import String.
From Verif Require Import PyNum PyList PyMon M_Json M_Classes S_Json L_Json L_JsonProps L_JsonKeep L_JsonEx.
Local Open Scope string_scope.

(* C44: loading stops on every dictionary, whatever classes there are: the number of rounds is at most the number of keys *)
Theorem C44_terminates : forall classes d, load_config classes d <> Raise OutOfFuel.
Proof. exact load_fuel. Qed.
Print Assumptions C44_terminates.
Example C44_terminates_ex : load_config library (save_config library tested) = Ok (TObj "suprb.suprb.SupRB" tested_out).
Proof. exact tested_restored. Qed.

(* C44: of an orderly configuration that loads, every number and text, every None below the estimator's own parameters and the class of every object with parameters
   is there again in the same place.  What is missing: the loader fails on some configurations, and objects without parameters, arrays and None at the top do not come back. *)
Theorem C44_values_restored_partial : forall classes ps t' n path v,
  orderly classes (TObj "suprb.suprb.SupRB" ps) = true -> parametrised classes (TObj "suprb.suprb.SupRB" ps) = true ->
  load_config classes (save_config classes (TObj "suprb.suprb.SupRB" ps)) = Ok t' ->
  String.prefix "logger" n = false -> value_at classes (TObj "suprb.suprb.SupRB" ps) (n :: path) = Some v -> (path = [] -> v <> TNone) ->
  again classes v (value_at classes t' (n :: path)).
Proof. exact values_restored. Qed.
Print Assumptions C44_values_restored_partial.
Example C44_values_restored_ex :
  orderly library with_roulette = true /\ load_config library (save_config library with_roulette) = Ok (TObj "suprb.suprb.SupRB" tested_out) /\
  value_at library with_roulette ["rule_discovery"; "init"; "model"; "alpha"] = Some (flt (1 # 100)) /\
  value_at library (TObj "suprb.suprb.SupRB" tested_out) ["rule_discovery"; "init"; "model"; "alpha"] = Some (flt (1 # 100)).
Proof. split; [exact roulette_orderly|]. split; [exact roulette_lost|]. split; reflexivity. Qed.

(* C44: a configuration comes back whole, but for the logger and the contents of arrays, if arrays come first among the parameters of their object and objects without
   parameters are what their class makes without arguments and come first or are their parent's default *)
Theorem C44_restored_whole : forall classes ps i out,
  orderly classes (TObj "suprb.suprb.SupRB" ps) = true -> parametrised classes (TObj "suprb.suprb.SupRB" ps) = true ->
  classes "suprb.suprb.SupRB" = Some i -> Forall2 (survives_at_top classes) ps (cparams i) ->
  map (fun nv => (fst nv, Some (snd nv))) out = without_logger classes ps (cparams i) -> cguard i out = true ->
  load_config classes (save_config classes (TObj "suprb.suprb.SupRB" ps)) = Ok (TObj "suprb.suprb.SupRB" out).
Proof. exact restored_whole. Qed.
Print Assumptions C44_restored_whole.
Example C44_restored_whole_ex : orderly library tested = true /\
  Forall2 (survives_at_top library) (params TNone (ordered_bound (TArr [])) (int 42) usual_es (ga usual_init)) (cparams suprb_info) /\
  map (fun nv => (fst nv, Some (snd nv))) tested_out = without_logger library (params TNone (ordered_bound (TArr [])) (int 42) usual_es (ga usual_init)) (cparams suprb_info).
Proof. exact (conj tested_orderly (conj tested_survives tested_out_eq)). Qed.

(* C44 violated: roulette wheel selection in the discovery comes back as selection of the fittest *)
Theorem C44_component_lost_refuted : exists t t', orderly library t = true /\ load_config library (save_config library t) = Ok t' /\
  value_at library t ["rule_discovery"; "selection"] = Some (TObj "suprb.optimizer.rule.selection.RouletteWheel" []) /\
  value_at library t' ["rule_discovery"; "selection"] = Some (TObj "suprb.optimizer.rule.selection.Fittest" []).
Proof. exact roulette_becomes_fittest. Qed.
Print Assumptions C44_component_lost_refuted.

(* C44 violated: no random state comes back as the text "NoneType" *)
Theorem C44_none_refuted : exists t t', orderly library t = true /\ load_config library (save_config library t) = Ok t' /\
  value_at library t ["random_state"] = Some TNone /\ value_at library t' ["random_state"] = Some (TPrim (PStr "NoneType")).
Proof. exact none_lost. Qed.
Print Assumptions C44_none_refuted.

(* C44 violated: the configurations with the default self-adapting algorithms cannot be loaded, as "crossover" starts "crossover_rate" and "init" starts "initial_population_size" *)
Theorem C44_prefix_refuted : exists t1 t2 c1 c2,
  build library "suprb.optimizer.solution.saga1.base.SelfAdaptingGeneticAlgorithm" [] = Ok c1 /\ value_at library t1 ["solution_composition"] = Some c1 /\
  build library "suprb.optimizer.solution.sas.base.SasGeneticAlgorithm" [] = Ok c2 /\ value_at library t2 ["solution_composition"] = Some c2 /\
  load_config library (save_config library t1) = Raise TypeError /\ load_config library (save_config library t2) = Raise TypeError.
Proof. exact adapting_fails. Qed.
Print Assumptions C44_prefix_refuted.

(* C44 violated: step sizes given as an array make loading fail; the contents of the array in the matching function are lost *)
Theorem C44_array_refuted : (exists t a, orderly library t = true /\ value_at library t ["rule_discovery"; "mutation"; "sigma"] = Some (TArr a) /\
    load_config library (save_config library t) = Raise TypeError) /\
  (exists t t' a, orderly library t = true /\ load_config library (save_config library t) = Ok t' /\
    value_at library t ["matching_type"; "bounds"] = Some (TArr a) /\ value_at library t' ["matching_type"; "bounds"] = Some TBlank).
Proof. exact arrays_lost. Qed.
Print Assumptions C44_array_refuted.
