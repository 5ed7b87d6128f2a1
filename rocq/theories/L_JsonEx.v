(* Configurations as in tests/test_json.py, and variations. *)
From Coq Require Import String Ascii.
From Verif Require Import PyNum PyList PyMon M_Json M_Classes S_Objects S_Json L_List L_Text L_Forest L_Fold L_Json L_JsonProps L_JsonKeep.
From Verif Require M_Objects.
Local Open Scope string_scope.
Local Open Scope list_scope.

Definition es (mutation selection : tree) : tree :=
  TObj "suprb.optimizer.rule.es.es.ES1xLambda"
    [("acceptance", variance (int 1)); ("constraint", combined); ("delay", int 1); ("init", mean_init (volume_wu (1 # 20))); ("lmbda", int 20);
     ("mutation", mutation); ("n_iter", int 2); ("n_jobs", int 1); ("operator", txt "&"); ("origin_generation", matching_origin);
     ("random_state", TNone); ("selection", selection)].
Definition usual_es : tree := es (halfnorm_increase (flt (1 # 10))) fittest.
Definition uniform : tree := TObj "suprb.optimizer.solution.ga.crossover.Uniform" [("crossover_rate", flt (9 # 10))].
Definition ga (init : tree) : tree :=
  TObj "suprb.optimizer.solution.ga.base.GeneticAlgorithm"
    [("archive", elitist); ("crossover", uniform); ("elitist_ratio", flt (17 # 100)); ("init", init); ("mutation", bitflips (1 # 1000));
     ("n_iter", int 1); ("n_jobs", int 1); ("population_size", int 32); ("random_state", TNone); ("selection", tournament 5); ("warm_start", flag true)].
Definition ordered_bound (bounds : tree) : tree := TObj "suprb.rule.matching.OrderedBound" [("bounds", bounds)].
Definition params (logger matching seed discovery composition : tree) : list (string * tree) :=
  [("early_stopping_delta", int 0); ("early_stopping_patience", int (-1)); ("logger", logger); ("matching_type", matching);
   ("n_initial_rules", int 0); ("n_iter", int 1); ("n_jobs", int 1); ("n_rules", int 5); ("random_state", seed);
   ("rule_discovery", discovery); ("solution_composition", composition); ("verbose", int 1)].
Definition suprb (logger matching seed discovery composition : tree) : tree := TObj "suprb.suprb.SupRB" (params logger matching seed discovery composition).
(* tests/test_json.py:32-58 *)
Definition tested : tree := suprb TNone (ordered_bound (TArr [])) (int 42) usual_es (ga usual_init).
Definition tested_out : list (string * tree) := params TNone (ordered_bound TBlank) (int 42) usual_es (ga usual_init).
Lemma tested_orderly : orderly library tested = true.
Proof. vm_compute. reflexivity. Qed.
Lemma tested_info : exists i, library "suprb.suprb.SupRB" = Some i.
Proof. eexists. reflexivity. Qed.
Definition suprb_info : cinfo := match library "suprb.suprb.SupRB" with Some i => i | None => comp [] end.
Lemma tested_survives : Forall2 (survives_at_top library) (params TNone (ordered_bound (TArr [])) (int 42) usual_es (ga usual_init)) (cparams suprb_info).
Proof.
  vm_compute. repeat match goal with
  | |- Forall2 _ _ _ => constructor | |- _ /\ _ => split | |- _ \/ _ => first [left; reflexivity|right; reflexivity]
  | |- True => exact I | |- _ -> False => discriminate | |- _ = _ => reflexivity end.
Qed.
Lemma tested_out_eq : map (fun nv => (fst nv, Some (snd nv))) tested_out = without_logger library (params TNone (ordered_bound (TArr [])) (int 42) usual_es (ga usual_init)) (cparams suprb_info).
Proof. vm_compute. reflexivity. Qed.
Lemma tested_restored : load_config library (save_config library tested) = Ok (TObj "suprb.suprb.SupRB" tested_out).
Proof. exact (restored_whole library _ suprb_info tested_out tested_orderly eq_refl eq_refl tested_survives tested_out_eq eq_refl). Qed.
(* with another selection operator *)
Definition roulette : tree := TObj "suprb.optimizer.rule.selection.RouletteWheel" [].
Definition with_roulette : tree := suprb TNone (ordered_bound (TArr [])) (int 42) (es (halfnorm_increase (flt (1 # 10))) roulette) (ga usual_init).
Lemma roulette_lost : load_config library (save_config library with_roulette) = Ok (TObj "suprb.suprb.SupRB" tested_out).
Proof. vm_compute. reflexivity. Qed.
(* a filter of the mixing model *)
Definition best_filter : tree := TObj "suprb.solution.mixing_model.NBestFitness" [("random_state", int 42); ("rule_amount", int 6)].
Definition with_filter : tree := suprb TNone (ordered_bound (TArr [])) (int 42) usual_es (ga (random_init (complexity_wu (3 # 10)) (heuristic as_is (int 1) best_filter))).
Lemma filter_lost : load_config library (save_config library with_filter) = Ok (TObj "suprb.suprb.SupRB" tested_out).
Proof. vm_compute. reflexivity. Qed.
(* a bound on the experience *)
Definition capped : tree := TObj "suprb.solution.mixing_model.CapExperience" [("lower_bound", TPrim (PFloat (Fin 0))); ("upper_bound", TPrim (PFloat (Fin 20)))].
Definition uncapped : tree := TObj "suprb.solution.mixing_model.CapExperience" [("lower_bound", TPrim (PFloat NInf)); ("upper_bound", TPrim (PFloat PInf))].
Definition with_cap (calc : tree) : tree := suprb TNone (ordered_bound TBlank) (int 42) usual_es (ga (random_init (complexity_wu (3 # 10)) (heuristic calc (int 1) keep_all))).
Lemma cap_lost : load_config library (save_config library (with_cap capped)) = Ok (with_cap uncapped).
Proof. vm_compute. reflexivity. Qed.
(* names that start alike *)
Definition saga1 : tree :=
  match build library "suprb.optimizer.solution.saga1.base.SelfAdaptingGeneticAlgorithm" [] with Ok t => t | Raise _ => TNone end.
Definition sas : tree := match build library "suprb.optimizer.solution.sas.base.SasGeneticAlgorithm" [] with Ok t => t | Raise _ => TNone end.
Definition with_composition (t : tree) : tree := suprb TNone (ordered_bound (TArr [])) (int 42) usual_es t.
Lemma saga1_fails : load_config library (save_config library (with_composition saga1)) = Raise TypeError.
Proof. vm_compute. reflexivity. Qed.
Lemma sas_fails : load_config library (save_config library (with_composition sas)) = Raise TypeError.
Proof. vm_compute. reflexivity. Qed.
(* None as a parameter of the estimator *)
Definition unseeded : tree := suprb TNone (ordered_bound (TArr [])) TNone usual_es (ga usual_init).
Lemma none_becomes_text : exists t, load_config library (save_config library unseeded) = Ok t /\ value_at library t ["random_state"] = Some (txt "NoneType").
Proof. eexists. split; [vm_compute; reflexivity|reflexivity]. Qed.
(* one step size per dimension *)
Definition with_steps : tree := suprb TNone (ordered_bound (TArr [])) (int 42) (es (halfnorm_increase (TArr [[(1 # 10)%Q; (2 # 10)%Q]])) fittest) (ga usual_init).
Lemma steps_fail : load_config library (save_config library with_steps) = Raise TypeError.
Proof. vm_compute. reflexivity. Qed.
Lemma roulette_orderly : orderly library with_roulette = true.
Proof. vm_compute. reflexivity. Qed.
Lemma roulette_becomes_fittest : exists t t', orderly library t = true /\ load_config library (save_config library t) = Ok t' /\
  value_at library t ["rule_discovery"; "selection"] = Some (TObj "suprb.optimizer.rule.selection.RouletteWheel" []) /\
  value_at library t' ["rule_discovery"; "selection"] = Some (TObj "suprb.optimizer.rule.selection.Fittest" []).
Proof. exists with_roulette, (TObj "suprb.suprb.SupRB" tested_out). split; [exact roulette_orderly|]. split; [exact roulette_lost|]. split; reflexivity. Qed.
Lemma none_lost : exists t t', orderly library t = true /\ load_config library (save_config library t) = Ok t' /\
  value_at library t ["random_state"] = Some TNone /\ value_at library t' ["random_state"] = Some (TPrim (PStr "NoneType")).
Proof. destruct none_becomes_text as (t & L & V). exists unseeded, t. split; [vm_compute; reflexivity|]. split; [exact L|]. split; [reflexivity|exact V]. Qed.
Lemma adapting_fails : exists t1 t2 c1 c2,
  build library "suprb.optimizer.solution.saga1.base.SelfAdaptingGeneticAlgorithm" [] = Ok c1 /\ value_at library t1 ["solution_composition"] = Some c1 /\
  build library "suprb.optimizer.solution.sas.base.SasGeneticAlgorithm" [] = Ok c2 /\ value_at library t2 ["solution_composition"] = Some c2 /\
  load_config library (save_config library t1) = Raise TypeError /\ load_config library (save_config library t2) = Raise TypeError.
Proof.
  exists (with_composition saga1), (with_composition sas), saga1, sas. split; [vm_compute; reflexivity|]. split; [reflexivity|]. split; [vm_compute; reflexivity|].
  split; [reflexivity|]. split; [exact saga1_fails|exact sas_fails].
Qed.
Lemma arrays_lost : (exists t a, orderly library t = true /\ value_at library t ["rule_discovery"; "mutation"; "sigma"] = Some (TArr a) /\
    load_config library (save_config library t) = Raise TypeError) /\
  (exists t t' a, orderly library t = true /\ load_config library (save_config library t) = Ok t' /\
    value_at library t ["matching_type"; "bounds"] = Some (TArr a) /\ value_at library t' ["matching_type"; "bounds"] = Some TBlank).
Proof.
  split.
  - exists with_steps. eexists. split; [vm_compute; reflexivity|]. split; [reflexivity|exact steps_fail].
  - exists tested, (TObj "suprb.suprb.SupRB" tested_out). eexists. split; [exact tested_orderly|]. split; [exact tested_restored|]. split; reflexivity.
Qed.
