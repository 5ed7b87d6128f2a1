(* Parameters changed after construction: C62. *)
From Coq Require Import String.
From Verif Require Import PyNum PyList PyMon M_Objects M_Components S_Objects S_Built L_Objects L_Prepared L_Built L_ObjectsEx L_BuiltEx.
Open Scope string_scope.

(* ===== C62 ===== *)
(* whatever was set in between: an evolution strategy that fit works with and that compares with "&" can be stopped by its delay *)
Theorem C62_delay_below_iterations : forall s f drd dsc dmt dlog data ml h u h',
  sound h -> valid h drd -> valid h dsc -> valid h dmt -> valid h dlog ->
  (forall v, getattr shipped plain_values h (Ref s) "n_jobs" = Ok v -> exists a, v = Prim a) ->
  (forall rd, chosen shipped plain_values h s "rule_discovery" drd rd -> no_own_representation shipped plain_values h rd) ->
  prepare_components shipped plain_values f (Ref s) drd dsc dmt dlog data ml h = (Ok u, h') ->
  forall x, worked_with h' s x -> class_of h' (Ref x) = "ES1xLambda" -> attribute h' x "operator" (Prim (AStr "&")) ->
  exists vd vn d n, attribute h' x "delay" vd /\ attribute h' x "n_iter" vn /\ numeric vd d /\ numeric vn n /\ nlt d n = true.
Proof. exact delay_below. Qed.
Print Assumptions C62_delay_below_iterations.
Example C62_delay_satisfiable : fit_for config /\ exists h', prep config = (Ok tt, h') /\
  exists x, worked_with h' 0 x /\ class_of h' (Ref x) = "ES1xLambda" /\ attribute h' x "operator" (Prim (AStr "&")) /\ attribute h' x "delay" (int 146) /\ attribute h' x "n_iter" (int 1000).
Proof. exact delay_case. Qed.
(* so a fit never starts with a delay the constructor would refuse *)
Theorem C62_wrong_delay_refused : forall s f drd dsc dmt dlog data ml h rd d n,
  sound h -> valid h drd -> valid h dsc -> valid h dmt -> valid h dlog ->
  (forall v, getattr shipped plain_values h (Ref s) "n_jobs" = Ok v -> exists a, v = Prim a) ->
  (forall rd0, chosen shipped plain_values h s "rule_discovery" drd rd0 -> no_own_representation shipped plain_values h rd0) ->
  chosen shipped plain_values h s "rule_discovery" drd rd -> class_of h rd = "ES1xLambda" ->
  configured shipped plain_values h rd ["operator"] (Prim (AStr "&")) -> configured shipped plain_values h rd ["delay"] (Prim (AInt d)) ->
  configured shipped plain_values h rd ["n_iter"] (Prim (AInt n)) -> (n <= d)%Z ->
  forall u h', prepare_components shipped plain_values f (Ref s) drd dsc dmt dlog data ml h <> (Ok u, h').
Proof. exact wrong_delay_refused. Qed.
Print Assumptions C62_wrong_delay_refused.
Example C62_refused_satisfiable : fit_for late_delay /\ chosen shipped plain_values late_delay 0 "rule_discovery" none (Ref 1) /\ class_of late_delay (Ref 1) = "ES1xLambda" /\
  configured shipped plain_values late_delay (Ref 1) ["operator"] (Prim (AStr "&")) /\ configured shipped plain_values late_delay (Ref 1) ["delay"] (int 146) /\
  configured shipped plain_values late_delay (Ref 1) ["n_iter"] (int 100).
Proof. exact refused_case. Qed.
(* novelty search always has more children than the neighbours it compares each with *)
Theorem C62_neighbours_below_children : forall s f drd dsc dmt dlog data ml h u h',
  sound h -> valid h drd -> valid h dsc -> valid h dmt -> valid h dlog ->
  (forall v, getattr shipped plain_values h (Ref s) "n_jobs" = Ok v -> exists a, v = Prim a) ->
  (forall rd, chosen shipped plain_values h s "rule_discovery" drd rd -> no_own_representation shipped plain_values h rd) ->
  prepare_components shipped plain_values f (Ref s) drd dsc dmt dlog data ml h = (Ok u, h') ->
  forall x, worked_with h' s x -> class_of h' (Ref x) = "NoveltySearch" ->
  exists c vk vl k l, attribute h' x "novelty_calculation" c /\ getattr shipped plain_values h' c "k_neighbor" = Ok vk /\ attribute h' x "lmbda" vl /\
    numeric vk k /\ numeric vl l /\ nlt (nadd k (Fin 2)) l = true.
Proof. exact neighbours_below. Qed.
Print Assumptions C62_neighbours_below_children.
Example C62_neighbours_satisfiable : fit_for novelty /\ exists h', prep novelty = (Ok tt, h') /\ exists x, worked_with h' 0 x /\ class_of h' (Ref x) = "NoveltySearch" /\ attribute h' x "lmbda" (int 160).
Proof. exact neighbours_case. Qed.
(* the self-adapting algorithm starts with the limits that are set now *)
Theorem C62_rates_start_at_limits : forall s f drd dsc dmt dlog data ml h u h',
  sound h -> valid h drd -> valid h dsc -> valid h dmt -> valid h dlog ->
  (forall v, getattr shipped plain_values h (Ref s) "n_jobs" = Ok v -> exists a, v = Prim a) ->
  (forall rd, chosen shipped plain_values h s "rule_discovery" drd rd -> no_own_representation shipped plain_values h rd) ->
  prepare_components shipped plain_values f (Ref s) drd dsc dmt dlog data ml h = (Ok u, h') ->
  forall x, worked_with h' s x -> class_of h' (Ref x) = "saga2.SelfAdaptingGeneticAlgorithm" ->
  (exists v, attribute h' x "mutation_rate_max" v /\ attribute h' x "mutation_rate_current_max" v) /\
  (exists v, attribute h' x "crossover_rate_min" v /\ attribute h' x "crossover_rate_current_min" v).
Proof. exact saga2_rates. Qed.
Print Assumptions C62_rates_start_at_limits.
Example C62_rates_satisfiable : fit_for saga2_late /\ exists h', prep saga2_late = (Ok tt, h') /\
  exists x, worked_with h' 0 x /\ class_of h' (Ref x) = "saga2.SelfAdaptingGeneticAlgorithm" /\ attribute h' x "mutation_rate_current_max" (flt (1 # 5)).
Proof. exact saga2_case. Qed.
(* the algorithm with a changing population starts with the size that is set now *)
Theorem C62_initial_size : forall s f drd dsc dmt dlog data ml h u h',
  sound h -> valid h drd -> valid h dsc -> valid h dmt -> valid h dlog ->
  (forall v, getattr shipped plain_values h (Ref s) "n_jobs" = Ok v -> exists a, v = Prim a) ->
  (forall rd, chosen shipped plain_values h s "rule_discovery" drd rd -> no_own_representation shipped plain_values h rd) ->
  prepare_components shipped plain_values f (Ref s) drd dsc dmt dlog data ml h = (Ok u, h') ->
  forall x, worked_with h' s x -> class_of h' (Ref x) = "SasGeneticAlgorithm" -> exists v, attribute h' x "initial_population_size" v /\ attribute h' x "population_size" v.
Proof. exact sas_size. Qed.
Print Assumptions C62_initial_size.
Example C62_size_satisfiable : fit_for sas_late /\ exists h', prep sas_late = (Ok tt, h') /\
  exists x, worked_with h' 0 x /\ class_of h' (Ref x) = "SasGeneticAlgorithm" /\ attribute h' x "population_size" (int 50).
Proof. exact sas_case. Qed.
(* the weights of novelty and fitness add up to 1 *)
Theorem C62_weights_add_up : forall s f drd dsc dmt dlog data ml h u h',
  sound h -> valid h drd -> valid h dsc -> valid h dmt -> valid h dlog ->
  (forall v, getattr shipped plain_values h (Ref s) "n_jobs" = Ok v -> exists a, v = Prim a) ->
  (forall rd, chosen shipped plain_values h s "rule_discovery" drd rd -> no_own_representation shipped plain_values h rd) ->
  prepare_components shipped plain_values f (Ref s) drd dsc dmt dlog data ml h = (Ok u, h') ->
  forall x, worked_with h' s x -> class_of h' (Ref x) = "NoveltyFitnessBiased" ->
  exists v w a b, attribute h' x "novelty_bias" v /\ attribute h' x "fitness_bias" w /\ numeric v a /\ numeric w b /\
    match a, b with Fin p, Fin q => p + q == 1 | _, _ => b = nsub (Fin 1) a end.
Proof. exact novelty_weights. Qed.
Print Assumptions C62_weights_add_up.
Example C62_weights_satisfiable : fit_for biased_late /\ exists h', prep biased_late = (Ok tt, h') /\
  exists x, worked_with h' 0 x /\ class_of h' (Ref x) = "NoveltyFitnessBiased" /\ attribute h' x "novelty_bias" (flt (1 # 3)).
Proof. exact biased_case. Qed.
(* a value the constructor refuses is accepted when it is set afterwards; fit raises an AssertionError, outside the part that catches errors *)
Theorem C62_set_unchecked_refuted : exists h h',
  set_params shipped plain_values (Ref 0) ["rule_discovery"; "n_iter"] (Prim (AInt 100)) h = (Ok tt, h') /\
  fst (prepare_components shipped plain_values 8 (Ref 0) (Prim ANone) (Prim ANone) (Ref 23) (Ref 24) [[0; 3]] 128 h) = Ok tt /\
  fst (prepare_components shipped plain_values 8 (Ref 0) (Prim ANone) (Prim ANone) (Ref 23) (Ref 24) [[0; 3]] 128 h') = Raise AssertionError /\
  exists fs, nth_error h' 1 = Some (mkObject "ES1xLambda" fs) /\ fst (construct shipped plain_values "ES1xLambda" fs h') = Raise AssertionError.
Proof. exact (ex_intro _ config set_unchecked). Qed.
Print Assumptions C62_set_unchecked_refuted.
(* None stands for a default in the constructor, but set afterwards it makes fit raise a RuntimeError *)
Theorem C62_none_refuted : exists h h',
  set_params shipped plain_values (Ref 0) ["rule_discovery"; "init"; "model"] (Prim ANone) h = (Ok tt, h') /\
  fst (prepare_components shipped plain_values 8 (Ref 0) (Prim ANone) (Prim ANone) (Ref 23) (Ref 24) [[0; 3]] 128 h') = Raise RuntimeError /\
  exists fs v h2, nth_error h' 2 = Some (mkObject "MeanInit" fs) /\ field fs "model" = Some (Prim ANone) /\ construct shipped plain_values "MeanInit" fs h' = (Ok v, h2) /\
    exists m, getattr shipped plain_values h2 v "model" = Ok m /\ class_of h2 m = "Ridge".
Proof. exact (ex_intro _ config none_not_default). Qed.
Print Assumptions C62_none_refuted.
(* before fit, what was computed from a parameter does not follow it *)
Theorem C62_stale_refuted : exists h p h', class_of h (Ref p) = "saga2.SelfAdaptingGeneticAlgorithm" /\
  set_params shipped plain_values (Ref p) ["mutation_rate_max"] (Prim (AFloat (Fin (1 # 5)))) h = (Ok tt, h') /\
  attribute h' p "mutation_rate_max" (Prim (AFloat (Fin (1 # 5)))) /\ attribute h' p "mutation_rate_current_max" (Prim (AFloat (Fin (1 # 10)))).
Proof. exact stale. Qed.
Print Assumptions C62_stale_refuted.
(* a keyword of the wrapper that names such an attribute is accepted without a warning and has no effect on the fit *)
Theorem C62_keyword_lost_refuted : exists h p h1 h2 x, class_of h (Ref p) = "SasGeneticAlgorithm" /\ stored h 0 "solution_composition" = Some (Ref p) /\
  wrapper shipped plain_values (Ref 0) [("solution_composition__population_size", Prim (AInt 7))] h = (Ok (Ref 0, []), h1) /\ attribute h1 p "population_size" (Prim (AInt 7)) /\
  prepare_components shipped plain_values 8 (Ref 0) (Prim ANone) (Prim ANone) (Ref 23) (Ref 24) [[0; 3]] 128 h1 = (Ok tt, h2) /\
  stored h2 0 "solution_composition_" = Some (Ref x) /\ attribute h2 x "population_size" (Prim (AInt 100)).
Proof. exact keyword_ignored. Qed.
Print Assumptions C62_keyword_lost_refuted.
