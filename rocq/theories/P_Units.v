(* C81: measured in other units, the same problem is learned in the same way. *)
From Verif Require Import PyNum PyList PyMon PyRng M_Matching M_Rule M_RuleGen M_Mixing M_GenomeOps M_Discovery M_Novelty M_Solution M_Composition M_GA M_Saga M_Sas M_Abc M_Aco M_Swarm M_Fit M_Shipped M_Logging S_Units L_Units L_UnitsDisc L_UnitsComp L_UnitsFit L_UnitsShip L_UnitsNs L_GenomeProps L_UnitsEx.

(* the same condition matches the same samples *)
Theorem C81_matching : forall a shifts m m' X X', 0 < a -> rescaled_box a shifts m m' -> Forall2 (same_point a shifts) X X' -> match_call m' X' = match_call m X.
Proof. intros a shifts m m' X X' Ha. exact (match_same a shifts Ha m m' X X'). Qed.
Print Assumptions C81_matching.
(* with the same random numbers, and step sizes, minimal range and bounds converted, rule discovery finds the same rules: equal measurements, converted conditions *)
Theorem C81_es : forall a shifts L L' D D' c c' n kids, 0 < a -> unitless a shifts L L' -> rescaled_problem a shifts L L' D D' ->
  rescaled_settings a shifts (es_d c) (es_d c') -> rescaled_mutation a (es_mut c) (es_mut c') ->
  es_iter c = es_iter c' /\ es_lambda c = es_lambda c' /\ es_operator c = es_operator c' /\ es_delay c = es_delay c' /\ es_sel c = es_sel c' ->
  alike (Forall2 (rescaled_rule a shifts L L')) (es_optimize c D n kids) (es_optimize c' D' n kids).
Proof. intros a shifts L L' D D' c c' n kids Ha HU HD HS HM HR. exact (es_units a shifts Ha L L' HU D D' HD c c' HS HM HR n kids). Qed.
Print Assumptions C81_es.
Theorem C81_rs : forall a shifts L L' D D' c c' n, 0 < a -> unitless a shifts L L' -> rescaled_problem a shifts L L' D D' ->
  rescaled_settings a shifts (rs_d c) (rs_d c') -> rs_generated c = rs_generated c' -> rs_sel c = rs_sel c' ->
  alike (Forall2 (rescaled_rule a shifts L L')) (rs_optimize c D n) (rs_optimize c' D' n).
Proof. intros a shifts L L' D D' c c' n Ha HU. exact (rs_units a shifts Ha L L' HU D D' c c' n). Qed.
Print Assumptions C81_rs.
(* novelty search, too: its distances, scores and archive are identical *)
Theorem C81_ns : forall a shifts L L' c c' X X' y pool pool' elite mix n, 0 < a -> unitless a shifts L L' -> rescaled_settings a shifts (ns_d c) (ns_d c') -> rescaled_mutation a (ns_mut c) (ns_mut c') ->
  (ns_iter c = ns_iter c' /\ ns_mu c = ns_mu c' /\ ns_lambda c = ns_lambda c' /\ ns_roh c = ns_roh c' /\ ns_elitists c = ns_elitists c' /\ ns_rate c = ns_rate c' /\ ns_sel c = ns_sel c') ->
  (ns_use_pop c = ns_use_pop c' /\ ns_calc c = ns_calc c' /\ ns_type c = ns_type c' /\ ns_archive c = ns_archive c' /\ ns_k c = ns_k c') ->
  Forall2 (same_point a shifts) X X' -> Forall2 (rescaled_cell a shifts L L') pool pool' ->
  alike (Forall2 (rescaled_cell a shifts L L')) (ns_optimize c X y pool elite mix n) (ns_optimize c' X' y pool' elite mix n).
Proof. intros a shifts L L' c c' X X' y pool pool' elite mix n Ha HU. exact (ns_units a shifts Ha L L' HU c c' X X' y pool pool' elite mix n). Qed.
Print Assumptions C81_ns.
(* a genome on such pools gives the same predictions and the same measurements *)
Theorem C81_predictions : forall a shifts L L' mx bits pool pool' X X' cache g, 0 < a -> Forall2 (rescaled_rule a shifts L L') pool pool' -> Forall2 (same_point a shifts) X X' ->
  sol_predict L mx bits pool X cache g = sol_predict L' mx bits pool' X' cache g.
Proof. intros a shifts L L' mx bits pool pool' X X' cache g Ha. exact (predict_units a shifts Ha L L' mx bits pool pool' X X' cache g). Qed.
Print Assumptions C81_predictions.
Theorem C81_solutions : forall a shifts L L' mx f bits pool pool' X X' y g, 0 < a -> Forall2 (rescaled_rule a shifts L L') pool pool' -> Forall2 (same_point a shifts) X X' ->
  sol_fit L mx f bits pool X y g = sol_fit L' mx f bits pool' X' y g.
Proof. intros a shifts L L' mx f bits pool pool' X X' y g Ha. exact (sol_fit_units a shifts Ha L L' mx f bits pool pool' X X' y g). Qed.
Print Assumptions C81_solutions.
(* the optimizers of solution composition see nothing of a rule but its measured values; the ant colony with the Complete builder reads the bounds, too *)
Theorem C81_optimizers : (forall c, impartial (ga c)) /\ (forall n s, impartial (rs n s)) /\ (forall c, impartial (saga1 c)) /\ (forall t c, impartial (saga2 t c)) /\ (forall c, impartial (saga3 c)) /\
  (forall c, impartial (sas c)) /\ (forall M c, impartial (bees M c)) /\ (forall M c, impartial (swarm M c)) /\ (forall M c, impartial (wolves M c)) /\ (forall A b c, impartial (aco (Binary A b) c)).
Proof.
  exact (conj ga_impartial (conj rs_impartial (conj saga1_impartial (conj saga2_impartial (conj saga3_impartial (conj sas_impartial (conj bees_impartial (conj swarm_impartial (conj wolves_impartial aco_impartial))))))))).
Qed.
Print Assumptions C81_optimizers.
(* so calls of fit leave the same estimator, error state included, and it predicts the same *)
Theorem C81_fit_es : forall a shifts L L' (K : skind) (O : optimizer K) rngof i cc mix f c c' k k' G G' R calls calls', 0 < a -> unitless a shifts L L' -> impartial O ->
  (forall X X' y, Forall2 (same_point a shifts) X X' -> rescaled_logger a shifts L L' X X' y G G' R) -> rescaled_es a c c' -> rescaled_given a shifts k k' -> Forall2 (same_call a shifts) calls calls' ->
  let e := after (es_discovery L rngof c k) (shipped_composition L rngof O i cc mix f) G calls in
  let e' := after (es_discovery L' rngof c' k') (shipped_composition L' rngof O i cc mix f) G' calls' in
  rescaled_estimator a shifts L L' e e' /\ paired R (logs e) (logs e') /\ forall Z Z' g, Forall2 (same_point a shifts) Z Z' -> M_Fit.predict e Z g = M_Fit.predict e' Z' g.
Proof.
  intros a shifts L L' K O rngof i cc mix f c c' k k' G G' R calls calls' Ha HU HO HG HE HK HC e e'. destruct (es_history a shifts Ha L L' HU rngof O i cc mix f HO G G' R HG c c' k k' calls calls' HE HK HC) as [H1 H2].
  split; [exact H1|]. split; [exact H2|]. intros Z Z' g HZ. exact (predict_same a shifts Ha L L' e e' Z Z' g H1 HZ).
Qed.
Print Assumptions C81_fit_es.
Theorem C81_fit_rs : forall a shifts L L' (K : skind) (O : optimizer K) rngof i cc mix f c c' k k' G G' R calls calls', 0 < a -> unitless a shifts L L' -> impartial O ->
  (forall X X' y, Forall2 (same_point a shifts) X X' -> rescaled_logger a shifts L L' X X' y G G' R) -> rescaled_rs a c c' -> rescaled_given a shifts k k' -> Forall2 (same_call a shifts) calls calls' ->
  let e := after (rs_discovery L rngof c k) (shipped_composition L rngof O i cc mix f) G calls in
  let e' := after (rs_discovery L' rngof c' k') (shipped_composition L' rngof O i cc mix f) G' calls' in
  rescaled_estimator a shifts L L' e e' /\ paired R (logs e) (logs e') /\ forall Z Z' g, Forall2 (same_point a shifts) Z Z' -> M_Fit.predict e Z g = M_Fit.predict e' Z' g.
Proof.
  intros a shifts L L' K O rngof i cc mix f c c' k k' G G' R calls calls' Ha HU HO HG HE HK HC e e'. destruct (rs_history a shifts Ha L L' HU rngof O i cc mix f HO G G' R HG c c' k k' calls calls' HE HK HC) as [H1 H2].
  split; [exact H1|]. split; [exact H2|]. intros Z Z' g HZ. exact (predict_same a shifts Ha L L' e e' Z Z' g H1 HZ).
Qed.
Print Assumptions C81_fit_rs.
Theorem C81_fit_ns : forall a shifts L L' (K : skind) (O : optimizer K) rngof i cc mix f c c' k k' G G' R calls calls', 0 < a -> unitless a shifts L L' -> impartial O ->
  (forall X X' y, Forall2 (same_point a shifts) X X' -> rescaled_logger a shifts L L' X X' y G G' R) -> rescaled_ns a c c' -> rescaled_given a shifts k k' -> Forall2 (same_call a shifts) calls calls' ->
  let e := after (ns_discovery L rngof c k) (shipped_composition L rngof O i cc mix f) G calls in
  let e' := after (ns_discovery L' rngof c' k') (shipped_composition L' rngof O i cc mix f) G' calls' in
  rescaled_estimator a shifts L L' e e' /\ paired R (logs e) (logs e') /\ forall Z Z' g, Forall2 (same_point a shifts) Z Z' -> M_Fit.predict e Z g = M_Fit.predict e' Z' g.
Proof.
  intros a shifts L L' K O rngof i cc mix f c c' k k' G G' R calls calls' Ha HU HO HG HE HK HC e e'. destruct (ns_history a shifts Ha L L' HU rngof O i cc mix f G G' R c c' k k' calls calls' HO HG HE HK HC) as [H1 H2].
  split; [exact H1|]. split; [exact H2|]. intros Z Z' g HZ. exact (predict_same a shifts Ha L L' e e' Z Z' g H1 HZ).
Qed.
Print Assumptions C81_fit_ns.
(* the metrics and messages of the loggers are equal, too *)
Theorem C81_loggers : forall a shifts L L' g X X' y, 0 < a -> Forall2 (same_point a shifts) X X' ->
  rescaled_logger a shifts L L' X X' y (default_logger L g) (default_logger L' g) (@eq metrics) /\ rescaled_logger a shifts L L' X X' y (stdout_logger L g) (stdout_logger L' g) (@eq (list message)).
Proof. intros a shifts L L' g X X' y Ha HX. exact (conj (default_units a shifts Ha L L' g X X' y HX) (stdout_units a shifts Ha L L' g X X' y HX)). Qed.
Print Assumptions C81_loggers.
(* step sizes that are not converted change what is learned *)
Theorem C81_steps_needed : exists a shifts L (K : skind) (O : optimizer K) rngof i cc mix f c k calls calls' Z Z' g v v', 0 < a /\ unitless a shifts L L /\ impartial O /\ Forall2 (same_call a shifts) calls calls' /\ Forall2 (same_point a shifts) Z Z' /\
  let e calls := after (es_discovery L rngof c k) (shipped_composition L rngof O i cc mix f) (default_logger L g) calls in
  fst (M_Fit.predict (e calls) Z g) = Ok v /\ fst (M_Fit.predict (e calls') Z' g) = Ok v' /\ ~ nth 2 v 0 == nth 2 v' 0.
Proof.
  exists 10, [50], line_learner, plain, (ga (mkG 1 2 (1#2) SelRandom Uniform (9#10) (1#10))), some_tape, tt, (mkCcfg (RandomInit (1#2)) true true), (mkMixing KeepAll ExpAsIs 1), (fun _ e _ _ => Fin (1 - e)), (units_es 3), (GivenCombined (1#1000) None), (units_calls in_cm), (units_calls in_mm), [[0]; [1]; [2]; [3]], [[50]; [60]; [70]; [80]], (scripted []).
  do 2 eexists.   split; [reflexivity|]. split; [apply line_unitless; reflexivity|]. split; [apply ga_impartial|]. split; [exact calls_rescaled|]. split; [repeat constructor|]. split; [vm_compute; reflexivity|]. split; [vm_compute; reflexivity|]. vm_compute. discriminate.
Qed.
Print Assumptions C81_steps_needed.
Example C81_satisfiable : 0 < 10 /\ unitless 10 [50] line_learner line_learner /\ rescaled_es 10 (units_es 3) (units_es (10 * 3)) /\ rescaled_given 10 [50] (GivenCombined (1#1000) None) (GivenCombined (10 * (1#1000)) None) /\
  Forall2 (same_call 10 [50]) (units_calls in_cm) (units_calls in_mm) /\ no_error in_cm (1#1000) 3 = true /\
  shown_at [[0]; [1]; [2]; [3]] in_cm (1#1000) 3 = Ok [60000 # 60000; 120000 # 60000; 120000 # 40000; 0] /\ shown_at [[50]; [60]; [70]; [80]] in_mm (10 * (1#1000)) (10 * 3) = Ok [60000 # 60000; 120000 # 60000; 120000 # 40000; 0].
Proof.
  split; [reflexivity|]. split; [apply line_unitless; reflexivity|]. split; [apply es_rescaled|]. split; [apply given_rescaled|]. split; [exact calls_rescaled|]. split; [vm_compute; reflexivity|]. split; vm_compute; reflexivity.
Qed.
Example C81_ns_satisfiable : rescaled_ns 10 (units_ns 3) (units_ns (10 * 3)) /\ is_error (ns_est in_cm (1#1000) 3) = false /\ length (M_Fit.pool (ns_est in_cm (1#1000) 3)) = 3%nat /\
  fst (M_Fit.predict (ns_est in_cm (1#1000) 3) [[0]; [1]; [2]; [3]] (scripted [])) = Ok [0; 0; 0; 210000 # 30000] /\ fst (M_Fit.predict (ns_est in_mm (10 * (1#1000)) (10 * 3)) [[50]; [60]; [70]; [80]] (scripted [])) = Ok [0; 0; 0; 210000 # 30000].
Proof. split; [apply ns_rescaled|]. split; [vm_compute; reflexivity|]. split; [vm_compute; reflexivity|]. split; vm_compute; reflexivity. Qed.
