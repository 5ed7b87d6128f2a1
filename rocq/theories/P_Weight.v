(* C85: The weight of the experience has no influence *)
From Verif Require Import PyNum PyList PyMon PyRng M_Matching M_Rule M_RuleGen M_Mixing M_GenomeOps M_Discovery M_Novelty M_Solution M_Composition M_GA M_Saga M_Sas M_Abc M_Swarm M_Aco M_Fit M_Shipped M_Logging S_Units S_Order S_Repeat S_Weight L_OrderComp L_OrderEx L_Weight L_WeightNs L_WeightShip L_RuleProps L_RepeatEx L_WeightEx L_WeightZero L_Values.

(* for two mixing models that differ only in experience_weight: every genome predicts the same, with and without the cached predictions *)
Theorem C85_predict : forall L m m' bits (pool : list (rule L)) X cache, reweighted m m' -> Forall measured pool ->
  alike (Forall2 Qeq) (sol_predict L m bits pool X cache) (sol_predict L m' bits pool X cache).
Proof. exact predict_weight. Qed.
Print Assumptions C85_predict.
(* and has the same error, complexity and fitness *)
Theorem C85_measure : forall L m m' f bits (pool : list (rule L)) X y, reweighted m m' -> by_value f -> Forall measured pool ->
  alike same_measures (sol_fit L m f bits pool X y) (sol_fit L m' f bits pool X y).
Proof. exact measure_weight. Qed.
Print Assumptions C85_measure.
(* new rules start at the same places *)
Theorem C85_origins : forall L (D D' : denv L) o n, reweighted_problem D D' -> alike eq (origins o D n) (origins o D' n).
Proof. intros L D D' o n HD. exact (origins_weight L D D' HD o n). Qed.
Print Assumptions C85_origins.
(* and rule discovery finds the same rules, which are measured again *)
Theorem C85_discovery : forall L,
  (forall (D D' : denv L) c n kids, reweighted_problem D D' -> alike (Forall2 same_measured) (es_optimize c D n kids) (es_optimize c D' n kids)) /\
  (forall (D D' : denv L) c n, reweighted_problem D D' -> alike (Forall2 same_measured) (rs_optimize c D n) (rs_optimize c D' n)) /\
  forall c X y (pool : list (cell L)) elite m m' n, Forall (fun x => measured (crule x)) pool -> (elite <> None -> reweighted m m') ->
    alike (Forall2 (fun x x' => x' = x /\ measured (crule x))) (ns_optimize c X y pool elite m n) (ns_optimize c X y pool elite m' n).
Proof.
  intros L. split; [intros D D' c n kids HD; exact (es_weight L D D' HD c n kids)|]. split; [intros D D' c n HD; exact (rs_weight L D D' HD c n)|]. exact (ns_weight L).
Qed.
Print Assumptions C85_discovery.
(* every metaheuristic of the library depends only on the values of the measurements, so it selects the same genomes *)
Theorem C85_optimizers : (forall c, values_only (ga c)) /\ (forall n s, values_only (rs n s)) /\ (forall c, values_only (saga1 c)) /\
  (forall t c, of_value (t_sqrt t) -> of_value (t_cos t) -> values_only (saga2 t c)) /\ (forall c, values_only (saga3 c)) /\ (forall c, values_only (sas c)) /\
  (forall M c, values_only (bees M c)) /\ (forall M c, values_only (swarm M c)) /\ (forall M c, values_only (wolves M c)) /\
  forall A b part c, (forall a, of_value (fun v => m_pow A v a)) -> values_only (aco (Binary A b) c) /\ values_only (aco (Complete A b part) c).
Proof.
  refine (conj ga_values_only (conj (fun n s => ranks_values _ (rs_ranks_only n s)) (conj saga1_values_only (conj saga2_values_only (conj saga3_values_only (conj sas_values_only
    (conj bees_values_only (conj (fun M c => ranks_values _ (swarm_ranks_only M c)) (conj (fun M c => ranks_values _ (wolves_ranks_only M c)) _))))))))).
  exact (fun A b part c H => aco_values_only A b c part H).
Qed.
Print Assumptions C85_optimizers.
(* calls of fit with any of them, early stopping included, leave the same estimator but for the weight: the same pool, genomes and measurements; it predicts the same *)
Theorem C85_fit : forall L (K : skind) (O : optimizer K) rngof i cc mix mix' f G G' R D calls, values_only O -> reweighted mix mix' -> (forall m, by_value (f m)) ->
  (forall X y, like_logger same_measured same_measures reweighted X y X y G G' R) ->
  (exists c k, D = es_discovery L rngof c k) \/ (exists c k, D = rs_discovery L rngof c k) \/ (exists c k, D = ns_discovery L rngof c k) ->
  let e := after D (shipped_composition L rngof O i cc mix f) G calls in
  let e' := after D (shipped_composition L rngof O i cc mix' f) G' calls in
  like_estimator same_measured same_measures reweighted e e' /\ paired R (logs e) (logs e') /\ forall Z, alike (Forall2 Qeq) (M_Fit.predict e Z) (M_Fit.predict e' Z).
Proof.
  intros L K O rngof i cc mix mix' f G G' R D calls HO HM Hf HG HD e e'.
  assert (H : like_estimator same_measured same_measures reweighted e e' /\ paired R (logs e) (logs e')).
  { destruct HD as [(c & k & ->)|[(c & k & ->)|(c & k & ->)]]; [exact (es_fits L rngof O i cc mix mix' f HO HM Hf G G' R HG c k calls)|exact (rs_fits L rngof O i cc mix mix' f HO HM Hf G G' R HG c k calls)|exact (ns_fits L rngof O i cc mix mix' f HO HM Hf G G' R HG c k calls)]. }
  destruct H as [H1 H2]. split; [exact H1|]. split; [exact H2|]. intros Z. exact (predict_fitted L e e' Z H1).
Qed.
Print Assumptions C85_fit.
(* the default logger writes the same values *)
Theorem C85_logger : forall L q X y, like_logger same_measured same_measures reweighted X y X y (default_logger L q) (default_logger L q) same_values.
Proof. exact default_weight. Qed.
Print Assumptions C85_logger.
(* the weight 0 is an exception: it silences every rule *)
Theorem C85_zero_matters : exists X y x, (forall w, ~ w == 0 -> exists p, fst (sol_predict mean_learner (mkMixing KeepAll (CapExperience None (Some 2)) w) [true; true] (boxes mean_learner X y) [[x]] false (L_GenomeProps.scripted [])) = Ok [p] /\ p == 4) /\
  weighted 0 x = Ok [0].
Proof.
  exists three_x, three_y, (1#2). split; [|apply weighted_values]. intros w Hw. exact (weighted_four w Hw).
Qed.
Print Assumptions C85_zero_matters.
(* whatever the rules: with the weight 0 every prediction there is is 0 *)
Theorem C85_zero : forall L mx bits (pool : list (rule L)) X cache g p, mweight mx == 0 -> fst (sol_predict L mx bits pool X cache g) = Ok p -> Forall (fun v => v == 0) p.
Proof. exact predict_nought. Qed.
Print Assumptions C85_zero.

Example C85_satisfiable : reweighted (mkMixing KeepAll (CapExperience None (Some 2)) 1) (mkMixing KeepAll (CapExperience None (Some 2)) 5) /\ by_value error_f /\
  Forall measured (boxes mean_learner three_x three_y) /\ length (boxes mean_learner three_x three_y) = 2%nat /\ values_only (ga (rank_ga SelRoulette)) /\ of_value nneg /\
  reweighted_problem (mkDenv three_x three_y (boxes mean_learner three_x three_y) (Some [true; true]) (mkMixing KeepAll ExpAsIs 1)) (mkDenv three_x three_y (boxes mean_learner three_x three_y) (Some [true; true]) (mkMixing KeepAll ExpAsIs (1#2))) /\
  weighted 1 (1#2) = Ok [4] /\ weighted 5 (1#2) = Ok [4].
Proof.
  split; [constructor; cbn; try reflexivity; try discriminate; split; discriminate|]. split; [exact error_f_value|]. split; [apply boxes_measured|]. split; [vm_compute; reflexivity|]. split; [apply ga_values_only|]. split; [exact neg_same|].
  split; [constructor; cbn [dX dy dpool delite dmix]; auto; [split; [reflexivity|apply boxes_measured]|intros _; constructor; cbn; try reflexivity; try exact I; split; discriminate]|]. split; apply weighted_values.
Qed.
