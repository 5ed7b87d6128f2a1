(* C83: Only the order of the fitness values matters *)
From Verif Require Import PyNum PyList PyMon PyRng L_Num M_Matching M_Rule M_RuleGen M_Mixing M_GenomeOps M_Discovery M_Solution M_Composition M_GA M_Saga M_Sas M_Abc M_Swarm M_Fit M_Shipped M_Logging S_Units S_Order L_Units L_Tandem L_OrderRules L_OrderComp L_Ratio L_Scaling L_OrderFit L_OrderShip L_GenomeProps L_UnitsEx L_OrderEx.

(* the rules an evolution strategy finds are the same but for the value of their fitness *)
Theorem C83_es : forall h L D D' c n kids, rising h -> h NInf = NInf -> ranked_problem h L D D' -> fair_mixing h (dmix D) -> by_rank h (es_sel c) ->
  alike (Forall2 (ranked_rule h L)) (es_optimize c D n kids) (es_optimize c D' n kids).
Proof. intros h L D D' c n kids Hh Hw HD HM HS. exact (es_ranked h L Hh Hw D D' HD HM c n kids HS). Qed.
Print Assumptions C83_es.
Theorem C83_rs : forall h L D D' c n, rising h -> h NInf = NInf -> ranked_problem h L D D' -> fair_mixing h (dmix D) -> by_rank h (rs_sel c) ->
  alike (Forall2 (ranked_rule h L)) (rs_optimize c D n) (rs_optimize c D' n).
Proof. intros h L D D' c n Hh Hw HD HM HS. exact (rs_ranked h L Hh Hw D D' HD HM c n HS). Qed.
Print Assumptions C83_rs.
(* a genome predicts the same with such rules and measures the same, with the fitness on the new scale *)
Theorem C83_solutions : forall h L mx bits pool pool', rising h -> fair_mixing h mx -> Forall2 (ranked_rule h L) pool pool' ->
  (forall X cache q, sol_predict L mx bits pool X cache q = sol_predict (on_scale h L) mx bits pool' X cache q) /\
  forall g f X y, alike (ranked_satts g) (sol_fit L mx f bits pool X y) (sol_fit (on_scale h L) mx (fun e c n => g (f e c n)) bits pool' X y).
Proof.
  intros h L mx bits pool pool' Hh HM HP. split; [intros X cache q; exact (predict_ranked h L Hh mx bits pool pool' X cache q HM HP)|intros g f X y; exact (sol_fit_ranked h L Hh g mx f bits pool pool' X y HM HP)].
Qed.
Print Assumptions C83_solutions.
(* these optimizers ask only which of two solutions is fitter *)
Theorem C83_optimizers : (forall c, ordinal (g_sel c) -> ranks_only (ga c)) /\ (forall n s, ranks_only (rs n s)) /\ (forall c, ordinal (s3_sel c) -> ranks_only (saga3 c)) /\
  (forall M c, ranks_only (swarm M c)) /\ (forall M c, ranks_only (wolves M c)).
Proof. exact (conj ga_ranks_only (conj rs_ranks_only (conj saga3_ranks_only (conj swarm_ranks_only wolves_ranks_only)))). Qed.
Print Assumptions C83_optimizers.
(* and these, with any selection, only how many times fitter *)
Theorem C83_ratios : (forall c, scales_only (ga c)) /\ (forall c, scales_only (saga1 c)) /\ (forall c, scales_only (saga3 c)) /\ (forall c, scales_only (sas c)) /\ (forall M c, scales_only (bees M c)).
Proof. exact (conj ga_scales_only (conj saga1_scales_only (conj saga3_scales_only (conj sas_scales_only bees_scales_only)))). Qed.
Print Assumptions C83_ratios.
(* so a call of optimize leaves the same genomes in the same places, and the same population and archive *)
Theorem C83_optimize : forall g L L' (E : env L) (E' : env L') (K : skind) (O : optimizer K) c q st, rising g -> ranked_task (ranked_satts g) E E' -> suits g O ->
  tandem (ranked_heap (ranked_satts g)) eq (optimize O c E q st) (optimize O c E' q st).
Proof. intros g L L' E E' K O c q st Hg HE HO. exact (optimize_suits g L L' E E' O c q st Hg HE HO). Qed.
Print Assumptions C83_optimize.
(* calls of fit leave the same estimator but for the values of the fitness, error state included, and it predicts the same *)
Theorem C83_fit_es : forall h g L (K : skind) (O : optimizer K) rngof i cc mix f c k G G' R calls, rising h -> h NInf = NInf -> rising g -> suits g O -> fair_mixing h mix -> by_rank h (es_sel c) ->
  ranked_logger h g L G G' R -> Forall never_stops calls ->
  let e := after (es_discovery L rngof c k) (shipped_composition L rngof O i cc mix f) G calls in
  let e' := after (es_discovery (on_scale h L) rngof c k) (shipped_composition (on_scale h L) rngof O i cc mix (fun m e c n => g (f m e c n))) G' calls in
  ranked_estimator h g L e e' /\ paired R (logs e) (logs e') /\ forall Z q, M_Fit.predict e Z q = M_Fit.predict e' Z q.
Proof.
  intros h g L K O rngof i cc mix f c k G G' R calls Hh Hw Hg HO HM HS HG HC e e'. destruct (es_history h g L Hh Hw Hg rngof O i cc mix f HO HM G G' R HG c k calls HS HC) as [H1 H2].
  split; [exact H1|]. split; [exact H2|]. intros Z q. exact (predict_same h g L Hh e e' Z q H1).
Qed.
Print Assumptions C83_fit_es.
Theorem C83_fit_rs : forall h g L (K : skind) (O : optimizer K) rngof i cc mix f c k G G' R calls, rising h -> h NInf = NInf -> rising g -> suits g O -> fair_mixing h mix -> by_rank h (rs_sel c) ->
  ranked_logger h g L G G' R -> Forall never_stops calls ->
  let e := after (rs_discovery L rngof c k) (shipped_composition L rngof O i cc mix f) G calls in
  let e' := after (rs_discovery (on_scale h L) rngof c k) (shipped_composition (on_scale h L) rngof O i cc mix (fun m e c n => g (f m e c n))) G' calls in
  ranked_estimator h g L e e' /\ paired R (logs e) (logs e') /\ forall Z q, M_Fit.predict e Z q = M_Fit.predict e' Z q.
Proof.
  intros h g L K O rngof i cc mix f c k G G' R calls Hh Hw Hg HO HM HS HG HC e e'. destruct (rs_history h g L Hh Hw Hg rngof O i cc mix f HO HM G G' R HG c k calls HS HC) as [H1 H2].
  split; [exact H1|]. split; [exact H2|]. intros Z q. exact (predict_same h g L Hh e e' Z q H1).
Qed.
Print Assumptions C83_fit_rs.
(* the default logger writes the same values but for those of the fitness *)
Theorem C83_logger : forall h g L q, rising h -> ranked_logger h g L (default_logger L q) (default_logger (on_scale h L) q) same_metrics.
Proof. intros h g L q Hh. exact (default_ranked h g L Hh q). Qed.
Print Assumptions C83_logger.
(* the roulette wheel does ask for the values *)
Theorem C83_roulette_matters : exists g (s s' : hst plain), rising g /\ ranked_heap (ranked_satts g) s s' /\ fst (select SelRoulette [0%nat; 1%nat] 1 s) = Ok [0%nat] /\ fst (select SelRoulette [0%nat; 1%nat] 1 s') = Ok [1%nat].
Proof. exists stretch, (two_sols (fun v => v)), (two_sols stretch). split; [exact stretch_rising|]. split; [exact two_ranked|]. split; vm_compute; reflexivity. Qed.
Print Assumptions C83_roulette_matters.
(* and so does early stopping *)
Theorem C83_stopping_matters : exists h g L (K : skind) (O : optimizer K) rngof i cc mix f c k q calls, rising h /\ h NInf = NInf /\ rising g /\ suits g O /\ fair_mixing h mix /\ by_rank h (es_sel c) /\
  let e := after (es_discovery L rngof c k) (shipped_composition L rngof O i cc mix f) (default_logger L q) calls in
  let e' := after (es_discovery (on_scale h L) rngof c k) (shipped_composition (on_scale h L) rngof O i cc mix (fun m e c n => g (f m e c n))) (default_logger (on_scale h L) q) calls in
  step e = 0%nat /\ step e' = 2%nat.
Proof.
  exists stretch, stretch, line_learner, plain, (ga (rank_ga (SelTournament 2))), some_tape, tt, (mkCcfg (RandomInit (1#2)) true true), (mkMixing KeepAll ExpAsIs 1), plain_f, (units_es 3), (GivenCombined (1#1000) None), (scripted []), (rank_calls 1).
  split; [exact stretch_rising|]. split; [reflexivity|]. split; [exact stretch_rising|]. split; [left; apply ga_ranks_only; exact I|]. split; [exact I|]. split; [exact I|]. split; vm_compute; reflexivity.
Qed.
Print Assumptions C83_stopping_matters.
Example C83_satisfiable : rising stretch /\ stretch NInf = NInf /\ suits stretch (ga (rank_ga (SelTournament 2))) /\ fair_mixing stretch (mkMixing KeepAll ExpAsIs 1) /\ by_rank stretch (es_sel (units_es 3)) /\ Forall never_stops (rank_calls (-1)) /\
  is_error (rank_fit plain_f line_learner (SelTournament 2) (-1)) = false /\ length (M_Fit.pool (rank_fit plain_f line_learner (SelTournament 2) (-1))) = 4%nat.
Proof.
  split; [exact stretch_rising|]. split; [reflexivity|]. split; [left; apply ga_ranks_only; exact I|]. split; [exact I|]. split; [exact I|]. split; [repeat constructor; discriminate|]. split; vm_compute; reflexivity.
Qed.
Example C83_ratios_satisfiable : proportional doubled /\ rising doubled /\ doubled NInf = NInf /\ suits doubled (ga (rank_ga SelRoulette)) /\ fair_mixing doubled wheel_mix /\ by_rank doubled (es_sel wheel_es) /\
  Forall never_stops (rank_calls (-1)) /\ is_error wheel_fit = false /\ M_Fit.is_fitted wheel_fit = true /\ length (M_Fit.pool wheel_fit) = 4%nat.
Proof.
  split; [exact doubled_proportional|]. split; [apply proportional_rising; exact doubled_proportional|]. split; [reflexivity|]. split; [right; split; [exact doubled_proportional|apply ga_scales_only]|].
  split; [exact doubled_proportional|]. split; [exact doubled_proportional|]. split; [repeat constructor; discriminate|]. split; [vm_compute; reflexivity|]. split; vm_compute; reflexivity.
Qed.
