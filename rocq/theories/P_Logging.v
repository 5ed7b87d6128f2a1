(* Logging: C47 the metrics mean what they say, C56 logging does not influence learning. *)
From Coq Require Import String Lia.
From Verif Require Import PyNum PyList PyMon PyRng L_Num L_List M_Matching M_Rule M_RuleGen M_Mixing M_Fit S_Fit L_Fit L_RuleProps L_DiscoveryEx L_FitEx M_Logging S_Logging L_LogMetrics L_LogStats L_LogFit L_LogSim L_LogEx.

(* ===== C47 ===== *)
(* matched_training_samples is the share of samples that some rule matches *)
Theorem C47_matched_share : forall (L : learner) (pool : list (rule L)) n, (0 < n)%nat -> fitted_on pool n ->
  exists v, matched_training_samples pool = Ok v /\ 0 <= v <= 1 /\
    (v == 1 <-> forall i, (i < n)%nat -> covered pool i) /\ (v == 0 <-> forall i, (i < n)%nat -> ~ covered pool i) /\
    exists hit, NoDup hit /\ (forall i, In i hit <-> (i < n)%nat /\ covered pool i) /\ v * qofnat n == qofnat (length hit).
Proof. exact matched_share. Qed.
Print Assumptions C47_matched_share.
Example C47_matched_satisfiable : let pool := [on_data dx dyy 0 1; on_data dx dyy 0 0] in
  S_Logging.fitted_on pool 3 /\ exists v, matched_training_samples pool = Ok v /\ v == 2 # 3.
Proof. split; [repeat constructor; eexists; split; reflexivity|]. eexists. split; [reflexivity|]. vm_compute. reflexivity. Qed.
(* genome_diversity: the number of pairs that differ, summed over the bits and divided by their number.  With n genomes it
   may reach n * n / 4: it is not relative to the number of pairs *)
Theorem C47_diversity : forall m gs, (0 < m)%nat -> gs <> [] -> Forall (fun g => length g = m) gs ->
  exists q, genome_diversity gs = Ok (Fin q) /\
    q * qofnat m == qofnat (list_sum (map (fun j => ones j gs * (length gs - ones j gs))%nat (seq 0 m))) /\
    0 <= q /\ q * 4 <= qofnat (length gs) * qofnat (length gs) /\ (q == 0 <-> forall g h, In g gs -> In h gs -> g = h).
Proof. exact diversity_spec. Qed.
Print Assumptions C47_diversity.
Example C47_diversity_exceeds_one : exists q,
  genome_diversity [[true; false; true]; [false; true; false]; [true; false; true]; [false; true; false]] = Ok (Fin q) /\ q == 4.
Proof. eexists. split; [reflexivity|]. vm_compute. reflexivity. Qed.
(* minimum, percentiles, median and maximum come in this order; the extremes are attained; the mean is the mean *)
Theorem C47_stats_ordered : forall step name qs m, qs <> [] ->
  exists m' mn p10 p25 md p75 p90 mx me, log_stats step name (map Fin qs) m = Ok m' /\
    logged m' ((name ++ "_min")%string, step) = Some (Fin mn) /\ logged m' ((name ++ "_percentile10")%string, step) = Some (Fin p10) /\
    logged m' ((name ++ "_percentile25")%string, step) = Some (Fin p25) /\ logged m' ((name ++ "_median")%string, step) = Some (Fin md) /\
    logged m' ((name ++ "_percentile75")%string, step) = Some (Fin p75) /\ logged m' ((name ++ "_percentile90")%string, step) = Some (Fin p90) /\
    logged m' ((name ++ "_max")%string, step) = Some (Fin mx) /\ logged m' ((name ++ "_mean")%string, step) = Some (Fin me) /\
    In mn qs /\ (forall v, In v qs -> mn <= v) /\ In mx qs /\ (forall v, In v qs -> v <= mx) /\
    mn <= p10 /\ p10 <= p25 /\ p25 <= md /\ md <= p75 /\ p75 <= p90 /\ p90 <= mx /\
    me * qofnat (length qs) == qsum qs /\ mn <= me <= mx.
Proof. exact stats_ordered. Qed.
Print Assumptions C47_stats_ordered.
(* the percentiles are the median-unbiased estimates of the values *)
Theorem C47_stats_exact : forall step name qs m, qs <> [] ->
  exists m' p10 p25 md p75 p90, log_stats step name (map Fin qs) m = Ok m' /\
    logged m' ((name ++ "_percentile10")%string, step) = Some (Fin p10) /\ logged m' ((name ++ "_percentile25")%string, step) = Some (Fin p25) /\
    logged m' ((name ++ "_median")%string, step) = Some (Fin md) /\ logged m' ((name ++ "_percentile75")%string, step) = Some (Fin p75) /\
    logged m' ((name ++ "_percentile90")%string, step) = Some (Fin p90) /\
    p10 == percentile_of qs (1 # 10) /\ p25 == percentile_of qs (1 # 4) /\ md == percentile_of qs (1 # 2) /\ p75 == percentile_of qs (3 # 4) /\ p90 == percentile_of qs (9 # 10).
Proof. exact stats_exact. Qed.
Print Assumptions C47_stats_exact.
Example C47_stats_satisfiable : [3; 1; 2; 4] <> [] /\ percentile_of [3; 1; 2; 4] (1 # 4) == 17 # 12.
Proof. split; [discriminate|]. vm_compute. reflexivity. Qed.
(* the training score is at most one, and one exactly for the exact prediction *)
Theorem C47_score : forall y p, length y = length p -> (2 <= length y)%nat ->
  exists s, r2_score y p = Ok (Fin s) /\ s <= 1 /\ (s == 1 <-> Forall2 Qeq y p).
Proof. exact r2_spec. Qed.
Print Assumptions C47_score.
Example C47_score_satisfiable : exists s, r2_score [0; 0; 4] [0; 1; 3] = Ok (Fin s) /\ s == 13 # 16.
Proof. eexists. split; [reflexivity|]. vm_compute. reflexivity. Qed.
(* any logger: log_iteration is called once for each finished step, with its number, the pool, the population and the
   elitist of that step, and log_final once with the learned model *)
Theorem C47_logger_called_each_step : forall (L : learner) (D : discovery L) (C : composition L) (G : logger L) p os X y (e e' : est (recorded_d D) (recorded_c C) G),
  ready D C G p X y -> fit p os false X y e = (Ok tt, e') -> is_error e' = false ->
  exists l0 l1 l, linit G = Ok l0 /\ logged_steps G X y 0 (ccalls e') l0 l1 /\
    (exists b, elitist e' = Some (Learned b) /\ lfinal G X y (pool e') (Learned b) l1 = Ok l) /\ logs e' = Some l.
Proof. exact fit_logged. Qed.
Print Assumptions C47_logger_called_each_step.
(* the default logger after a fit: for each step the size of the pool and of the population and the values of the elitist of
   that very step; nothing is left from earlier fits *)
Theorem C47_default_logger_history : forall (L : learner) (D : discovery L) (C : composition L) g p os X y (e e' : est (recorded_d D) (recorded_c C) (default_logger L g)),
  ready D C (default_logger L g) p X y -> fit p os false X y e = (Ok tt, e') -> is_error e' = false ->
  exists m : metrics, logs e' = Some m /\
    (forall i c, nth_error (ccalls e') i = Some c -> exists pop b s, c_pops c = Ok pop /\ c_best c = Ok (Some b) /\ elite_score g (with_pool (c_pool c) b) X y = Ok s /\
      logged m ("pool_size"%string, i) = Some (Fin (qofnat (length (c_pool c)))) /\
      logged m ("population_size"%string, i) = Some (Fin (qofnat (length pop))) /\
      logged m ("elitist_fitness"%string, i) = Some (sfitness (smeasured b)) /\
      logged m ("elitist_error"%string, i) = Some (Fin (serror (smeasured b))) /\
      logged m ("elitist_complexity"%string, i) = Some (Fin (qofnat (scomplexity (smeasured b)))) /\
      logged m ("training_score"%string, i) = Some s) /\
    (forall name i, (length (ccalls e') <= i)%nat -> logged m (name, i) = None).
Proof. exact fit_default_logged. Qed.
Print Assumptions C47_default_logger_history.
Example C47_history_satisfiable : ready finds lworks logs_all par1 dx dyy /\
  fit par1 0 false dx dyy (unfitted (recorded_d finds) (recorded_c lworks) logs_all) = (Ok tt, lend) /\ is_error lend = false /\
  length (ccalls lend) = 3%nat /\ option_map (fun m => logged m ("pool_size"%string, 2%nat)) (logs lend) = Some (Some (Fin 3)).
Proof. split; [exact lready|]. split; [exact lran|]. split; [vm_compute; reflexivity|]. split; vm_compute; reflexivity. Qed.

(* ===== C56 ===== *)
(* whatever the logger: either fit does exactly what it does without one, or it passes on an exception of the logger *)
Theorem C56_only_by_raising : forall (L : learner) (D : discovery L) (C : composition L) (G : logger L) p os clean X y (e : est D C G) (f : est D C no_logger),
  same_but_logs e f ->
  (fst (fit p os clean X y e) = fst (fit p os clean X y f) /\ same_but_logs (snd (fit p os clean X y e)) (snd (fit p os clean X y f))) \/
  exists x, fst (fit p os clean X y e) = Raise x /\ logger_raises G x.
Proof. exact only_by_raising. Qed.
Print Assumptions C56_only_by_raising.
(* two loggers that never raise: the same estimator after any number of calls of fit *)
Theorem C56_quiet_loggers_same : forall (L : learner) (D : discovery L) (C : composition L) (G H : logger L) calls, quiet G -> quiet H ->
  same_but_logs (after D C G calls) (after D C H calls).
Proof. exact quiet_same. Qed.
Print Assumptions C56_quiet_loggers_same.
Example C56_satisfiable : quiet silent /\ quiet (@no_logger ML) /\ same_but_logs (unfitted finds works silent) (unfitted finds works no_logger).
Proof. split; [exact silent_quiet|]. split; [split; [eexists; reflexivity|]; split; intros; eexists; reflexivity|repeat split]. Qed.
(* each member of a combined logger records what it would record alone *)
Theorem C56_members_record_alone : forall (L : learner) (D : discovery L) (C : composition L) (G : logger L) (Gs : list (logger L)) p os clean X y
  (e e' : est D C (combined_logger (G :: Gs))) (f : est D C G) (h : est D C (combined_logger Gs)), same_but_logs e f -> same_but_logs e h ->
  fit p os clean X y e = (Ok tt, e') ->
  exists f' h', fit p os clean X y f = (Ok tt, f') /\ fit p os clean X y h = (Ok tt, h') /\ same_but_logs e' f' /\ same_but_logs e' h' /\
    logs f' = option_map fst (logs e') /\ logs h' = option_map snd (logs e').
Proof. exact members_alone. Qed.
Print Assumptions C56_members_record_alone.
Example C56_members_satisfiable :
  same_but_logs (unfitted finds lworks (combined_logger [logs_all; silent])) (unfitted finds lworks logs_all) /\
  fst (fit par1 0 false dx dyy (unfitted finds lworks (combined_logger [logs_all; stdout_logger ML at0]))) = Ok tt.
Proof. split; [repeat split|vm_compute; reflexivity]. Qed.
(* with a random filter the score draws from the generator of the mixing model: the elitist answers differently afterwards *)
Theorem C56_random_filter_refuted : exists (L : learner) (b : elite L) (g : rng) X y s p p',
  elite_score g b X y = Ok s /\ fst (sol_predict L (emix b) (ebits b) (epool b) X false g) = Ok p /\
  fst (sol_predict L (emix b) (ebits b) (epool b) X false (snd (sol_predict L (emix b) (ebits b) (epool b) X false g))) = Ok p' /\ ~ Forall2 Qeq p p'.
Proof. exact scoring_draws. Qed.
Print Assumptions C56_random_filter_refuted.
