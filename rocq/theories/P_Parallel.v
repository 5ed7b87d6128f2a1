(* C41: parallel discovery does not depend on scheduling. *)
From Verif Require Import PyNum PyList PyMon PyRng M_Matching M_Rule M_RuleGen M_Discovery M_Parallel S_Parallel L_RuleProps L_DiscoveryEx L_Parallel L_ParallelEx.

(* one job after the other, or worker processes with any batches and any order of their steps: the results are those of the runs by
   themselves, in the order of the tasks, and so is the exception if there is one *)
Theorem C41_jobs_agree : forall L (c : escfg) (D : denv L) s way tasks r, as_configured (es_mut c) s -> jobs s way ->
  way (map (es_run c D) tasks) = Some r -> r = rmap (es_task c D) tasks.
Proof. exact jobs_agree. Qed.
Print Assumptions C41_jobs_agree.
Example C41_jobs_satisfiable : as_configured (es_mut race_conf) (Scalar 1) /\ jobs (A := rule mean_learner) (Scalar 1) (in_processes [1]%nat turns (Scalar 1)) /\
  exists l, in_processes [1]%nat turns (Scalar 1) (map (es_run race_conf (d_env None)) race_tasks) = Some (Ok l) /\ map (fun r => bnd (cond r)) l = [[(1, 1)]; [(4 # 2, 4 # 2)]].
Proof. split; [exact I|]. split; [constructor|exact race_apart]. Qed.
(* the whole of optimize: same rules, same order, same state of the generator *)
Theorem C41_same_rules : forall L (c : escfg) (D : denv L) n kids g s way x, as_configured (es_mut c) s -> jobs s way ->
  es_optimize_by way c D n kids g = Some x -> x = es_optimize c D n kids g.
Proof. intros L c D n kids g s way x Hs HW. exact (optimize_agrees L c D n kids g way x (fun tasks r => jobs_agree L c D s way tasks r Hs HW)). Qed.
Print Assumptions C41_same_rules.
Example C41_optimize_satisfiable : exists l g', es_optimize_by (in_processes [1]%nat turns (Scalar 1)) race_conf (d_env None) 2 (fun i => nth i (map snd race_tasks) (L_GenomeProps.scripted [])) (L_GenomeProps.scripted [1; 2]) = Some (Ok l, g') /\ l <> [].
Proof. exact race_optimize. Qed.
(* threads that share the components: the same, for mutations that keep their step size *)
Theorem C41_threads_partial : forall L (c : escfg) (D : denv L) mu s schedule tasks r, es_mut c = Mut mu -> with_sigma mu s = mu ->
  in_threads schedule s (map (es_run c D) tasks) = Some r -> r = rmap (es_task c D) tasks.
Proof. exact threads_agree. Qed.
Print Assumptions C41_threads_partial.
Example C41_threads_satisfiable : es_mut calm_conf = Mut (MutNormal (Scalar (1 # 2))) /\ with_sigma (MutNormal (Scalar (1 # 2))) (Scalar (1 # 2)) = MutNormal (Scalar (1 # 2)) /\
  exists l, in_threads turns (Scalar (1 # 2)) (map (es_run calm_conf (d_env None)) race_tasks) = Some (Ok l) /\ length l = 2%nat.
Proof. split; [reflexivity|]. split; [reflexivity|exact calm_threads]. Qed.
(* SigmaRange keeps the step size it drew in an attribute of the shared mutation: with threads the rules depend on the schedule *)
Theorem C41_threads_refuted : exists c (D : denv mean_learner) s tasks schedule schedule' l l' r r',
  in_threads schedule s (map (es_run c D) tasks) = Some (Ok l) /\ in_threads schedule' s (map (es_run c D) tasks) = Some (Ok l') /\
  nth_error l 0 = Some r /\ nth_error l' 0 = Some r' /\ bnd (cond r) <> bnd (cond r').
Proof. exact race. Qed.
Print Assumptions C41_threads_refuted.
(* no schedule gets stuck: every one can be continued until all runs are over *)
Theorem C41_never_stuck : forall L (c : escfg) (D : denv L) s tasks sizes schedule,
  (exists rest r, in_threads (schedule ++ rest) s (map (es_run c D) tasks) = Some r) /\
  (exists rest r, in_processes sizes (schedule ++ rest) s (map (es_run c D) tasks) = Some r).
Proof. intros L c D s tasks sizes schedule. exact (conj (threads_finish schedule s _) (processes_finish sizes schedule s _)). Qed.
Print Assumptions C41_never_stuck.
