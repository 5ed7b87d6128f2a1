(* C87: Without warm start a composition step starts afresh *)
From Coq Require Import Lia.
From Verif Require Import PyNum PyList PyMon PyRng PyStat M_Matching M_Rule M_Mixing M_GenomeOps M_Solution M_Composition M_GA M_Saga M_Sas M_Abc M_Swarm M_Aco M_Fit M_Shipped S_More S_Cold S_ColdFit L_Cold L_ColdRuns L_ColdFit L_ColdModel L_RuleProps L_HeapProps L_GenomeProps L_Shipped L_ColdEx.

(* earlier steps influence a step through the optimizer's own attributes only *)
Theorem C87_afresh : (forall c, starts_afresh (ga c)) /\ (forall k size, starts_afresh (rs k size)) /\ (forall c, starts_afresh (saga1 c)) /\ (forall t c, starts_afresh (saga2 t c)) /\ (forall c, starts_afresh (saga3 c)) /\ (forall c, starts_afresh (sas c)) /\
  (forall M c, starts_afresh (bees M c)) /\ (forall M c, starts_afresh (swarm M c)) /\ (forall M c, starts_afresh (wolves M c)) /\ (forall A b c, starts_afresh (aco (Binary A b) c)) /\ forall A b part c, starts_afresh (aco (Complete A b part) c).
Proof. exact cold_afresh. Qed.
Print Assumptions C87_afresh.
(* and for these not at all *)
Theorem C87_forgets : (forall c, forgets (ga c)) /\ (forall k size, forgets (rs k size)) /\ (forall c, forgets (saga3 c)) /\ (forall M c, forgets (bees M c)) /\ (forall M c, forgets (swarm M c)) /\ (forall M c, forgets (wolves M c)) /\
  (forall A b c, a_warm c = false -> forgets (aco (Binary A b) c)) /\ forall A b part c, a_warm c = false -> forgets (aco (Complete A b part) c).
Proof. exact cold_forgets. Qed.
Print Assumptions C87_forgets.
(* so whatever steps came before, on whatever pool and data, the last one ends with the same solutions *)
Theorem C87_histories : forall {K} (O : optimizer K) L (steps steps' : list (env L * rng)) E q c st st' s s' a a' t t', forgets O -> cwarm c = false -> carchive c = false ->
  compose O c steps st s = (Ok a, t) -> compose O c steps' st' s' = (Ok a', t') -> same_step (fun _ _ => True) (compose O c (steps ++ [(E, q)]) st s) (compose O c (steps' ++ [(E, q)]) st' s').
Proof. intros K O L steps steps' E q c st st' s s' a a' t t'. exact (forgotten O L steps steps' E q c st st' s s' a a' t t'). Qed.
Print Assumptions C87_histories.
(* with an archive: through the archived solution, and for the optimizers above through nothing else *)
Theorem C87_archive : (forall c, archive_only (ga c) (fun _ _ => True)) /\ (forall k size, archive_only (rs k size) (fun _ _ => True)) /\ (forall c, archive_only (saga1 c) eq) /\ (forall t c, archive_only (saga2 t c) eq) /\ (forall c, archive_only (saga3 c) (fun _ _ => True)) /\ (forall c, archive_only (sas c) eq) /\
  (forall M c, archive_only (bees M c) (fun _ _ => True)) /\ (forall M c, archive_only (swarm M c) (fun _ _ => True)) /\ (forall M c, archive_only (wolves M c) (fun _ _ => True)) /\
  (forall A b c, archive_only (aco (Binary A b) c) eq) /\ (forall A b part c, archive_only (aco (Complete A b part) c) eq) /\
  (forall A b c, a_warm c = false -> archive_only (aco (Binary A b) c) (fun _ _ => True)) /\ forall A b part c, a_warm c = false -> archive_only (aco (Complete A b part) c) (fun _ _ => True).
Proof. exact cold_archive. Qed.
Print Assumptions C87_archive.
(* after a step there are many solutions, in the other state only the archived one *)
Example C87_archive_satisfiable : (1 < length (sols (snd kept_after)))%nat /\ length (sols kept_alone) = 1%nat /\ length (carch kept_comp) = 1%nat /\ Forall (fun r => view (snd kept_after) r <> None) (carch kept_comp) /\
  map (view (snd kept_after)) (carch kept_comp) = map (view kept_alone) (carch alone_comp) /\ cwarm kept_cc = false /\ carchive kept_cc = true /\
  (match optimize (ga cold_ga) kept_cc (fst cold_step) a_tape kept_comp (snd kept_after) with (Ok a, t) => map (fun r => match view t r with Some (bits, _, _) => bits | None => [] end) (cpop a ++ carch a) | _ => [] end) = [[true; false; true]; [true; false; false]; [true; false; true]].
Proof.
  split; [vm_compute; lia|]. split; [vm_compute; reflexivity|]. split; [vm_compute; reflexivity|]. split; [vm_compute; repeat constructor; discriminate|]. split; [vm_compute; reflexivity|]. split; [reflexivity|]. split; [reflexivity|]. vm_compute. reflexivity.
Qed.
(* the archived solution does matter *)
Theorem C87_archive_matters : exists c cc L (steps : list (env L * rng)) last q b b', cwarm cc = false /\ carchive cc = true /\ best_after (ga c) tt cc q (steps ++ [last]) = Some b /\ best_after (ga c) tt cc q [last] = Some b' /\ fst (fst b) <> fst (fst b') /\
  genomes_after (ga c) tt cc q (steps ++ [last]) = genomes_after (ga c) tt cc q [last].
Proof.
  exists cold_ga, kept_cc, mean_learner, [cold_step], poor_step, a_tape. eexists. eexists. split; [reflexivity|]. split; [reflexivity|]. split; [vm_compute; reflexivity|]. split; [vm_compute; reflexivity|]. split; [discriminate|vm_compute; reflexivity].
Qed.
Print Assumptions C87_archive_matters.
(* the estimator is told the same elitist and population by such a step, or the same exception *)
Theorem C87_reports : (forall c, reports_alike (saga1 c) eq) /\ (forall t c, reports_alike (saga2 t c) eq) /\ (forall c, reports_alike (sas c) eq) /\ (forall A b c, reports_alike (aco (Binary A b) c) eq) /\ (forall A b part c, reports_alike (aco (Complete A b part) c) eq) /\
  (forall c, reports_alike (ga c) (fun _ _ => True)) /\ (forall k size, reports_alike (rs k size) (fun _ _ => True)) /\ (forall c, reports_alike (saga3 c) (fun _ _ => True)) /\ (forall M c, reports_alike (bees M c) (fun _ _ => True)) /\ (forall M c, reports_alike (swarm M c) (fun _ _ => True)) /\ (forall M c, reports_alike (wolves M c) (fun _ _ => True)) /\
  (forall A b c, a_warm c = false -> reports_alike (aco (Binary A b) c) (fun _ _ => True)) /\ forall A b part c, a_warm c = false -> reports_alike (aco (Complete A b part) c) (fun _ _ => True).
Proof. exact cold_reports. Qed.
Print Assumptions C87_reports.
(* in the first step and in the second, which finds the solutions of the first on the heap *)
Example C87_reports_satisfiable : length (sols (snd cold_first)) = 0%nat /\ (0 < length (sols (snd cold_second)))%nat /\ fst (cold_run cold_first) = Ok tt /\ fst (cold_run cold_second) = Ok tt /\
  (exists v, cbest cold_comp (snd (cold_run cold_first)) = Ok (Some v)) /\ cbest cold_comp (snd (cold_run cold_first)) = cbest cold_comp (snd (cold_run cold_second)).
Proof. split; [reflexivity|]. split; [vm_compute; lia|]. split; [vm_compute; reflexivity|]. split; [vm_compute; reflexivity|]. split; [eexists; vm_compute; reflexivity|vm_compute; reflexivity]. Qed.
(* so the model that fit ends with follows from the final pool and the number of the last step: how and when the rules were found, the logger and the patience do not matter *)
Theorem C87_model : forall {L} {D D' : discovery L} {G G' : logger L} rngof {K} (O : optimizer K) i c mix f p p' os X y (d e : est D (shipped_composition L rngof O i c mix f) G) (d' e' : est D' (shipped_composition L rngof O i c mix f) G'),
  reports_alike O (fun _ _ => True) -> cwarm c = false -> carchive c = false ->
  random_state p = random_state p' -> n_iter p = n_iter p' -> n_rules p = n_rules p' -> n_initial p = n_initial p' -> (0 < n_iter p)%nat ->
  fit p os false X y d = (Ok tt, e) -> fit p' os false X y d' = (Ok tt, e') -> is_error e = false -> is_error e' = false -> step e = step e' -> pool e = pool e' -> M_Fit.elitist e = M_Fit.elitist e'.
Proof. intros L D D' G G' rngof K O i c mix f p p' os X y d e d' e' HR HW HA. apply same_model. intros k pool s z z' H. apply (HR L rngof i c mix f HW HA X y k pool s z z' I). exact H. Qed.
Print Assumptions C87_model.
(* the rules come as one and two, or as two and one *)
Example C87_model_satisfiable : reports_alike (ga cold_ga) (fun _ _ => True) /\ in_two 1 <> in_two 2 /\ fst (cold_fit 1 0) = Ok tt /\ fst (cold_fit 2 5) = Ok tt /\ is_error (snd (cold_fit 1 0)) = false /\ is_error (snd (cold_fit 2 5)) = false /\
  step (snd (cold_fit 1 0)) = 1%nat /\ step (snd (cold_fit 2 5)) = 1%nat /\ pool (snd (cold_fit 1 0)) = M_Solution.epool ex_env /\ pool (snd (cold_fit 2 5)) = M_Solution.epool ex_env /\
  exists b, M_Fit.elitist (snd (cold_fit 1 0)) = Some (Learned b) /\ ebits b = [true; false; true].
Proof.
  split; [apply cold_reports|]. split; [exact batches_differ|]. split; [vm_compute; reflexivity|]. split; [vm_compute; reflexivity|]. split; [vm_compute; reflexivity|]. split; [vm_compute; reflexivity|]. split; [vm_compute; reflexivity|]. split; [vm_compute; reflexivity|].
  split; [vm_compute; reflexivity|]. split; [vm_compute; reflexivity|]. eexists. split; vm_compute; reflexivity.
Qed.
(* saga1 keeps its adapted rates *)
Theorem C87_saga1_refuted : exists c i cc, cwarm cc = false /\ carchive cc = false /\ remembers (saga1 c) i cc.
Proof.
  exists cold_s1, (mkRates (1#50) 1), (mkCcfg (RandomInit (1#2)) false false). split; [reflexivity|]. split; [reflexivity|]. exists mean_learner, [cold_step], cold_step, a_tape. eexists. eexists. split; [vm_compute; reflexivity|]. split; [vm_compute; reflexivity|discriminate].
Qed.
Print Assumptions C87_saga1_refuted.
(* and saga2 the bounds of its rates; the functions that stand for root and cosine are simple ones here *)
Theorem C87_saga2_refuted : exists t c cc, cwarm cc = false /\ carchive cc = false /\ remembers (saga2 t c) (s2_init c) cc.
Proof.
  exists cold_trig, cold_s2, (mkCcfg (RandomInit (1#2)) false false). split; [reflexivity|]. split; [reflexivity|]. exists mean_learner, [cold_step], cold_step, a_tape. eexists. eexists. split; [vm_compute; reflexivity|]. split; [vm_compute; reflexivity|discriminate].
Qed.
Print Assumptions C87_saga2_refuted.
(* sas starts with as many solutions as the last generation of the step before had parents *)
Theorem C87_sas_refuted : exists c cc, cwarm cc = false /\ carchive cc = false /\ remembers (sas c) (sa_init c) cc.
Proof.
  exists cold_sas, (mkCcfg (RandomInit (1#2)) false false). split; [reflexivity|]. split; [reflexivity|]. exists mean_learner, [cold_step], cold_step, a_tape. eexists. eexists. split; [vm_compute; reflexivity|]. split; [vm_compute; reflexivity|discriminate].
Qed.
Print Assumptions C87_sas_refuted.
(* with warm start the steps before do matter *)
Theorem C87_warm_matters : exists c cc, cwarm cc = true /\ carchive cc = false /\ remembers (ga c) tt cc /\ ~ remembers (ga c) tt (mkCcfg (cinit cc) false false).
Proof.
  exists cold_ga, (mkCcfg (RandomInit (1#2)) true false). split; [reflexivity|]. split; [reflexivity|]. split; [|apply remembers_not; [apply cold_forgets|reflexivity|reflexivity]].
  exists mean_learner, [cold_step], cold_step, a_tape. eexists. eexists. split; [vm_compute; reflexivity|]. split; [vm_compute; reflexivity|discriminate].
Qed.
Print Assumptions C87_warm_matters.
Example C87_satisfiable : forgets (ga cold_ga) /\ cwarm (mkCcfg (RandomInit (1#2)) false false) = false /\ M_Solution.epool (fst cold_step) <> [] /\
  genomes_after (ga cold_ga) tt (mkCcfg (RandomInit (1#2)) false false) a_tape [cold_step; cold_step] = Some [Some [true; false; true]; Some [true; false; false]] /\
  genomes_after (ga cold_ga) tt (mkCcfg (RandomInit (1#2)) false false) a_tape [cold_step] = Some [Some [true; false; true]; Some [true; false; false]].
Proof. split; [apply cold_forgets|]. split; [reflexivity|]. split; [discriminate|]. split; vm_compute; reflexivity. Qed.
