(* C88: Pool and elitist are all that a fit carries from one step to the next *)
From Verif Require Import PyNum PyList PyMon PyRng M_Matching M_Rule M_Mixing M_Solution M_Composition M_GA M_Fit M_Shipped S_More S_ColdFit S_Resume L_ColdFit L_Resume L_RuleProps L_HeapProps L_ColdEx L_ResumeEx.

(* after the initial discovery, fit is the iterations and the end *)
Theorem C88_parts : forall {L} {D : discovery L} {C : composition L} {G : logger L} p os clean X y (e : est D C G),
  fit p os clean X y e = (prepare p os X y ;; let* failed := (if Nat.ltb 0 (n_initial p) then discover_safely X y (n_initial p) else ret false) in if failed then ret tt else rest p clean X y (seq 0 (n_iter p))) e.
Proof. reflexivity. Qed.
Print Assumptions C88_parts.
(* two estimators that agree in everything but the composition, whose elitists are the same, continue alike: same exception or none, same pool, model, logs, states; so they predict alike *)
Theorem C88_rest : forall {L} {D : discovery L} {G : logger L} rngof {K} (O : optimizer K) i c mix f p clean X y steps (e e' : est D (shipped_composition L rngof O i c mix f) G),
  reports_alike O (fun _ _ => True) -> cwarm c = false -> carchive c = false -> sans e = sans e' -> best e = best e' ->
  let x := rest p clean X y steps e in let x' := rest p clean X y steps e' in
  fst x = fst x' /\ sans (snd x) = sans (snd x') /\ forall Z, predict (snd x) Z = predict (snd x') Z.
Proof.
  intros L D G rngof K O i c mix f p clean X y steps e e' HR HW HA HS HB x x'. assert (H : both x x') by (apply rested; auto; intros k q s z z'; exact (HR L rngof i c mix f HW HA X y k q s z z' I)).
  split; [apply H|]. split; [apply H|]. intros Z. apply predict_sans. apply H.
Qed.
Print Assumptions C88_rest.
(* without early stopping a fit can be looked at between any two iterations *)
Theorem C88_between : forall {L} {D : discovery L} {C : composition L} {G : logger L} p clean X y done left (e : est D C G), (patience p <= 0)%Z ->
  rest p clean X y (done ++ left) e = (let* failed := main_loop p X y done in if failed then ret tt else rest p clean X y left) e.
Proof. intros L D C G p clean X y done left e. exact (rest_split p clean X y done left e). Qed.
Print Assumptions C88_between.
Example C88_between_satisfiable : (patience (cold_par 0) <= 0)%Z /\ fst (main_loop (cold_par 0) (eX ex_env) (ey ex_env) [0%nat] (mid_est false [false; true; false])) = Ok false /\
  length (pool (snd (main_loop (cold_par 0) (eX ex_env) (ey ex_env) [0%nat] (mid_est false [false; true; false])))) = 4%nat.
Proof. split; [discriminate|]. split; vm_compute; reflexivity. Qed.
(* evolution strategy and random search keep nothing of their own *)
Theorem C88_discovery : forall L rngof, (forall c k, keeps_nothing (es_discovery L rngof c k)) /\ forall c k, keeps_nothing (rs_discovery L rngof c k).
Proof. intros L rngof. split; intros c k X y pool el n s d; reflexivity. Qed.
Print Assumptions C88_discovery.
(* two populations with the same best solution *)
Example C88_satisfiable : reports_alike (ga mid_ga) (fun _ _ => True) /\ sans (mid_est false [false; false; false]) = sans (mid_est false [false; true; false]) /\ mid_state false [false; false; false] <> mid_state false [false; true; false] /\
  (exists b, best (mid_est false [false; false; false]) = Ok (Some b) /\ best (mid_est false [false; true; false]) = Ok (Some b)) /\
  fst (mid_rest false [false; false; false]) = Ok tt /\ exists b, M_Fit.elitist (snd (mid_rest false [false; false; false])) = Some (Learned b) /\ ebits b = [true; true; true; true].
Proof.
  split; [apply cold_reports|]. split; [reflexivity|]. split; [exact mid_differ|]. split; [eexists; split; vm_compute; reflexivity|]. split; [vm_compute; reflexivity|]. eexists. split; vm_compute; reflexivity.
Qed.
(* with warm start the rest of the population matters *)
Theorem C88_warm_refuted : exists L (D : discovery L) (G : logger L) rngof c i cc mix f p X y steps (e e' : est D (shipped_composition L rngof (ga c) i cc mix f) G) b b',
  cwarm cc = true /\ carchive cc = false /\ sans e = sans e' /\ best e = best e' /\ M_Fit.elitist (snd (rest p false X y steps e)) = Some (Learned b) /\ M_Fit.elitist (snd (rest p false X y steps e')) = Some (Learned b') /\ ebits b <> ebits b'.
Proof.
  exists mean_learner, (batches mid_batches), (recorder mean_learner), (fun _ => mid_tape), mid_ga, tt, (mkCcfg (RandomInit (1#2)) true false), (M_Solution.emix ex_env), (fun _ => L_Shipped.by_count1), (cold_par 0), (eX ex_env), (ey ex_env), [1%nat], (mid_est true [false; false; false]), (mid_est true [false; true; false]).
  eexists. eexists. split; [reflexivity|]. split; [reflexivity|]. split; [reflexivity|]. split; [vm_compute; reflexivity|]. split; [vm_compute; reflexivity|]. split; [vm_compute; reflexivity|discriminate].
Qed.
Print Assumptions C88_warm_refuted.
