(* The estimator: C37 failures, C38 the pool, C39 seeds, C40 early stopping, C42 cleanup, C52 refused calls, C53 seeds that are refused. *)
From Verif Require Import PyNum PyList PyMon PyRng L_Num L_List M_Matching M_Rule M_RuleGen M_Mixing M_Fit S_Fit L_Fit L_FitProps L_FitSeeds L_RuleProps L_DiscoveryEx L_GenomeProps L_FitEx L_FitClean.
From Coq Require Import Lia.

(* ===== C37 ===== *)
(* a component that raises never makes fit raise, whatever the estimator has been through before; predictions are zeros *)
Theorem C37_failure_is_contained : forall (L : learner) (D : discovery L) (C : composition L) (G : logger L) p os clean X y (e : est (recorded_d D) (recorded_c C) G) r e',
  ready D C G p X y -> fit p os clean X y e = (r, e') -> all_python e' -> some_call_raised e' ->
  r = Ok tt /\ is_fitted e' = true /\ forall X' g, good_table X' -> predict e' X' g = (Ok (zeros X'), g).
Proof. exact contained_predicts. Qed.
Print Assumptions C37_failure_is_contained.
(* fit returns, and the error state means exactly that a component raised; an error of an earlier fit is forgotten *)
Theorem C37_error_state_exactly : forall (L : learner) (D : discovery L) (C : composition L) (G : logger L) p os X y (e : est (recorded_d D) (recorded_c C) G) r e',
  ready D C G p X y -> fit p os false X y e = (r, e') -> quiet G -> (0 < n_iter p)%nat -> (0 < n_rules p)%nat ->
  (n_initial p = 0%nat \/ (step e < n_iter p)%nat) -> starts_empty C -> all_python e' -> Forall delivered (ccalls e') ->
  r = Ok tt /\ is_fitted e' = true /\ (is_error e' = true <-> some_call_raised e').
Proof. exact error_state_exactly. Qed.
Print Assumptions C37_error_state_exactly.
(* without an error, predict is the prediction of the last elitist on the current pool *)
Theorem C37_success_predicts_elitist : forall (L : learner) (D : discovery L) (C : composition L) (G : logger L) p os X y (e : est (recorded_d D) (recorded_c C) G) e',
  ready D C G p X y -> fit p os false X y e = (Ok tt, e') -> is_error e' = false ->
  exists b, (forall cs c, ccalls e' = cs ++ [c] -> c_best c = Ok (Some b)) /\
    forall X' g, good_table X' -> predict e' X' g = sol_predict L (smix b) (sbits b) (pool e') X' false g.
Proof. exact success_predicts. Qed.
Print Assumptions C37_success_predicts_elitist.
Theorem C37_zero_iterations_refuted : exists (L : learner) (D : discovery L) (C : composition L) (G : logger L) p X y e',
  ready D C G p X y /\ quiet G /\ starts_empty C /\ fit p 0 false X y (unfitted (recorded_d D) (recorded_c C) G) = (Raise AttributeError, e').
Proof. exact zero_iterations. Qed.
Print Assumptions C37_zero_iterations_refuted.
(* n_rules = 0: the error state without any failing component *)
Theorem C37_no_rules_refuted : exists (L : learner) (D : discovery L) (C : composition L) (G : logger L) p X y e',
  ready D C G p X y /\ quiet G /\ starts_empty C /\ (0 < n_iter p)%nat /\
  fit p 0 false X y (unfitted (recorded_d D) (recorded_c C) G) = (Ok tt, e') /\ is_error e' = true /\ ~ some_call_raised e'.
Proof. exact no_rules_asked. Qed.
Print Assumptions C37_no_rules_refuted.
Example C37_satisfiable :
  let e1 := end_of breaks works par1 in let e2 := end_of finds works par1 in
  ready breaks works silent par1 dx dyy /\ all_python e1 /\ some_call_raised e1 /\ is_error e1 = true /\ length (pool e1) = 1%nat /\
  ready finds works silent par1 dx dyy /\ quiet silent /\ starts_empty works /\ all_python e2 /\ Forall delivered (ccalls e2) /\ is_error e2 = false /\ good_table dx.
Proof. exact fit_example. Qed.

(* ===== C38 ===== *)
(* the pool at any time is the concatenation of what was found so far: nothing is changed or removed *)
Theorem C38_pool_is_what_was_found : forall (L : learner) (D : discovery L) (C : composition L) (G : logger L) p os X y (e : est (recorded_d D) (recorded_c C) G) r e',
  ready D C G p X y -> fit p os false X y e = (r, e') ->
  pool e' = found (dcalls e') /\
  (forall k c, nth_error (dcalls e') k = Some c -> d_pool c = found (firstn k (dcalls e'))) /\
  (forall k c, nth_error (ccalls e') k = Some c -> c_pool c = found (firstn ((if Nat.ltb 0 (n_initial p) then 1 else 0) + S k) (dcalls e'))).
Proof. exact pool_grows. Qed.
Print Assumptions C38_pool_is_what_was_found.
Theorem C38_pool_bounded : forall (L : learner) (D : discovery L) (C : composition L) (G : logger L) p os X y (e : est (recorded_d D) (recorded_c C) G) r e',
  ready D C G p X y -> modest D -> fit p os false X y e = (r, e') ->
  (length (pool e') <= n_initial p + n_iter p * n_rules p)%nat /\
  forall c, In c (ccalls e') -> (length (c_pool c) <= c_max c)%nat /\ c_max c = (n_initial p + n_iter p * n_rules p)%nat.
Proof. exact pool_bounded. Qed.
Print Assumptions C38_pool_bounded.
Example C38_satisfiable : let p := par 3 2 2 (IntSeed 7) (-1) 0 in ready finds_n works silent p dx dyy /\ modest finds_n /\ length (pool (end_of finds_n works p)) = 8%nat.
Proof. split; [apply finds_n_ready; cbn; lia|]. split; [exact finds_n_modest|]. vm_compute. reflexivity. Qed.

(* ===== C39 ===== *)
(* with an integer seed and no initial rules the result does not depend on anything that happened before, nor on the operating system *)
Theorem C39_same_seed_same_result : forall (L : learner) (D : discovery L) (C : composition L) (G : logger L) p os1 os2 clean X y (e1 e2 : est D C G),
  (exists v, random_state p = IntSeed v) -> (n_initial p = 0%nat \/ step e1 = step e2) -> (0 < n_iter p)%nat ->
  fst (fit p os1 clean X y e1) = fst (fit p os2 clean X y e2) /\
  (fst (fit p os1 clean X y e1) = Ok tt -> snd (fit p os1 clean X y e1) = snd (fit p os2 clean X y e2)).
Proof. exact fit_same. Qed.
Print Assumptions C39_same_seed_same_result.
(* step k is given child 2k for discovery and child 2k+1 for composition, unused before *)
Theorem C39_seed_of_each_step : forall (L : learner) (D : discovery L) (C : composition L) (G : logger L) p os X y (e : est (recorded_d D) (recorded_c C) G) r e',
  ready D C G p X y -> n_initial p = 0%nat -> fit p os false X y e = (r, e') ->
  (forall k c, nth_error (dcalls e') k = Some c -> d_seed c = mkSeed (child_stream (root_seed os (random_state p)) (2 * k)) 0) /\
  (forall k c, nth_error (ccalls e') k = Some c -> c_seed c = mkSeed (child_stream (root_seed os (random_state p)) (2 * k + 1)) 0).
Proof. exact seed_of_step. Qed.
Print Assumptions C39_seed_of_each_step.
Theorem C39_streams_distinct : forall (L : learner) (D : discovery L) (C : composition L) (G : logger L) p os X y (e : est (recorded_d D) (recorded_c C) G) r e',
  ready D C G p X y -> n_initial p = 0%nat -> fit p os false X y e = (r, e') ->
  NoDup (map (fun c => sstream (d_seed c)) (dcalls e') ++ map (fun c => sstream (c_seed c)) (ccalls e')).
Proof. exact streams_differ. Qed.
Print Assumptions C39_streams_distinct.
(* with initial rules: the initial discovery and the first step share their seed *)
Theorem C39_initial_rules_share_seed_refuted : exists (L : learner) (D : discovery L) (C : composition L) (G : logger L) p X y e' c0 c1,
  ready D C G p X y /\ fit p 0 false X y (unfitted (recorded_d D) (recorded_c C) G) = (Ok tt, e') /\ is_error e' = false /\
  nth_error (dcalls e') 0 = Some c0 /\ nth_error (dcalls e') 1 = Some c1 /\ d_seed c0 = d_seed c1.
Proof. exact initial_shares. Qed.
Print Assumptions C39_initial_rules_share_seed_refuted.
(* ... and fitting the same object again gives another pool *)
Theorem C39_second_fit_differs_refuted : exists (L : learner) (D : discovery L) (C : composition L) (G : logger L) p X y e1 e2,
  ready D C G p X y /\ (exists v, random_state p = IntSeed v) /\ (0 < n_iter p)%nat /\
  fit p 0 false X y (unfitted D C G) = (Ok tt, e1) /\ fit p 0 false X y e1 = (Ok tt, e2) /\
  is_error e1 = false /\ is_error e2 = false /\ pool e1 <> pool e2.
Proof. exact second_fit_differs. Qed.
Print Assumptions C39_second_fit_differs_refuted.
(* ... or fails when there are fewer iterations than last time *)
Theorem C39_fewer_iterations_refuted : exists (L : learner) (D : discovery L) (C : composition L) (G : logger L) p1 p2 X y e1 e2,
  ready D C G p1 X y /\ ready D C G p2 X y /\ quiet G /\ starts_empty C /\ (0 < n_iter p2)%nat /\ (0 < n_rules p2)%nat /\
  fit p1 0 false X y (unfitted (recorded_d D) (recorded_c C) G) = (Ok tt, e1) /\ is_error e1 = false /\
  fit p2 0 false X y e1 = (Ok tt, e2) /\ is_error e2 = true /\ ~ some_call_raised e2.
Proof. exact stale_step. Qed.
Print Assumptions C39_fewer_iterations_refuted.
Example C39_satisfiable :
  ready finds works silent par1 dx dyy /\ n_initial par1 = 0%nat /\ (0 < n_iter par1)%nat /\ random_state par1 = IntSeed 7 /\
  fst (fit par1 0 false dx dyy (unfitted finds works silent)) = Ok tt /\
  map d_seed (dcalls (end_of finds works par1)) = [mkSeed (mkStream 7 [0%nat]) 0; mkSeed (mkStream 7 [2%nat]) 0; mkSeed (mkStream 7 [4%nat]) 0].
Proof. split; [apply scripted_ready; cbn; lia|]. split; [reflexivity|]. split; [cbn; lia|]. split; [reflexivity|]. split; vm_compute; reflexivity. Qed.

(* ===== C40 ===== *)
Theorem C40_disabled_never_stops : forall (L : learner) (D : discovery L) (C : composition L) (G : logger L) p os X y (e : est (recorded_d D) (recorded_c C) G) e',
  ready D C G p X y -> fit p os false X y e = (Ok tt, e') -> is_error e' = false -> (patience p <= 0)%Z -> length (ccalls e') = n_iter p.
Proof. exact disabled_never_stops. Qed.
Print Assumptions C40_disabled_never_stops.
(* what is done: learning stops at the first iteration after which the last `patience` elitist fitnesses were not above delta.
   Missing: the comparison with the previous iteration (each fitness is compared with 0). *)
Theorem C40_stops_when_not_above_delta_partial : forall (L : learner) (D : discovery L) (C : composition L) (G : logger L) p os X y (e : est (recorded_d D) (recorded_c C) G) e',
  ready D C G p X y -> fit p os false X y e = (Ok tt, e') -> is_error e' = false -> (0 < patience p)%Z ->
  exists fs, Forall2 elite_fitness (ccalls e') fs /\
    (length fs = n_iter p \/ last_all (fun f => nlt (Fin (delta p)) f = false) (Z.to_nat (patience p)) fs) /\
    (forall k, (k < length fs)%nat -> ~ last_all (fun f => nlt (Fin (delta p)) f = false) (Z.to_nat (patience p)) (firstn k fs)).
Proof. exact stops_when. Qed.
Print Assumptions C40_stops_when_not_above_delta_partial.
Theorem C40_stagnation_unnoticed_refuted : exists (L : learner) (D : discovery L) (C : composition L) (G : logger L) p X y e' fs k,
  ready D C G p X y /\ (0 < patience p)%Z /\ fit p 0 false X y (unfitted (recorded_d D) (recorded_c C) G) = (Ok tt, e') /\ is_error e' = false /\
  Forall2 elite_fitness (ccalls e') fs /\ length fs = n_iter p /\ (k < length fs)%nat /\ stagnates (delta p) (Z.to_nat (patience p)) (firstn k fs).
Proof. exact stagnating_goes_on. Qed.
Print Assumptions C40_stagnation_unnoticed_refuted.
Theorem C40_improving_run_stopped_refuted : exists (L : learner) (D : discovery L) (C : composition L) (G : logger L) p X y e' fs,
  ready D C G p X y /\ (0 < patience p)%Z /\ fit p 0 false X y (unfitted (recorded_d D) (recorded_c C) G) = (Ok tt, e') /\ is_error e' = false /\
  Forall2 elite_fitness (ccalls e') fs /\ (length fs < n_iter p)%nat /\ ~ stagnates (delta p) (Z.to_nat (patience p)) fs.
Proof. exact improving_cut_off. Qed.
Print Assumptions C40_improving_run_stopped_refuted.
Example C40_satisfiable :
  ready finds works silent par1 dx dyy /\ is_error (end_of finds works par1) = false /\ (patience par1 <= 0)%Z /\
  ready finds growing silent es_p dx dyy /\ (0 < patience es_p)%Z /\ fst (run finds growing es_p) = Ok tt /\ length (ccalls (end_of finds growing es_p)) = 2%nat.
Proof. split; [apply scripted_ready; cbn; lia|]. split; [vm_compute; reflexivity|]. split; [cbn; lia|]. split; [apply scripted_ready; cbn; lia|]. split; [cbn; lia|]. split; vm_compute; reflexivity. Qed.

(* ===== C42 ===== *)
Theorem C42_cleanup_keeps_predictions : forall (L : learner) (D : discovery L) (C : composition L) (G : logger L) (e : est D C G) r e' X g,
  cleanup e = (r, e') -> predict e' X g = predict e X g.
Proof. exact cleanup_predicts. Qed.
Print Assumptions C42_cleanup_keeps_predictions.
(* fit with cleanup is fit without it, followed by cleanup: the same model *)
Theorem C42_fit_with_cleanup : forall (L : learner) (D : discovery L) (C : composition L) (G : logger L) p os X y (e : est D C G) e1 r2 e2 X' g,
  fit p os false X y e = (Ok tt, e1) -> fit p os true X y e = (r2, e2) -> predict e2 X' g = predict e1 X' g.
Proof. exact fit_cleanup_predicts. Qed.
Print Assumptions C42_fit_with_cleanup.
(* what remains: the selected rules, all selected; the components are gone *)
Theorem C42_only_selected_rules_remain : forall (L : learner) (D : discovery L) (C : composition L) (G : logger L) (e : est D C G) r e', cleanup e = (r, e') -> r = Ok tt ->
  disc e' = None /\ compo e' = None /\
  (forall b, elitist e = Some (Learned b) -> exists sub, subpopulation L (ebits b) (epool b) = Ok sub /\ pool e' = sub /\ incl (pool e') (epool b) /\
     elitist e' = Some (Learned (mkElite (repeat true (length sub)) sub (emix b) (eatt b)))).
Proof. exact cleanup_pool. Qed.
Print Assumptions C42_only_selected_rules_remain.
(* a second cleanup raises AttributeError, which dump catches, and changes neither pool nor predictions *)
Theorem C42_cleanup_twice : forall (L : learner) (D : discovery L) (C : composition L) (G : logger L) (e : est D C G) r1 e1 r2 e2,
  cleanup e = (r1, e1) -> r1 = Ok tt -> cleanup e1 = (r2, e2) ->
  r2 = Raise AttributeError /\ pool e2 = pool e1 /\ forall X g, predict e2 X g = predict e X g.
Proof. exact cleanup_twice. Qed.
Print Assumptions C42_cleanup_twice.
Example C42_satisfiable : fst (cleanup learned) = Ok tt /\ length (pool (snd (cleanup learned))) = 3%nat /\ fst shown = Ok shown_values /\
  fst (fit par1 0 true dx dyy (unfitted finds works silent)) = Ok tt.
Proof. split; [vm_compute; reflexivity|]. split; [vm_compute; reflexivity|]. split; vm_compute; reflexivity. Qed.

(* ===== C52 ===== *)
(* unusable data: fit raises ValueError; an estimator that was not fitted stays so *)
Theorem C52_unfitted_stays_unfitted : forall (L : learner) (D : discovery L) (C : composition L) (G : logger L) p os clean X y (e : est D C G) r e' X' g,
  is_fitted e = false -> ~ good_data X y -> fit p os clean X y e = (r, e') ->
  r = Raise ValueError /\ predict e' X' g = (Raise NotFittedError, g).
Proof. exact refused_unfitted. Qed.
Print Assumptions C52_unfitted_stays_unfitted.
(* ... but a fitted one has lost its model and answers zeros *)
Theorem C52_refused_call_loses_model_refuted : exists (L : learner) (D : discovery L) (C : composition L) (G : logger L) p X y X2 y2 e1 e2 g v1 g1,
  ready D C G p X y /\ fit p 0 false X y (unfitted D C G) = (Ok tt, e1) /\ is_error e1 = false /\
  predict e1 X g = (Ok v1, g1) /\ fit p 0 false X2 y2 e1 = (Raise ValueError, e2) /\ predict e2 X g = (Ok (zeros X), g) /\ ~ Forall2 Qeq v1 (zeros X).
Proof. exact refused_loses_model. Qed.
Print Assumptions C52_refused_call_loses_model_refuted.
Example C52_satisfiable : is_fitted (unfitted finds works silent) = false /\ ~ good_data dx [0].
Proof. split; [reflexivity|exact bad_data]. Qed.

(* ===== C53 ===== *)
Theorem C53_numbers_and_none_accepted : forall os r, seedable r -> check_random_state r = Ok tt /\ seed_sequence os r = Ok (mkSeed (mkStream (root_seed os r) []) 0).
Proof. exact seedable_ok. Qed.
Print Assumptions C53_numbers_and_none_accepted.
(* a generator passes check_random_state and is refused one line later *)
Theorem C53_generator_always_refused : forall (L : learner) (D : discovery L) (C : composition L) (G : logger L) p os clean X y (e : est D C G),
  good_data X y -> random_state p = Generator_ -> check_random_state (random_state p) = Ok tt /\ exists e', fit p os clean X y e = (Raise TypeError, e').
Proof. exact generator_refused. Qed.
Print Assumptions C53_generator_always_refused.
Theorem C53_generator_refuted : exists (L : learner) (D : discovery L) (C : composition L) (G : logger L) p X y e',
  good_data X y /\ random_state p = Generator_ /\ check_random_state (random_state p) = Ok tt /\ fit p 0 false X y (unfitted D C G) = (Raise TypeError, e').
Proof. exact generator_witness. Qed.
Print Assumptions C53_generator_refuted.
Example C53_satisfiable : seedable (IntSeed 7) /\ seedable NoSeed /\ good_data dx dyy.
Proof. split; [cbn; lia|]. split; [exact I|]. apply (scripted_ready (fun _ => Ok []) (fun _ => Ok tt) (fun _ => Fin 1) par1). cbn. lia. Qed.
