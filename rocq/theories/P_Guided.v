(* C63: learning goes on where the model found so far is weak. *)
From Verif Require Import PyNum PyList PyMon PyRng M_Matching S_Matching M_Rule M_RuleGen M_Mixing M_Discovery S_Discovery M_Fit S_Fit L_FitEx M_Shipped L_ShippedEx L_DiscoveryEx S_Predicting S_Constrained S_Guided L_Guided L_GuidedEx.

(* each discovery is given the best model of the composition just before it, however fit ends *)
Theorem C63_elitist_handed_on : forall (L : learner) (D : discovery L) (C : composition L) (G : logger L) p os X y (e : est (recorded_d D) (recorded_c C) G) r e' k call,
  ready D C G p X y -> fit p os false X y e = (r, e') -> nth_error (dcalls e') k = Some call ->
  handed_on C (if Nat.ltb 0 (n_initial p) then 1 else 0) (ccalls e') k call.
Proof. exact elitist_handed_on. Qed.
Print Assumptions C63_elitist_handed_on.
(* origins by matching: every new rule covers a sample that one of the rules looked at misses, if there is such a sample *)
Theorem C63_new_rules_cover_missed : forall (L : learner) rngof (D : discovery L) use (C : composition L) (G : logger L) p os X y d (e : est (recorded_d D) (recorded_c C) G) r e' call rs new,
  seeks L rngof D (Matching use) -> table d X y -> ready D C G p X y -> fit p os false X y e = (r, e') -> In call (dcalls e') -> d_out call = Ok new ->
  guiding use call rs -> (exists x, In x X /\ missing rs x) -> Forall (fun r => exists x, In x X /\ missing rs x /\ covers (cond r) x) new.
Proof. exact cover_missed. Qed.
Print Assumptions C63_new_rules_cover_missed.
(* origins by error: every new rule covers a sample the model predicts wrongly, if there is such a sample *)
Theorem C63_new_rules_cover_wrong : forall (L : learner) rngof (D : discovery L) use (C : composition L) (G : logger L) p os X y d (e : est (recorded_d D) (recorded_c C) G) r e' call b rs new pr g g',
  seeks L rngof D (SquaredError use) -> table d X y -> ready D C G p X y -> fit p os false X y e = (r, e') -> In call (dcalls e') -> d_out call = Ok new ->
  d_elite call = Some b -> steady (mfilter (emix b)) -> guiding use call rs -> rs <> [] ->
  sol_predict L (emix b) (if use then ebits b else repeat true (length (d_pool call))) (d_pool call) X false g = (Ok pr, g') ->
  (exists x, mispredicted X y pr x) -> Forall (fun r => exists x, mispredicted X y pr x /\ covers (cond r) x) new.
Proof. exact cover_wrong. Qed.
Print Assumptions C63_new_rules_cover_wrong.
(* a fit with each choice of origins; the calls named have a model that is not right everywhere, and find rules *)
Example C63_satisfiable :
  seeks ML tapes wide_es (Matching true) /\ seeks ML tapes error_rs (SquaredError true) /\ table 1 dx dy2 /\ ready wide_es ga1 silent par_g dx dy2 /\ ready error_rs ga1 silent par_s dx dy2 /\
  fst (run_g wide_es par_g) = Ok tt /\ fst (run_g error_rs par_s) = Ok tt /\ length (dcalls (end_g wide_es par_g)) = 5%nat /\
  (exists c new b rs, In c (dcalls (end_g wide_es par_g)) /\ d_out c = Ok new /\ new <> [] /\ d_elite c = Some b /\ guiding true c rs /\ exists x, In x dx /\ missing rs x) /\
  (exists c new b rs pr g, In c (dcalls (end_g error_rs par_s)) /\ d_out c = Ok new /\ new <> [] /\ d_elite c = Some b /\ steady (mfilter (emix b)) /\ guiding true c rs /\ rs <> [] /\
     sol_predict ML (emix b) (ebits b) (d_pool c) dx false g = (Ok pr, g) /\ (exists x, mispredicted dx dy2 pr x) /\ (exists x, In x dx /\ ~ mispredicted dx dy2 pr x)).
Proof. exact guided_example. Qed.
(* with a mutation that moves the condition, a new rule can lie where the model misses nothing *)
Theorem C63_moved_away_refuted : exists (L : learner) rngof (c : escfg) mr (C : composition L) (G : logger L) p X y d (e' : est (recorded_d (es_discovery L rngof c (GivenCombined mr None))) (recorded_c C) G) call new rs r,
  d_type (es_d c) = OrderedBound /\ d_init (es_d c) = MeanInit /\ d_origin (es_d c) = Matching true /\ table d X y /\ ready (es_discovery L rngof c (GivenCombined mr None)) C G p X y /\
  fit p 0 false X y (unfitted (recorded_d (es_discovery L rngof c (GivenCombined mr None))) (recorded_c C) G) = (Ok tt, e') /\ In call (dcalls e') /\ d_out call = Ok new /\ guiding true call rs /\
  (exists x, In x X /\ missing rs x) /\ In r new /\ forall x, In x X -> missing rs x -> ~ covers (cond r) x.
Proof. exact moved_away. Qed.
Print Assumptions C63_moved_away_refuted.
