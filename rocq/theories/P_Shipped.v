(* Whole fit calls with the components of the library: C54 the learned model, C55 initial rules; C21, C22, C37, C38 for the estimator as a whole. *)
From Coq Require Import Lia.
From Verif Require Import PyNum PyList PyMon PyRng L_Num L_List M_Matching M_Rule S_Rule M_RuleGen M_Mixing M_Discovery S_Discovery M_Novelty S_Novelty L_RuleProps L_DiscoveryEx
  M_Solution S_Solution M_Composition S_Composition M_GA S_Optimizers M_Fit S_Fit L_FitProps L_FitEx M_Shipped S_Shipped L_ShippedFit L_ShippedInit L_ShippedEx L_Children L_BreedFit.

(* ===== C54 ===== *)
(* every rule of the final pool tells the truth about the training data and passes the acceptance criterion; the elitist has one bit per rule
   and its measured values are those of its own prediction of the training data *)
Theorem C54_model_is_sound : forall L rngof (D : discovery L) k a K (O : optimizer K) i cc mix f (G : logger L) p os X y d (e e' : est D (shipped_composition L rngof O i cc mix f) G),
  library_discovery L rngof D k a -> shipped O i -> table d X y -> X <> [] -> usable a -> given_dim d k -> (forall m x, exists q, rfitness L m x = Fin q) ->
  fit p os false X y e = (Ok tt, e') -> is_error e' = false ->
  Forall (fun r => fitted_on X y r /\ matches_some X r /\ passes a y r) (pool e') /\
  exists b, elitist e' = Some (Learned b) /\ M_Fit.epool b = pool e' /\ M_Fit.emix b = mix /\ length (ebits b) = length (pool e') /\
    exists g g', sol_fit L mix (f (n_rules p * n_iter p + n_initial p)%nat) (ebits b) (pool e') X y g = (Ok (eatt b), g').
Proof. exact library_sound. Qed.
Print Assumptions C54_model_is_sound.
(* an evolution strategy, a random search and a novelty search, each with a genetic algorithm *)
Example C54_satisfiable :
  library_discovery ML tapes es1 (GivenClip None) (MaxError (Fin 1)) /\ library_discovery ML tapes (rs1 (SquaredError true)) (GivenClip None) (MaxError (Fin 1)) /\ library_discovery ML tapes ns1 (GivenClip None) (MaxError (Fin 1)) /\
  shipped ga_o tt /\ table 1 dx dyy /\ usable (MaxError (Fin 1)) /\ given_dim 1 (GivenClip None) /\ (forall m x, exists q, rfitness ML m x = Fin q) /\
  learns es1 ga1 par1 = true /\ learns (rs1 (SquaredError true)) ga1 par1 = true /\ learns ns1 ga1 par1 = true /\
  length (pool (end_of es1 ga1 par1)) = 3%nat /\ length (pool (end_of (rs1 (SquaredError true)) ga1 par1)) = 3%nat /\ length (pool (end_of ns1 ga1 par1)) = 3%nat.
Proof.
  split; [apply (Lib_es ML tapes (mkEs (d1 (Matching true)) 2 2 EsPlus 2 (Mut (MutNormal (Scalar 1))) RFittest))|].
  split; [apply (Lib_rs ML tapes (mkRs (d1 (SquaredError true)) 2 RFittest))|].
  split; [apply (Lib_ns ML tapes (mkNs (d1 UniformSamples) 2 2 4 1 1 true (1#2) (Mut (MutNormal (Scalar (1#4)))) RFittest NBasic TBasic ANovel 1)); exact I|].
  split; [constructor|]. split; [exact dx_table|]. split; [discriminate|]. split; [exact I|]. split; [exact finite_fitness|]. repeat split; vm_compute; reflexivity.
Qed.

(* ===== C55 ===== *)
(* a discovery whose origins ask the elitist for its errors: after initial rules were found, the first iteration always fails and nothing is learned *)
Theorem C55_initial_rules_always_fail : forall L rngof (D : discovery L) (C : composition L) (G : logger L) p X y os (e : est (recorded_d D) (recorded_c C) G) r e' d0 new k d1,
  asks_elitist L rngof D -> ready D C G p X y -> starts_empty C -> (0 < n_iter p)%nat -> (0 < n_rules p)%nat -> (0 < n_initial p)%nat -> (step e < n_iter p)%nat ->
  dnew D X = Ok d0 -> drun D X y [] None (n_initial p) (mkSeed (child_stream (root_seed os (random_state p)) (2 * step e)) 0) d0 = (Ok new, (k, d1)) -> new <> [] ->
  fit p os false X y e = (r, e') -> r = Ok tt /\ is_fitted e' = true /\ is_error e' = true.
Proof. exact initial_rules_fail. Qed.
Print Assumptions C55_initial_rules_always_fail.
Theorem C55_initial_rules_hurt_refuted : exists (L : learner) rngof (D : discovery L) k a K (O : optimizer K) i cc mix f (G : logger L) p p' X y e1 e2,
  library_discovery L rngof D k a /\ shipped O i /\ carchive cc = true /\ ready D (shipped_composition L rngof O i cc mix f) G p X y /\
  p = mkParams (n_iter p') 0 (n_rules p') (random_state p') (patience p') (delta p') /\
  fit p 0 false X y (unfitted (recorded_d D) (recorded_c (shipped_composition L rngof O i cc mix f)) G) = (Ok tt, e1) /\ is_error e1 = false /\
  fit p' 0 false X y (unfitted (recorded_d D) (recorded_c (shipped_composition L rngof O i cc mix f)) G) = (Ok tt, e2) /\ is_error e2 = true.
Proof. exact initial_rules_hurt. Qed.
Print Assumptions C55_initial_rules_hurt_refuted.
Example C55_satisfiable :
  asks_elitist ML tapes (rs1 (SquaredError true)) /\ ready (rs1 (SquaredError true)) ga1 silent par_i dx dyy /\ starts_empty ga1 /\
  outs (rs1 (SquaredError true)) ga1 par_i = [inl 2%nat; inr AttributeError].
Proof. split; [apply Ask_rs with true; reflexivity|]. split; [apply rs1_ready; cbn; lia|]. split; [apply shipped_starts_empty|]. vm_compute. reflexivity. Qed.

(* ===== C21, C22 ===== *)
(* in every call of fit, however it ends: discovery is given an elitist with one bit per rule; a composition step leaves an elitist measured on its pool, or fails,
   but never because genome and pool have different lengths *)
Theorem C21_fit_keeps_genomes_in_step : forall L rngof (D : discovery L) K (O : optimizer K) i cc mix f (G : logger L) p os X y
  (e : est (recorded_d D) (recorded_c (shipped_composition L rngof O i cc mix f)) G) r e',
  shipped O i -> ready D (shipped_composition L rngof O i cc mix f) G p X y -> fit p os false X y e = (r, e') ->
  Forall elite_fits (dcalls e') /\ Forall (sound_step mix f X y) (ccalls e') /\ (carchive cc = true -> Forall delivered (ccalls e')).
Proof. exact shipped_calls. Qed.
Print Assumptions C21_fit_keeps_genomes_in_step.
Theorem C22_fit_never_worse : forall L rngof (D : discovery L) K (O : optimizer K) i cc mix f (G : logger L) p os X y
  (e e' : est (recorded_d D) (recorded_c (shipped_composition L rngof O i cc mix f)) G) k1 k2 c1 c2 f1 f2,
  shipped O i -> carchive cc = true -> deterministic mix -> (forall m x k j, is_nan (f m x k j) = false) -> (forall m x k j j', f m x k j = f m x k j') ->
  fit p os false X y e = (Ok tt, e') -> is_error e' = false ->
  (k1 <= k2)%nat -> nth_error (ccalls e') k1 = Some c1 -> nth_error (ccalls e') k2 = Some c2 -> elite_fitness c1 f1 -> elite_fitness c2 f2 -> nle f1 f2 = true.
Proof. exact fit_never_worse. Qed.
Print Assumptions C22_fit_never_worse.
Example C22_fit_satisfiable :
  shipped ga_o tt /\ carchive arch1 = true /\ deterministic mix1 /\ (forall m x k j, is_nan (small_error m x k j) = false) /\ (forall m x k j j', small_error m x k j = small_error m x k j') /\
  ready es1 ga1 silent par1 dx dyy /\ learns es1 ga1 par1 = true /\ length (fits es1 ga1 par1) = 3%nat.
Proof. split; [constructor|]. split; [reflexivity|]. split; [left; reflexivity|]. split; [reflexivity|]. split; [reflexivity|]. split; [apply es1_ready; cbn; lia|]. split; vm_compute; reflexivity. Qed.

(* ===== C37, C38 ===== *)
(* with an archive nothing more is needed of the composition: fit returns, and the error state means that a call raised *)
Theorem C37_library_error_state : forall (L : learner) rngof (D : discovery L) K (O : optimizer K) i cc mix f (G : logger L) p os X y (e : est (recorded_d D) (recorded_c (shipped_composition L rngof O i cc mix f)) G) r e',
  shipped O i -> carchive cc = true -> ready D (shipped_composition L rngof O i cc mix f) G p X y -> fit p os false X y e = (r, e') -> quiet G -> (0 < n_iter p)%nat -> (0 < n_rules p)%nat ->
  (n_initial p = 0%nat \/ (step e < n_iter p)%nat) -> all_python e' ->
  r = Ok tt /\ is_fitted e' = true /\ (is_error e' = true <-> some_call_raised e').
Proof. exact library_returns. Qed.
Print Assumptions C37_library_error_state.
(* without an archive the population can die out, and fit raises *)
Theorem C37_extinct_refuted : exists (L : learner) rngof (D : discovery L) k a K (O : optimizer K) i cc mix f (G : logger L) p X y e',
  library_discovery L rngof D k a /\ shipped O i /\ ready D (shipped_composition L rngof O i cc mix f) G p X y /\ quiet G /\ (0 < n_iter p)%nat /\ (0 < n_rules p)%nat /\
  fit p 0 false X y (unfitted (recorded_d D) (recorded_c (shipped_composition L rngof O i cc mix f)) G) = (Raise AttributeError, e') /\ ~ some_call_raised e'.
Proof. exact extinct_raises. Qed.
Print Assumptions C37_extinct_refuted.
(* the discoveries of the library keep to the number asked for, so the pool is bounded *)
Theorem C38_library_modest : forall L rngof (D : discovery L) k a, library_discovery L rngof D k a -> modest D.
Proof. exact library_modest. Qed.
Print Assumptions C38_library_modest.
(* ===== C39: the random numbers of one call ===== *)
(* the evolution strategy counts the children of the seed it uses (one per rule asked for, or none if it stopped before the first task), and the
   result depends on the random numbers of the seed and of these children only; so the next call, which goes on counting, shares none of them *)
Theorem C39_children : forall (L : learner) rngof c k X y d pool el n s (z : escfg) r m z', table d X y -> drun (es_discovery L rngof c k) X y pool el n s z = (r, (m, z')) ->
  (m = 0 \/ m = n)%nat /\ (forall out, r = Ok out -> m = n) /\ z' = z /\
  (forall rngof', rngof' (sstream s) = rngof (sstream s) -> (forall i, (i < m)%nat -> rngof' (child s (spawned s + i)) = rngof (child s (spawned s + i))) ->
   drun (es_discovery L rngof' c k) X y pool el n s z = (r, (m, z'))).
Proof.
  intros L rngof c k X y d pool el n s z r m z' HT H. destruct (es_children L rngof c k X y d pool el n s z r m z' HT H) as (_ & A & B). split; [|split; [exact A|exact B]].
  destruct r as [out|x]; [right; exact (A out eq_refl)|exact (es_all_children L rngof c k X y d pool el n s z x m z' HT H)].
Qed.
Print Assumptions C39_children.
(* random search and novelty search use the seed alone *)
Theorem C39_no_children : forall (L : learner) rngof,
  (forall c k X y pool el n s (z : rscfg) r m z', drun (rs_discovery L rngof c k) X y pool el n s z = (r, (m, z')) ->
     m = 0%nat /\ forall rngof', rngof' (sstream s) = rngof (sstream s) -> drun (rs_discovery L rngof' c k) X y pool el n s z = (r, (m, z'))) /\
  (forall c k X y pool el n s (z : nscfg * list (cell L)) r m z', drun (ns_discovery L rngof c k) X y pool el n s z = (r, (m, z')) ->
     m = 0%nat /\ forall rngof', rngof' (sstream s) = rngof (sstream s) -> drun (ns_discovery L rngof' c k) X y pool el n s z = (r, (m, z'))).
Proof. intros L rngof. split; [exact (rs_children L rngof)|exact (ns_children L rngof)]. Qed.
Print Assumptions C39_no_children.
Example C39_children_satisfiable : table 1 dx dyy /\ counts (drun (es_discovery mean_learner tapes es_two (GivenClip None)) dx dyy [] None 2 two_seed es_two) = (true, 2%nat).
Proof. split; [exact dx_table|vm_compute; reflexivity]. Qed.
(* ===== C76: novelty search within fit ===== *)
(* the archive of a search starts with a copy of pool_ (ns.py:108): the rules of the pool, with the attributes earlier searches left on them *)
Theorem C76_archive_in_fit : forall (L : learner) rngof c k (C : composition L) (G : logger L) p os X y (e e' : est (ns_discovery L rngof c k) C G),
  fit p os false X y e = (Ok tt, e') -> is_error e' = false -> exists c' cells, disc e' = Some (c', cells) /\ map crule cells = pool e'.
Proof. exact archive_in_fit. Qed.
Print Assumptions C76_archive_in_fit.
Theorem C76_archive_step : forall (L : learner) rngof c k X y pool el n s c' cells new j d',
  drun (ns_discovery L rngof c k) X y pool el n s (c', cells) = (Ok new, (j, d')) ->
  exists el' mx out g', ns_optimize c' X y cells el' mx n (rngof (sstream s)) = (Ok out, g') /\ new = map crule out /\ d' = (c', cells ++ out).
Proof. exact archive_step. Qed.
Print Assumptions C76_archive_step.
Example C76_archive_satisfiable : learns ns1 ga1 par1 = true /\ length (pool (end_of ns1 ga1 par1)) = 3%nat.
Proof. split; vm_compute; reflexivity. Qed.
