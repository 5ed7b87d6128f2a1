(* C75: with workable settings nothing raises, and fit always ends with a model. *)
From Coq Require Import Lia.
From Verif Require Import PyNum PyList PyMon PyRng L_Num L_List M_Matching S_Matching M_Rule S_Rule L_RuleProps M_RuleGen M_Mixing M_Discovery S_Discovery L_DiscoveryEx L_GenomeProps M_Novelty S_Novelty L_NoveltyEx
  M_Solution S_Solution M_Composition S_Composition M_GenomeOps M_GA M_Saga M_Aco M_Abc M_Swarm M_Fit S_Fit L_FitEx M_Shipped S_Shipped L_ShippedEx M_Logging M_Defaults S_Live L_LiveNs L_LiveEx.

(* an evolution strategy always comes back with rules: any generators, any number of rules, any pool of fitted rules *)
Theorem C75_es_discovers : forall (L : learner) X y d, table d X y -> X <> [] -> forall c (pool : list (rule L)) el mx n kids g,
  es_works c -> space_dim d (d_constraint (es_d c)) -> Forall (useful X y) pool -> one_bit_each el pool ->
  (asks (d_origin (es_d c)) -> (el <> None /\ mixing_works mx) \/ pool = []) ->
  exists out g', es_optimize c (mkDenv X y pool el mx) n kids g = (Ok out, g').
Proof. exact es_discovers. Qed.
Print Assumptions C75_es_discovers.
Theorem C75_rs_discovers : forall (L : learner) X y d, table d X y -> X <> [] -> forall c (pool : list (rule L)) el mx n g,
  rs_works c -> space_dim d (d_constraint (rs_d c)) -> Forall (useful X y) pool -> one_bit_each el pool ->
  (asks (d_origin (rs_d c)) -> (el <> None /\ mixing_works mx) \/ pool = []) ->
  exists out g', rs_optimize c (mkDenv X y pool el mx) n g = (Ok out, g').
Proof. exact rs_discovers. Qed.
Print Assumptions C75_rs_discovers.
(* novelty search; its pool is what it found before *)
Theorem C75_ns_discovers : forall (L : learner) c X y d (pool : list (cell L)) el mx n g,
  table d X y -> X <> [] -> (forall m e, exists q, rfitness L m e = Fin q) -> space_dim d (d_constraint (ns_d c)) -> ns_works c ->
  Forall (searched d X y) pool -> Forall (fun x => matches_some X (crule x)) pool -> one_bit_each el (map crule pool) ->
  (asks (d_origin (ns_d c)) -> (el <> None /\ mixing_works mx) \/ pool = []) ->
  exists out g', ns_optimize c X y pool el mx n g = (Ok out, g').
Proof. exact ns_goes. Qed.
Print Assumptions C75_ns_discovers.
(* only ordered bounds can be crossed, but the constructor accepts every representation *)
Theorem C75_ns_refuted : exists (c : nscfg) (pool : list (cell mean_learner)) n g,
  ns_new c = Ok c /\ init_works (d_init (ns_d c)) (d_type (ns_d c)) /\ rmutation_works (ns_mut c) (d_type (ns_d c)) /\ (0 < ns_mu c)%nat /\ type_ok (ns_type c) /\
  table 1 dx dyy /\ dx <> [] /\ space_dim 1 (d_constraint (ns_d c)) /\ pool = [] /\ fst (ns_optimize c dx dyy pool None mix1 n g) = Raise TypeError.
Proof. exact ns_fails. Qed.
Print Assumptions C75_ns_refuted.
Example C75_ns_satisfiable : let c := ns_conf 2 NBasic TBasic ANovel in let pool := [old_cell (on_data dx dyy 0 1)] in
  ns_works c /\ space_dim 1 (d_constraint (ns_d c)) /\ Forall (searched 1 dx dyy) pool /\ Forall (fun x => matches_some dx (crule x)) pool /\ one_bit_each (Some [true]) (map crule pool) /\
  forall m e, exists q, rfitness mean_learner m e = Fin q.
Proof.
  split; [constructor; cbn; auto; try discriminate; lia|]. split; [reflexivity|]. split; [exact old_searched|]. split; [|split; [reflexivity|exact mean_finite]].
  constructor; [|constructor]. exists [0]. split; [left; reflexivity|]. repeat constructor; cbn; discriminate.
Qed.
(* the constructor accepts a delay of 0 with "&"; the comparison with the elitist of 0 generations ago then finds an empty list *)
Theorem C75_zero_delay_refuted : exists (c : escfg) (D : denv mean_learner) n kids g,
  es_new c = Ok c /\ init_works (d_init (es_d c)) (d_type (es_d c)) /\ rmutation_works (es_mut c) (d_type (es_d c)) /\ es_sel c <> RRoulette /\ es_operator c = EsAnd /\ es_delay c = 0%nat /\
  table 1 (dX D) (dy D) /\ dX D <> [] /\ space_dim 1 (d_constraint (es_d c)) /\ dpool D = [] /\ fst (es_optimize c D n kids g) = Raise IndexError.
Proof. exact zero_delay_fails. Qed.
Print Assumptions C75_zero_delay_refuted.
(* roulette selection swallows its own error and returns no rule at all, of which the strategy takes the first *)
Theorem C75_roulette_refuted : exists (c : escfg) (D : denv mean_learner) n kids g,
  es_new c = Ok c /\ init_works (d_init (es_d c)) (d_type (es_d c)) /\ rmutation_works (es_mut c) (d_type (es_d c)) /\ es_operator c = EsPlus /\ es_sel c = RRoulette /\
  table 1 (dX D) (dy D) /\ dX D <> [] /\ space_dim 1 (d_constraint (es_d c)) /\ dpool D = [] /\ fst (es_optimize c D n kids g) = Raise IndexError.
Proof. exact roulette_fails. Qed.
Print Assumptions C75_roulette_refuted.
Example C75_discovers_satisfiable : table 1 dx dyy /\ es_works (es_conf EsAnd 3 2 RNondominated) /\ space_dim 1 (d_constraint (es_d (es_conf EsAnd 3 2 RNondominated))) /\
  rs_works (mkRs (d_conf (SquaredError true)) 2 RRoulette) /\ Forall (useful dx dyy) [on_data dx dyy 0 1; on_data dx dyy 0 2] /\
  one_bit_each (Some [true; false]) [on_data dx dyy 0 1; on_data dx dyy 0 2] /\ mixing_works (mkMixing (NBestFitness 2) ExpAsIs 1).
Proof.
  split; [exact dx_table|]. split; [constructor; cbn; [exact I|discriminate|discriminate|lia]|]. split; [reflexivity|]. split; [constructor; cbn; [exact I|lia]|].
  split; [exact ex_useful|]. split; [reflexivity|exact I].
Qed.

(* genetic algorithms, random search, bees, particles and wolves: any number of steps on a growing pool, with or without archive and warm start *)
Theorem C75_composes : forall (L : learner) X y d, table d X y -> X <> [] -> forall f K (O : optimizer K) i cc mix m (steps : list (env L * rng)) g,
  working_composer f cc O i -> mixing_works mix -> one_fit steps ->
  Forall (fun Eg => exists pool : list (rule L), fst Eg = mkEnv pool X y mix (f m) /\ Forall (useful X y) pool) steps ->
  exists st s', compose O cc steps (fresh_comp O i) (mkH [] [] g) = (Ok st, s') /\ (steps <> [] -> exists r, M_Composition.elitist st s' = (Ok (Some r), s')).
Proof. exact composes. Qed.
Print Assumptions C75_composes.
Example C75_composes_satisfiable :
  let steps := [(mkEnv [] dx dyy mix1 (small_error 2), scripted []); (mkEnv [on_data dx dyy 0 1; on_data dx dyy 0 2] dx dyy mix1 (small_error 2), scripted [1#2])] in
  working_composer small_error default_ccfg ga_o tt /\ mixing_works mix1 /\ one_fit steps /\
  Forall (fun Eg => exists pool : list (rule mean_learner), fst Eg = mkEnv pool dx dyy mix1 (small_error 2) /\ Forall (useful dx dyy) pool) steps.
Proof.
  cbv zeta. split; [apply ga_works|]. split; [exact I|]. split.
  - split; [|cbn; auto]. split; [eexists; reflexivity|]. repeat split.
  - constructor; [exists []; auto|]. constructor; [|constructor]. eexists. split; [reflexivity|exact ex_useful].
Qed.

(* the other composers that are covered *)
Example C75_composers_satisfiable : forall cc A b partial,
  working_composer some_good cc (saga1 (mkS1 4 4 (1#4) SelRoulette (NPoint 3) (5#1000) (15#1000) (1#1000) (5#100) (11#10) (6#10) (9#10) (11#10))) (mkRates (1#1000) (9#10)) /\
  working_composer some_good (mkCcfg ZeroInit false true) (saga2 id_trig s2_five) (s2_init s2_five) /\
  working_composer some_good cc (saga3 (mkS3 4 4 (17#100) SelLinearRank (9#10))) tt /\
  working_composer some_good cc (aco (Binary A b) (mkA 4 4 (1#10) 1 0 1 1 true)) None /\ working_composer some_good cc (aco (Complete A b partial) (mkA 4 4 (1#10) 1 0 1 1 true)) None /\
  working_composer some_good cc (bees id_math (mkBee 4 4 3 (FDimensionFlips (1#10)))) tt /\
  working_composer some_good cc (swarm id_math (mkP 4 4 0 1 MSigmoidQuantum)) tt /\ working_composer some_good cc (wolves id_math (mkW 4 4 3 WCrossover)) tt.
Proof. exact all_work. Qed.
(* SAGA2 that keeps its population: a step on an empty pool leaves one solution, and two generations later the comparison with the generation before runs out of it *)
Theorem C75_saga2_refuted : exists t c (f : nat -> Q -> nat -> nat -> num) cc X y mix m (steps : list (env mean_learner * rng)) g,
  Nat.even (s2_size c) = true /\ (0 < s2_size c)%nat /\ selection_works f (s2_sel c) /\ (n_elitists (s2_size c) (s2_ratio c) <= s2_size c)%nat /\ cwarm cc = true /\
  table 1 X y /\ X <> [] /\ mixing_works mix /\ one_fit steps /\
  Forall (fun Eg => exists pool : list (rule mean_learner), fst Eg = mkEnv pool X y mix (f m) /\ Forall (useful X y) pool) steps /\
  fst (compose (saga2 t c) cc steps (fresh_comp (saga2 t c) (s2_init c)) (mkH [] [] g)) = Raise IndexError.
Proof. exact saga2_fails. Qed.
Print Assumptions C75_saga2_refuted.
(* the binary quantum movement divides by a number that random() may return as 0.0 *)
Theorem C75_quantum_refuted : exists M c (f : nat -> Q -> nat -> nat -> num) cc X y mix m (steps : list (env mean_learner * rng)) g,
  (0 < ps_iter c)%nat /\ (0 < ps_size c)%nat /\ table 1 X y /\ X <> [] /\ mixing_works mix /\ one_fit steps /\
  Forall (fun Eg => exists pool : list (rule mean_learner), fst Eg = mkEnv pool X y mix (f m) /\ Forall (useful X y) pool) steps /\
  fst (compose (swarm M c) cc steps (fresh_comp (swarm M c) tt) (mkH [] [] g)) = Raise ZeroDivisionError.
Proof. exact quantum_fails. Qed.
Print Assumptions C75_quantum_refuted.
(* bees whose sources all have fitness 0 have no probabilities to follow *)
Theorem C75_bees_refuted : exists M c (f : nat -> Q -> nat -> nat -> num) cc X y mix m (steps : list (env mean_learner * rng)) g,
  (0 < be_size c)%nat /\ food_fits (be_food c) /\ (forall m e k n, exists q, f m e k n = Fin q /\ 0 <= q) /\ table 1 X y /\ X <> [] /\ mixing_works mix /\ one_fit steps /\
  Forall (fun Eg => exists pool : list (rule mean_learner), fst Eg = mkEnv pool X y mix (f m) /\ Forall (useful X y) pool) steps /\
  fst (compose (bees M c) cc steps (fresh_comp (bees M c) tt) (mkH [] [] g)) = Raise ValueError.
Proof. exact bees_fail. Qed.
Print Assumptions C75_bees_refuted.

(* fit does not raise, the model is not in the error state, and it predicts every table with as many features *)
Theorem C75_fit_succeeds : forall (L : learner) rngof (D : discovery L) k a o K (O : optimizer K) i cc mix f (G : logger L) p os clean X y d (e : est D (shipped_composition L rngof O i cc mix f) G),
  working_discovery L rngof D k a o -> working_composer f cc O i -> mixing_works mix -> table d X y -> X <> [] -> d <> 0%nat -> usable a -> given_dim d k ->
  seedable (random_state p) -> working_logger L G -> (0 < n_iter p)%nat -> (0 < n_rules p)%nat -> (n_initial p = 0 \/ (step e < n_iter p /\ ~ asks o))%nat ->
  exists e' b, fit p os clean X y e = (Ok tt, e') /\ is_error e' = false /\ M_Fit.is_fitted e' = true /\ M_Fit.elitist e' = Some (Learned b) /\
    forall X' g, X' <> [] -> Forall (fun x => length x = d) X' -> exists z g', predict e' X' g = (Ok z, g') /\ length z = length X'.
Proof. exact fit_succeeds. Qed.
Print Assumptions C75_fit_succeeds.
(* the evolution strategy with initial rules; random search whose origins ask the elitist, without *)
Example C75_fit_satisfiable :
  working_discovery ML tapes es1 (GivenClip None) (MaxError (Fin 1)) (Matching true) /\ working_discovery ML tapes (rs1 (SquaredError true)) (GivenClip None) (MaxError (Fin 1)) (SquaredError true) /\
  working_discovery ML tapes ns1 (GivenClip None) (MaxError (Fin 1)) UniformSamples /\ working_composer small_error default_ccfg ga_o tt /\ mixing_works mix1 /\ table 1 dx dyy /\ usable (MaxError (Fin 1)) /\ given_dim 1 (GivenClip None) /\ working_logger ML silent /\ working_logger ML (combined_logger [default_logger ML (scripted []); stdout_logger ML (scripted [])]) /\
  seedable (random_state par_i) /\ (n_initial par_i > 0)%nat /\ (step (unfitted es1 ga1 silent) < n_iter par_i)%nat /\ ~ asks (Matching true) /\ n_initial par_n = 0%nat.
Proof.
  split; [exact es1_works|]. split; [apply rs1_works|]. split; [exact ns1_works|]. split; [apply ga_works|]. split; [exact I|]. split; [exact dx_table|]. split; [discriminate|]. split; [exact I|].
  split; [apply Logs_quiet; exact silent_quiet|].
  split; [apply Logs_both; [constructor|]; apply Logs_both; [constructor|]; apply Logs_quiet; split; [eexists; reflexivity|]; split; intros; eexists; reflexivity|]. split; [cbn; lia|]. split; [cbn; lia|]. split; [cbn; lia|]. split; [intros []|reflexivity].
Qed.
(* with an infinite error bound rules that match nothing enter the pool; fit succeeds, but the model refuses samples that only they match *)
Theorem C75_infinite_error_refuted : exists (L : learner) rngof c k K (O : optimizer K) i cc mix f (G : logger L) p X y e' X' g,
  rs_works c /\ d_accept (rs_d c) = MaxError PInf /\ working_composer f cc O i /\ mixing_works mix /\ table 1 X y /\ X <> [] /\ given_dim 1 k /\ seedable (random_state p) /\ working_logger L G /\
  (0 < n_iter p)%nat /\ (0 < n_rules p)%nat /\ n_initial p = 0%nat /\
  fit p 0 false X y (unfitted (rs_discovery L rngof c k) (shipped_composition L rngof O i cc mix f) G) = (Ok tt, e') /\ is_error e' = false /\ M_Fit.is_fitted e' = true /\
  X' <> [] /\ Forall (fun x => length x = 1%nat) X' /\ fst (predict e' X' g) = Raise NotFittedError.
Proof. exact unmatched_refuses. Qed.
Print Assumptions C75_infinite_error_refuted.
(* SupRB() with all its default components: fit and predict never raise and never end in the error state, whatever the data *)
Theorem C75_defaults : forall (L : learner) rngof f g os clean X y d (e : est (default_discovery L rngof) (default_composition L rngof f) (default_logger L g)),
  table d X y -> X <> [] -> d <> 0%nat ->
  exists e' b, fit default_params os clean X y e = (Ok tt, e') /\ is_error e' = false /\ M_Fit.is_fitted e' = true /\ M_Fit.elitist e' = Some (Learned b) /\
    forall X' g, X' <> [] -> Forall (fun x => length x = d) X' -> exists z g', predict e' X' g = (Ok z, g') /\ length z = length X'.
Proof. exact defaults_succeed. Qed.
Print Assumptions C75_defaults.
Example C75_defaults_satisfiable : table 1 dx dyy /\ dx <> [] /\ table 2 [[0; 1]; [2; 3]] [5; 7].
Proof. split; [exact dx_table|]. split; [discriminate|]. split; [repeat constructor|reflexivity]. Qed.
