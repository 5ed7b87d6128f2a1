(* Property C59: predictions are made sample by sample and can be repeated; C60: samples with another number of features. *)
From Verif Require Import PyNum PyList PyMon PyRng M_Matching M_Rule M_RuleGen M_Mixing S_Mixing M_Discovery S_Discovery L_RuleProps L_DiscoveryEx
  M_Solution M_Composition M_GA S_Optimizers M_Fit S_Fit L_FitEx M_Shipped S_Shipped L_ShippedEx S_Predicting L_Predicting L_PredictingEx.

(* ===== C59 ===== *)
(* within one call, whatever the filter: one function gives the answer for each sample of any batch *)
Theorem C59_each_sample_alone : forall (L : learner) mx rs g rs' g' dim,
  rs <> [] -> apply_filter L (mfilter mx) rs g = (Ok rs', g') -> Forall (S_Mixing.ready L dim) rs' ->
  exists f, forall X, width_of dim X -> mixing_call L mx X rs false g = (Ok (map f X), g').
Proof. exact each_alone. Qed.
Print Assumptions C59_each_sample_alone.
(* without a random filter the function does not depend on the generator either, and the generator stays as it is *)
Theorem C59_repeatable : forall (L : learner) mx rs dim, steady (mfilter mx) -> Forall (S_Mixing.ready L dim) rs ->
  exists f, forall X g, width_of dim X -> mixing_call L mx X rs false g = (Ok (map f X), g).
Proof. exact repeatable. Qed.
Print Assumptions C59_repeatable.
(* a fitted estimator made of the library's components is a function from samples to numbers *)
Theorem C59_estimator_is_a_function : forall L rngof (D : discovery L) k a K (O : optimizer K) i cc mix f (G : logger L) p os X y d (e e' : est D (shipped_composition L rngof O i cc mix f) G),
  library_discovery L rngof D k a -> shipped O i -> table d X y -> X <> [] -> d <> 0%nat -> usable a -> given_dim d k -> (forall m x, exists q, rfitness L m x = Fin q) ->
  steady (mfilter mix) -> fit p os false X y e = (Ok tt, e') ->
  exists h, forall X' g, width_of d X' -> X' <> [] -> predict e' X' g = (Ok (map h X'), g).
Proof. intros L. exact estimator_repeatable. Qed.
Print Assumptions C59_estimator_is_a_function.
(* with a random filter, asking again gives another answer, and asking for two samples one after the other gives another answer than asking for both *)
Theorem C59_random_filter_refuted : exists (L : learner) mx (rs : list (rule L)) X x1 x2 g o1 g1 o2 g2 a b g3,
  Forall (S_Mixing.ready L 1) rs /\ width_of 1 X /\ X = [x1; x2] /\
  mixing_call L mx X rs false g = (Ok o1, g1) /\ mixing_call L mx X rs false g1 = (Ok o2, g2) /\ ~ same_numbers o1 o2 /\
  mixing_call L mx [x1] rs false g = (Ok a, g1) /\ mixing_call L mx [x2] rs false g1 = (Ok b, g3) /\ ~ same_numbers (a ++ b) o1.
Proof. exact drawn_differently. Qed.
Print Assumptions C59_random_filter_refuted.
Example C59_satisfiable :
  (two_minds <> [] /\ Forall (S_Mixing.ready ML 1) two_minds /\ (exists rs' g', apply_filter ML (mfilter one_of) two_minds flat = (Ok rs', g'))) /\
  library_discovery ML tapes es1 (GivenClip None) (MaxError (Fin 1)) /\ shipped ga_o tt /\ table 2 wx wy /\ usable (MaxError (Fin 1)) /\ given_dim 2 (GivenClip None) /\
  (forall m x, exists q, rfitness ML m x = Fin q) /\ steady (mfilter mix1) /\ fst (plain_run es1 wx wy par1) = Ok tt /\
  exists o1 o2 o3 o4, fst (predict (plain_end es1 wx wy par1) wx flat) = Ok [o1; o2; o3; o4] /\ o1 == 1 /\ o2 == 2 /\ o3 == 0 /\ o4 == 0.
Proof.
  split. { split; [discriminate|]. split; [apply Forall_cons; [|apply Forall_cons; [|apply Forall_nil]]; apply L_MixingProps.fitted_rule_ready; reflexivity|]. do 2 eexists. vm_compute. reflexivity. }
  split; [exact es1_library|]. split; [constructor|]. split; [exact wx_table|]. split; [discriminate|]. split; [exact I|]. split; [exact finite_fitness|]. split; [exact I|]. split; [vm_compute; reflexivity|].
  do 4 eexists. split; [vm_compute; reflexivity|]. repeat split.
Qed.

(* ===== C60 ===== *)
(* neither the samples nor the training data have just one feature: refused *)
Theorem C60_other_width_refused : forall L rngof (D : discovery L) k a K (O : optimizer K) i cc mix f (G : logger L) p os X y d (e e' : est D (shipped_composition L rngof O i cc mix f) G) b,
  library_discovery L rngof D k a -> shipped O i -> table d X y -> X <> [] -> d <> 0%nat -> usable a -> given_dim d k -> (forall m x, exists q, rfitness L m x = Fin q) ->
  steady (mfilter mix) -> fit p os false X y e = (Ok tt, e') -> is_error e' = false -> elitist e' = Some (Learned b) -> In true (ebits b) ->
  forall d' X' g, width_of d' X' -> d' <> d -> d <> 1%nat -> d' <> 1%nat -> predict e' X' g = (Raise ValueError, g).
Proof. intros L. exact estimator_refuses. Qed.
Print Assumptions C60_other_width_refused.
Example C60_satisfiable :
  library_discovery ML tapes es1 (GivenClip None) (MaxError (Fin 1)) /\ shipped ga_o tt /\ table 2 wx wy /\ usable (MaxError (Fin 1)) /\ given_dim 2 (GivenClip None) /\
  steady (mfilter mix1) /\ fst (plain_run es1 wx wy par1) = Ok tt /\ is_error (plain_end es1 wx wy par1) = false /\ In true (bits_of (plain_end es1 wx wy par1)) /\
  fst (predict (plain_end es1 wx wy par1) [[0; 0; 0]] flat) = Raise ValueError.
Proof.
  split; [exact es1_library|]. split; [constructor|]. split; [exact wx_table|]. split; [discriminate|]. split; [exact I|]. split; [exact I|]. split; [vm_compute; reflexivity|]. split; [vm_compute; reflexivity|].
  split; [vm_compute; auto|]. vm_compute. reflexivity.
Qed.
(* trained on one feature, asked about two: every limit is compared with both columns, and if nothing matches the answer is zero *)
Theorem C60_trained_on_one_refuted : exists (L : learner) rngof (D : discovery L) k a K (O : optimizer K) i cc mix f (G : logger L) p X y e' X' g,
  library_discovery L rngof D k a /\ shipped O i /\ steady (mfilter mix) /\ table 1 X y /\ fit p 0 false X y (unfitted D (shipped_composition L rngof O i cc mix f) G) = (Ok tt, e') /\ is_error e' = false /\
  (exists b, elitist e' = Some (Learned b) /\ In true (ebits b)) /\ width_of 2 X' /\ X' <> [] /\ predict e' X' g = (Ok (zeros X'), g).
Proof. exact column_too_many. Qed.
Print Assumptions C60_trained_on_one_refuted.
(* trained on two features, asked about one *)
Theorem C60_asked_about_one_refuted : exists (L : learner) rngof (D : discovery L) k a K (O : optimizer K) i cc mix f (G : logger L) p X y e' X' g,
  library_discovery L rngof D k a /\ shipped O i /\ steady (mfilter mix) /\ table 2 X y /\ fit p 0 false X y (unfitted D (shipped_composition L rngof O i cc mix f) G) = (Ok tt, e') /\ is_error e' = false /\
  (exists b, elitist e' = Some (Learned b) /\ In true (ebits b)) /\ width_of 1 X' /\ X' <> [] /\ predict e' X' g = (Ok (zeros X'), g).
Proof. exact columns_missing. Qed.
Print Assumptions C60_asked_about_one_refuted.
(* after a fit that failed, any number of features is accepted *)
Theorem C60_error_state_refuted : exists (L : learner) rngof (D : discovery L) k a K (O : optimizer K) i cc mix f (G : logger L) p X y e',
  library_discovery L rngof D k a /\ shipped O i /\ table 2 X y /\ fit p 0 false X y (unfitted D (shipped_composition L rngof O i cc mix f) G) = (Ok tt, e') /\ is_error e' = true /\
  forall d X' g, d <> 0%nat -> width_of d X' -> X' <> [] -> predict e' X' g = (Ok (zeros X'), g).
Proof. exact any_width_after_error. Qed.
Print Assumptions C60_error_state_refuted.
