(* Properties C32 to C35: rule discovery. *)
From Coq Require Import Permutation Sorted.
From Verif Require Import PyNum PyList PyMon PyRng M_Matching S_Matching M_Rule S_Rule L_RuleProps M_RuleGen M_Mixing M_Discovery S_Discovery L_Discovery L_DiscoveryProps L_Origin L_DiscoveryEx L_GenomeProps L_SagaProps.

(* ----- C32: what discovery hands to the pool ----- *)
Theorem C32_es_rules_accepted : forall (L : learner) (D : denv L) d (c : escfg) n kids g out g',
  table d (dX D) (dy D) -> space_dim d (d_constraint (es_d c)) -> usable (d_accept (es_d c)) ->
  es_optimize c D n kids g = (Ok out, g') ->
  (length out <= n)%nat /\
  Forall (fun r => fitted_on (dX D) (dy D) r /\ matches_some (dX D) r /\ passes (d_accept (es_d c)) (dy D) r) out.
Proof. intros L D d c n kids g out g' HT HS HU. exact (es_optimize_accepted L D d HT c HS n kids g out g' HU). Qed.
Print Assumptions C32_es_rules_accepted.
Theorem C32_rs_rules_accepted : forall (L : learner) (D : denv L) d (c : rscfg) n g out g',
  table d (dX D) (dy D) -> space_dim d (d_constraint (rs_d c)) -> usable (d_accept (rs_d c)) ->
  rs_optimize c D n g = (Ok out, g') ->
  (length out <= n)%nat /\
  Forall (fun r => fitted_on (dX D) (dy D) r /\ matches_some (dX D) r /\ passes (d_accept (rs_d c)) (dy D) r) out.
Proof. intros L D d c n g out g' HT HS HU. exact (rs_optimize_accepted L D d HT c n g out g' HS HU). Qed.
Print Assumptions C32_rs_rules_accepted.
(* with an infinite error bound a rule that matches nothing, whose error is infinite, is accepted *)
Theorem C32_infinite_error_refuted : exists (D : denv mean_learner) (c : rscfg) n g r g',
  table 1 (dX D) (dy D) /\ space_dim 1 (d_constraint (rs_d c)) /\ d_accept (rs_d c) = MaxError PInf /\ rs_optimize c D n g = (Ok [r], g') /\
  fitted_on (dX D) (dy D) r /\ ~ matches_some (dX D) r.
Proof. exact infinite_error_accepts. Qed.
Print Assumptions C32_infinite_error_refuted.
Example C32_satisfiable :
  let D := d_env None in
  table 1 (dX D) (dy D) /\ space_dim 1 (d_constraint (d_conf UniformSamples)) /\ usable (d_accept (d_conf UniformSamples)) /\
  (exists r1 r2 g', es_optimize (L := mean_learner) (es_conf EsPlus 3 2 RFittest) D 2 (fun i => scripted [-(1); 1; 0; 0; qofnat i]) (scripted [2; 2]) = (Ok [r1; r2], g')) /\
  exists r1 r2 g', rs_optimize (L := mean_learner) (mkRs (d_conf UniformSamples) 2 RFittest) D 2 (scripted [2; 2; 2; 2]) = (Ok [r1; r2], g').
Proof.
  split; [exact dx_table|]. split; [reflexivity|]. split; [discriminate|].
  split; (do 3 eexists; vm_compute; reflexivity).
Qed.

(* ----- C33: the evolution strategy ----- *)
(* "+": n generations, and nobody seen is fitter than the result *)
Theorem C33_plus_keeps_best : forall (L : learner) (D : denv L) d (c : escfg) n e g r g',
  table d (dX D) (dy D) -> space_dim d (d_constraint (es_d c)) -> (forall m x, is_nan (rfitness L m x) = false) ->
  es_sel c = RFittest -> es_operator c = EsPlus -> fitted_on (dX D) (dy D) e -> length (bnd (cond e)) = d ->
  es_loop c D n e [] g = (Ok r, g') ->
  exists gens, length gens = n /\ bred c D gens g g' /\ lineage e gens r /\ at_least_as_fit r e /\
    Forall (fun h => Forall (at_least_as_fit r) (fst h :: snd h)) gens.
Proof. intros L D d c n e g r g' HT HS HN HSel HO HF HL. exact (es_plus L D d HT HN c HS HSel n HO e [] g r g' (conj HF HL)). Qed.
Print Assumptions C33_plus_keeps_best.
(* ",": the initial rule, or the best child of the last generation that had a child matching anything *)
Theorem C33_comma_best_of_last : forall (L : learner) (D : denv L) d (c : escfg) n e g r g',
  table d (dX D) (dy D) -> space_dim d (d_constraint (es_d c)) -> (forall m x, is_nan (rfitness L m x) = false) ->
  es_sel c = RFittest -> es_operator c = EsComma -> fitted_on (dX D) (dy D) e -> length (bnd (cond e)) = d ->
  es_loop c D n e [] g = (Ok r, g') ->
  exists gens, length gens = n /\ bred c D gens g g' /\ lineage e gens r /\ best_of_last (dX D) e gens r.
Proof. intros L D d c n e g r g' HT HS HN HSel HO HF HL. exact (es_comma L D d HT HN c HS HSel n HO e [] g r g' (conj HF HL)). Qed.
Print Assumptions C33_comma_best_of_last.
(* "&": as with ",", or an early stop that returns the oldest parent of a full window, which is its fittest *)
Theorem C33_and_window : forall (L : learner) (D : denv L) d (c : escfg) n e g r g',
  table d (dX D) (dy D) -> space_dim d (d_constraint (es_d c)) -> (forall m x, is_nan (rfitness L m x) = false) ->
  es_sel c = RFittest -> es_operator c = EsAnd -> fitted_on (dX D) (dy D) e -> length (bnd (cond e)) = d ->
  es_loop c D n e [] g = (Ok r, g') ->
  exists gens, (length gens <= n)%nat /\ bred c D gens g g' /\
    ((length gens = n /\ lineage e gens r /\ best_of_last (dX D) e gens r) \/
     (length (window (es_delay c) gens) = es_delay c /\ nth_error (window (es_delay c) gens) 0 = Some r /\
      Forall (at_least_as_fit r) (window (es_delay c) gens) /\ gens <> [] /\ exists q, lineage e gens q)).
Proof. exact es_and_window. Qed.
Print Assumptions C33_and_window.
(* with a selection other than Fittest "+" may return something worse than the initial rule *)
Theorem C33_plus_other_selection_refuted : exists D c e g r g', table 1 (dX D) (dy D) /\ fitted_on (dX D) (dy D) e /\ es_operator c = EsPlus /\
  es_loop (L := mean_learner) c D 1 e [] g = (Ok r, g') /\ ~ at_least_as_fit r e.
Proof. exact plus_needs_fittest. Qed.
Print Assumptions C33_plus_other_selection_refuted.
Example C33_satisfiable :
  let D := d_env None in let e := on_data dx dyy 1 1 in
  table 1 (dX D) (dy D) /\ space_dim 1 (d_constraint (es_d (es_conf EsAnd 3 2 RFittest))) /\ (forall m x, is_nan (rfitness mean_learner m x) = false) /\
  fitted_on (dX D) (dy D) e /\ length (bnd (cond e)) = 1%nat /\
  Forall (fun op => exists r g', es_loop (L := mean_learner) (es_conf op 3 2 RFittest) D 3 e [] (scripted [-(1); 0; 0; 1; -(1); 1]) = (Ok r, g')) [EsPlus; EsComma; EsAnd].
Proof.
  split; [exact dx_table|]. split; [reflexivity|]. split; [exact mean_no_nan|]. split; [apply on_data_fitted; exact dx_table|]. split; [reflexivity|].
  repeat constructor; (do 2 eexists; vm_compute; reflexivity).
Qed.

(* ----- C34: rule selection ----- *)
Theorem C34_fittest_returns_n_fittest : forall (L : learner) (rs : list (rule L)) n g,
  Forall (fun r => exists f, fitness_is r f /\ f <> NaN) rs ->
  exists out rest, pick_rules RFittest rs n g = (Ok out, g) /\ Permutation rs (out ++ rest) /\ length out = Nat.min n (length rs) /\
    StronglySorted at_least_as_fit out /\ forall a b, In a out -> In b rest -> at_least_as_fit a b.
Proof. exact fittest_returns_best. Qed.
Print Assumptions C34_fittest_returns_n_fittest.
(* whatever the method, nothing is made up and never more than asked for *)
Theorem C34_selection_from_candidates : forall (L : learner) s (rs : list (rule L)) n g out g',
  pick_rules s rs n g = (Ok out, g') -> Forall (fun r => In r rs) out /\ (length out <= n)%nat.
Proof. exact pick_in. Qed.
Print Assumptions C34_selection_from_candidates.
(* a rule nobody beats can be chosen ... *)
Theorem C34_nondominated_kept_partial : forall (L : learner) (rs : list (rule L)) r,
  In r rs -> (forall q, In q rs -> ~ better_in_both q r) -> exists g g', pick_rules RNondominated rs 1 g = (Ok [r], g').
Proof. exact nd_may_choose. Qed.
Print Assumptions C34_nondominated_kept_partial.
(* ... but so can a rule that is beaten *)
Theorem C34_nondominated_refuted : exists X y (rs : list (rule mean_learner)) g r q g', table 1 X y /\ Forall (fitted_on X y) rs /\
  pick_rules RNondominated rs 1 g = (Ok [r], g') /\ In q rs /\ better_in_both q r.
Proof. exact nd_offers_beaten. Qed.
Print Assumptions C34_nondominated_refuted.
Theorem C34_roulette_skips_unmatched : forall (L : learner) (rs : list (rule L)) n g out g',
  pick_rules RRoulette rs n g = (Ok out, g') -> Forall (fun r => exists f, fitness_is r f) rs -> (exists r f, In r rs /\ fitness_is r f /\ f <> NInf) ->
  Forall (fun r => ~ fitness_is r NInf) out.
Proof. exact roulette_skips_unmatched. Qed.
Print Assumptions C34_roulette_skips_unmatched.
Example C34_satisfiable :
  let rs := [on_data dx dyy 0 2; on_data dx dyy 5 6; on_data dx dyy 0 1] in
  Forall (fun r => exists f, fitness_is r f /\ f <> NaN) rs /\
  (exists g', pick_rules RFittest rs 2 (scripted []) = (Ok [on_data dx dyy 0 1; on_data dx dyy 0 2], g')) /\
  (exists r g', pick_rules RRoulette [on_data dx dyy 5 6; on_data dx dyy 0 1] 1 (scripted []) = (Ok [r], g')) /\
  In (on_data dx dyy 0 1) rs /\ forall q, In q rs -> ~ better_in_both q (on_data dx dyy 0 1).
Proof.
  split; [repeat constructor; eexists; (split; [eexists; split; reflexivity|discriminate])|]. split; [eexists; vm_compute; reflexivity|]. split; [do 2 eexists; vm_compute; reflexivity|]. split; [right; right; left; reflexivity|].
  intros q [<-|[<-|[<-|[]]]] (s & t & Hs & Ht & He & _); vm_compute in Hs, Ht; injection Hs as <-; injection Ht as <-; vm_compute in He; discriminate.
Qed.

(* ----- C35: origins ----- *)
Theorem C35_origins_are_samples : forall (L : learner) (D : denv L) o n g xs g',
  o <> UniformInput -> origins o D n g = (Ok xs, g') -> length xs = n /\ Forall (fun x => In x (dX D)) xs.
Proof. exact origins_in. Qed.
Print Assumptions C35_origins_are_samples.
(* the uniform input origin only stays inside every box that contains the samples *)
Theorem C35_uniform_input_in_box : forall X n g xs g' d,
  Forall (fun x => length x = d) X -> uniform_input X n g = (Ok xs, g') ->
  length xs = n /\ forall space, (forall r, In r X -> in_space space r) -> Forall (in_space space) xs.
Proof. exact uniform_input_box. Qed.
Print Assumptions C35_uniform_input_in_box.
Theorem C35_uniform_input_refuted : exists (D : denv mean_learner) g x g', table 1 (dX D) (dy D) /\ origins UniformInput D 1 g = (Ok [x], g') /\
  forall s, In s (dX D) -> ~ Forall2 Qeq x s.
Proof. exact uniform_input_not_sample. Qed.
Print Assumptions C35_uniform_input_refuted.
(* the matching-based origin draws with weights proportional to the number of considered rules missing the sample *)
Theorem C35_matching_distribution : forall (L : learner) (D : denv L) use rs n,
  Forall (fitted_on (dX D) (dy D)) (dpool D) -> considered D use rs ->
  (exists x r, In x (dX D) /\ In r rs /\ ~ covers (cond r) x) ->
  exists p total, 0 < total /\ length p = length (dX D) /\ distribution p /\
    (forall i x k, nth_error (dX D) i = Some x -> missed x rs k -> exists q, nth_error p i = Some q /\ q * total == inject_Z (Z.of_nat k)) /\
    (forall i x q, nth_error (dX D) i = Some x -> nth_error p i = Some q -> Forall (fun r => ~ covers (cond r) x) rs -> Forall (fun q' => q' <= q) p) /\
    (forall i x q, nth_error (dX D) i = Some x -> nth_error p i = Some q -> Forall (fun r => covers (cond r) x) rs -> q == 0) /\
    forall g, origins (Matching use) D n g = choices_p (dX D) n p g.
Proof. exact matching_distribution. Qed.
Print Assumptions C35_matching_distribution.
Theorem C35_matching_never_covered : forall (L : learner) (D : denv L) use rs n g xs g',
  Forall (fitted_on (dX D) (dy D)) (dpool D) -> considered D use rs ->
  (exists x r, In x (dX D) /\ In r rs /\ ~ covers (cond r) x) -> origins (Matching use) D n g = (Ok xs, g') ->
  Forall (fun x => In x (dX D) /\ exists r, In r rs /\ ~ covers (cond r) x) xs.
Proof. exact matching_never_covered. Qed.
Print Assumptions C35_matching_never_covered.
(* without anything uncovered every sample is equally likely *)
Theorem C35_matching_no_bias : forall (L : learner) (D : denv L) use rs n g,
  Forall (fitted_on (dX D) (dy D)) (dpool D) -> considered D use rs ->
  (forall x r, In x (dX D) -> In r rs -> covers (cond r) x) -> origins (Matching use) D n g = choices (dX D) n g.
Proof. exact matching_no_bias. Qed.
Print Assumptions C35_matching_no_bias.
(* the error-based origin draws with weights proportional to the squared error of the elitist *)
Theorem C35_squared_error_distribution : forall (L : learner) (D : denv L) d use rs bits n g pr g1,
  table d (dX D) (dy D) -> considered D use rs -> rs <> [] -> delite D = Some bits ->
  sol_predict L (dmix D) (if use then bits else repeat true (length (dpool D))) (dpool D) (dX D) false g = (Ok pr, g1) ->
  length pr = length (dX D) -> (exists i a b, nth_error pr i = Some a /\ nth_error (dy D) i = Some b /\ ~ a == b) ->
  exists p total, 0 < total /\ length p = length (dX D) /\ distribution p /\
    (forall i a b, nth_error pr i = Some a -> nth_error (dy D) i = Some b -> exists q, nth_error p i = Some q /\ q * total == (a - b) * (a - b)) /\
    origins (SquaredError use) D n g = choices_p (dX D) n p g1.
Proof. intros L D d use rs bits n g pr g1 HT. exact (squared_distribution L D d HT use rs bits n g pr g1). Qed.
Print Assumptions C35_squared_error_distribution.
(* with initial rules in the pool but no elitist yet it has nobody to ask *)
Theorem C35_squared_error_needs_elitist : forall (L : learner) (D : denv L) use n g,
  delite D = None -> dpool D <> [] -> origins (SquaredError use) D n g = (Raise AttributeError, g).
Proof. exact squared_needs_elitist. Qed.
Print Assumptions C35_squared_error_needs_elitist.
Example C35_satisfiable :
  let D := d_env (Some [true; true]) in
  table 1 (dX D) (dy D) /\ Forall (fitted_on (dX D) (dy D)) (dpool D) /\ considered D true (dpool D) /\
  (exists x r, In x (dX D) /\ In r (dpool D) /\ ~ covers (cond r) x) /\
  (exists g', origins (Matching true) D 2 (scripted [0; 1#2]) = (Ok [[2]; [2]], g')) /\
  (exists x y g', origins (SquaredError true) D 2 (scripted [0; 1#2]) = (Ok [x; y], g')) /\
  (exists x g', uniform_input (dX D) 1 (scripted [1#2]) = (Ok [x], g')) /\
  (let D2 := mkDenv dx dyy [on_data dx dyy 0 2] None (dmix D) in considered D2 true (dpool D2) /\ (forall x r, In x (dX D2) -> In r (dpool D2) -> covers (cond r) x)).
Proof. exact origins_example. Qed.
