(* Properties C06-C09: where the conditions of rules come from. *)
From Verif Require Import PyNum PyList PyMon PyRng M_Matching S_Matching M_RuleGen L_RuleGen M_RuleHeap S_RuleHeap L_RuleHeap
  L_RuleGenProps.

(* ----- C06: a fresh rule covers the sample it was created for ----- *)
Theorem C06_fresh_ordered_partial : forall i x g mr space,
  i = MeanInit \/ (exists s, i = HalfnormInit s /\ 0 <= s) -> proper_space space -> in_space space x ->
  exists m g', init_rule i OrderedBound x g = (Ok m, g') /\ proper m /\
    covers (constrain (CombinedConstraint mr space) m) x.
Proof. exact fresh_ordered_all. Qed.
Print Assumptions C06_fresh_ordered_partial.
(* without a given sample the centre is drawn inside the space, and covered *)
Theorem C06_fresh_random_center_partial : forall i g mr space,
  i = MeanInit \/ (exists s, i = HalfnormInit s /\ 0 <= s) -> proper_space space ->
  exists m g' x, init_rule_nomean i OrderedBound space g = (Ok m, g') /\ in_space space x /\
    covers (constrain (CombinedConstraint mr space) m) x.
Proof. exact fresh_random_center. Qed.
Print Assumptions C06_fresh_random_center_partial.
Theorem C06_fresh_unordered_mean_partial : forall x g mr space,
  length space = length x ->
  exists m, init_rule MeanInit UnorderedBound x g = (Ok m, g) /\
    covers (constrain (CombinedConstraint mr space) m) x.
Proof. exact fresh_unordered_mean. Qed.
Print Assumptions C06_fresh_unordered_mean_partial.
Theorem C06_fresh_center_mean_partial : forall x g mr space,
  Forall (fun xi => -(1) <= xi <= 1) x -> length space = length x ->
  exists m, init_rule MeanInit CenterSpread x g = (Ok m, g) /\
    covers (constrain (CombinedConstraint mr space) m) x.
Proof. exact fresh_center. Qed.
Print Assumptions C06_fresh_center_mean_partial.
Example C06_satisfiable : exists m g',
  proper_space [(0, 1); (0, 1)] /\ in_space [(0, 1); (0, 1)] [1#2; 1] /\
  init_rule (HalfnormInit (1#10)) OrderedBound [1#2; 1] (const_rng [1; 2; 3; 4]) = (Ok m, g') /\
  row_matches OrderedBound (bnd (constrain (CombinedConstraint (1#100) [(0, 1); (0, 1)]) m)) [1#2; 1] = true.
Proof.
  eexists; eexists. split; [repeat constructor; vm_compute; discriminate|].
  split; [repeat constructor; vm_compute; discriminate|]. split; [vm_compute; reflexivity|vm_compute; reflexivity].
Qed.
Theorem C06_fresh_minpct_refuted : exists x g mr space m,
  proper_space space /\ in_space space x /\ 0 < mr /\
  init_rule MeanInit MinPercentage x g = (Ok m, g) /\ ~ covers (constrain (CombinedConstraint mr space) m) x.
Proof. exact fresh_minpct_wrong. Qed.
Print Assumptions C06_fresh_minpct_refuted.
Theorem C06_fresh_unordered_halfnorm_refuted : exists s x g mr space m g',
  0 < s /\ proper_space space /\ in_space space x /\ 0 < mr /\
  init_rule (HalfnormInit s) UnorderedBound x g = (Ok m, g') /\
  covers m x /\ ~ covers (constrain (CombinedConstraint mr space) m) x.
Proof. exact fresh_unordered_halfnorm_wrong. Qed.
Print Assumptions C06_fresh_unordered_halfnorm_refuted.

(* ----- C07: estimated bounds are the tight bounding box ----- *)
Theorem C07_estimated_bounds_tight : forall X x0 X0,
  X = x0 :: X0 -> Forall (fun r => length r = length x0) X0 ->
  exists bs, estimate_bounds X = Ok bs /\ length bs = length x0 /\ proper_space bs /\
    (forall r, In r X -> in_space bs r) /\
    (forall space, (forall r, In r X -> in_space space r) ->
       Forall2 (fun lh' lh => fst lh' <= fst lh /\ snd lh <= snd lh') space bs).
Proof. exact estimate_bounds_correct. Qed.
Print Assumptions C07_estimated_bounds_tight.
Example C07_satisfiable : estimate_bounds [[1; 5]; [3; 2]; [2; 4]] = Ok [(1, 3); (2, 5)].
Proof. reflexivity. Qed.

(* ----- C08: mutation ----- *)
(* no array that existed before is written, whether the mutation succeeds or raises; the offspring lives in a
   new array and is what the value-level function computes *)
Theorem C08_mutation_leaves_parent : forall c mu r m h g,
  denotes h r m ->
  let '(res, s') := offspring_h c mu r (mkB h g) in
  keeps h (arrays s') /\
  match fst (mutate mu m g), res with
  | Ok m', Ok r' => denotes (arrays s') r' (constrain c m') /\ fresh_from (length h) r'
  | Raise e, Raise e' => e = e'
  | _, _ => False
  end.
Proof. exact offspring_h_spec. Qed.
Print Assumptions C08_mutation_leaves_parent.
Example C08_leaves_parent_satisfiable :
  let h := [[(0, 1)]; [(2, 3)]] in
  denotes h (mkRef OrderedBound 1) (mkMatching OrderedBound [(2, 3)]) /\
  fst (offspring_h (Clip [(0, 4)]) (MutNormal (Scalar 1)) (mkRef OrderedBound 1) (mkB h (const_rng [5; 1])))
    = Ok (mkRef OrderedBound 3).
Proof. split; [split; reflexivity|vm_compute; reflexivity]. Qed.
(* same kind and dimension; ordered offspring are proper boxes *)
Theorem C08_offspring_well_formed : forall mu m g m' g',
  mutate mu m g = (Ok m', g') ->
  mt m' = mt m /\ length (bnd m') = length (bnd m) /\ (mt m = OrderedBound -> proper m').
Proof. exact mutate_shape. Qed.
Print Assumptions C08_offspring_well_formed.
Theorem C08_increase_keeps_samples_partial : forall s m g mu,
  mt m = OrderedBound -> 0 <= s ->
  mu = MutHalfnormIncrease (Scalar s) \/ mu = MutUniformIncrease (Scalar s) ->
  exists m' g', mutate mu m g = (Ok m', g') /\ forall x, covers m x -> covers m' x.
Proof. exact increase_all. Qed.
Print Assumptions C08_increase_keeps_samples_partial.
(* half-normal mutation keeps the centre of the parent *)
Theorem C08_halfnorm_keeps_center : forall s m g m' g',
  mt m = OrderedBound \/ mt m = UnorderedBound -> 0 <= s -> mutate (MutHalfnorm (Scalar s)) m g = (Ok m', g') ->
  covers m' (map (fun b => (fst b + snd b) / 2) (bnd m)).
Proof. exact halfnorm_keeps_center. Qed.
Print Assumptions C08_halfnorm_keeps_center.
Example C08_satisfiable : exists m' g',
  mutate (MutHalfnormIncrease (Scalar 1)) (mkMatching OrderedBound [(0, 1)]) (const_rng [3; -(2)]) = (Ok m', g')
  /\ same_bounds (bnd m') [(-(3#2), 2)].
Proof. eexists; eexists. split; [vm_compute; reflexivity|]. repeat constructor; vm_compute; reflexivity. Qed.
Theorem C08_increase_center_refuted : exists s0 s1 m g m' g' x,
  mt m = CenterSpread /\ 0 < s0 /\ 0 < s1 /\
  mutate (MutUniformIncrease (Pair s0 s1)) m g = (Ok m', g') /\ covers m x /\ ~ covers m' x.
Proof. exact increase_center_wrong. Qed.
Print Assumptions C08_increase_center_refuted.
Theorem C08_increase_minpct_refuted : exists s0 s1 m g m' g' x,
  mt m = MinPercentage /\ 0 < s0 /\ 0 < s1 /\
  mutate (MutUniformIncrease (Pair s0 s1)) m g = (Ok m', g') /\ covers m x /\ ~ covers m' x.
Proof. exact increase_minpct_wrong. Qed.
Print Assumptions C08_increase_minpct_refuted.

(* ----- C09: crossover of rules ----- *)
Theorem C09_crossover_exchanges_intervals : forall rate a b g a' b' g',
  length (bnd a) = length (bnd b) ->
  rule_crossover rate a b g = (Ok (a', b'), g') ->
  mt a' = mt a /\ mt b' = mt b /\ length (bnd a') = length (bnd a) /\ length (bnd b') = length (bnd b) /\
  forall i x y, nth_error (bnd a) i = Some x -> nth_error (bnd b) i = Some y ->
    (nth_error (bnd a') i = Some x /\ nth_error (bnd b') i = Some y) \/
    (nth_error (bnd a') i = Some y /\ nth_error (bnd b') i = Some x).
Proof. exact rule_crossover_spec. Qed.
Print Assumptions C09_crossover_exchanges_intervals.
(* parents keep their arrays; the children either are the parents or live in new, distinct arrays *)
Theorem C09_parents_unmodified : forall rate a b ma mb h g,
  denotes h a ma -> denotes h b mb ->
  let '(res, s') := crossover_h rate a b (mkB h g) in
  keeps h (arrays s') /\
  match fst (rule_crossover rate ma mb g), res with
  | Ok (ma', mb'), Ok (a', b') =>
      denotes (arrays s') a' ma' /\ denotes (arrays s') b' mb' /\
      ((a' = a /\ b' = b) \/ (fresh_from (length h) a' /\ fresh_from (length h) b' /\ ra a' <> ra b'))
  | Raise e, Raise e' => e = e'
  | _, _ => False
  end.
Proof. exact crossover_h_spec. Qed.
Print Assumptions C09_parents_unmodified.
Example C09_satisfiable : exists g',
  rule_crossover 1 (mkMatching OrderedBound [(0, 1); (2, 3)]) (mkMatching OrderedBound [(4, 5); (6, 7)]) (const_rng [0; 0; 1])
  = (Ok (mkMatching OrderedBound [(4, 5); (2, 3)], mkMatching OrderedBound [(0, 1); (6, 7)]), g').
Proof. eexists. vm_compute. reflexivity. Qed.
(* the other encodings have no crossover: it raises *)
Theorem C09_other_encodings_raise : forall rate a b g,
  mt a <> OrderedBound -> fst (random g) < rate -> fst (rule_crossover rate a b g) = Raise TypeError.
Proof. exact crossover_other_raises. Qed.
Print Assumptions C09_other_encodings_raise.
