(* Property C36: novelty search; C32 for novelty search; C51: rule crossover. *)
From Coq Require Import Permutation Sorted.
From Verif Require Import PyNum PyList PyMon PyRng M_Matching S_Matching M_Rule S_Rule L_RuleProps M_RuleGen M_Mixing M_Discovery S_Discovery L_DiscoveryEx M_Novelty S_Novelty L_NoveltyRun L_NoveltyEx L_GenomeProps.

(* ----- C36 ----- *)
(* a novelty calculation never fails, keeps at least one rule, and every rule it keeps has a score *)
Theorem C36_never_starves : forall (L : learner) X y d b t k rs (st : nst L),
  table d X y -> X <> [] -> (forall m e, exists q, rfitness L m e = Fin q) ->
  ready d X y st -> Forall (live st) rs -> rs <> [] -> type_ok t ->
  exists out st', novelty b t k rs st = (Ok out, st') /\ out <> [] /\ incl out rs /\ ready d X y st' /\
    Forall (fun i => exists s, novelty_is st' i s) out.
Proof. intros L X y d b t k rs st HT HX HP. exact (novelty_works L X y d HT HX HP b t k rs st). Qed.
Print Assumptions C36_never_starves.
(* the minimal criteria drop only rules with fewer than 25 matches, the smallest ones, about q percent of them *)
Theorem C36_minimal_criteria : forall (L : learner) X y d q rs (st : nst L),
  ready d X y st -> Forall (live st) rs -> rs <> [] -> 0 <= q <= 100 ->
  exists out keep, filter_rules (TMinimal q) rs st = (Ok out, st) /\ out <> [] /\ out = compress rs keep /\ length keep = length rs /\
    (forall i ms, In i rs -> matches_are st i ms -> (25 <= length (filter (fun b => b) ms))%nat -> In i out) /\
    (forall i j ms ms', In i out -> In j rs -> matches_are st i ms -> matches_are st j ms' ->
       (length (filter (fun b => b) ms) <= length (filter (fun b => b) ms'))%nat -> In j out) /\
    inject_Z (Z.of_nat (length rs - length out)) < q / 100 * inject_Z (Z.of_nat (length rs - 1)) + 1.
Proof. intros L X y d q rs st. exact (minimal_ok L X y d st q rs). Qed.
Print Assumptions C36_minimal_criteria.
(* the progressive criteria drop the less fit, at most half of them; nothing kept is beaten by more than half *)
Theorem C36_progressive_criteria : forall (L : learner) X y d t k rs (st : nst L),
  table d X y -> X <> [] -> (forall m e, exists q, rfitness L m e = Fin q) ->
  ready d X y st -> Forall (live st) rs -> rs <> [] -> type_ok t -> (forall q, t <> TMinimal q) ->
  exists out keep st', novelty NProgressive t k rs st = (Ok out, st') /\ out <> [] /\ out = compress rs keep /\ length keep = length rs /\
    (2 * (length rs - length out) <= length rs)%nat /\
    (forall i j f h, In i out -> In j rs -> fitness_at st i f -> fitness_at st j h -> nle f h = true -> In j out) /\
    (forall i f fitter, In i out -> fitness_at st i f -> incl fitter rs -> NoDup fitter ->
       (forall j, In j fitter -> exists h, fitness_at st j h /\ nlt f h = true) -> (2 * length fitter <= length rs)%nat).
Proof. intros L X y d t k rs st HT HX HP. exact (progressive_ok L X y d HT HX HP t k rs st). Qed.
Print Assumptions C36_progressive_criteria.
(* the Pareto front keeps every non-dominated rule and nothing that another rule beats in novelty and fitness *)
Theorem C36_pareto_front : forall (L : learner) X y d t k rs (st : nst L),
  table d X y -> X <> [] -> (forall m e, exists q, rfitness L m e = Fin q) ->
  ready d X y st -> Forall (live st) rs -> rs <> [] -> type_ok t ->
  exists out fl st', novelty NPareto t k rs st = (Ok out, st') /\ filter_rules t rs st = (Ok fl, st) /\ incl out fl /\ incl fl rs /\
    ((forall q, t <> TMinimal q) -> fl = rs) /\
    (forall i, In i fl -> (forall j, In j fl -> ~ dominates st' j i) -> In i out) /\
    (forall i j, In i out -> In j fl -> ~ beats_in_both st' j i).
Proof. intros L X y d t k rs st HT HX HP. exact (pareto_front_ok L X y d HT HX HP t k rs st). Qed.
Print Assumptions C36_pareto_front.
(* but it keeps dominated rules too *)
Theorem C36_pareto_exclusive_refuted : exists d X y (st : nst mean_learner) rs k out st' i j, table d X y /\ ready d X y st /\ Forall (live st) rs /\
  novelty NPareto TBasic k rs st = (Ok out, st') /\ In i out /\ In j rs /\ dominates st' j i.
Proof. exact pareto_keeps_dominated. Qed.
Print Assumptions C36_pareto_exclusive_refuted.
(* the score of a rule compared for the first time: mean of the k smallest distances to the archive and the candidates, itself included *)
Theorem C36_score_is_mean_of_nearest : forall (L : learner) X y d k rs (st : nst L),
  table d X y -> X <> [] -> ready d X y st -> rs <> [] -> NoDup rs -> Forall (unseen st) rs -> (forall i, In i rs -> ~ In i (arch st)) ->
  exists st', novelty NBasic TBasic k rs st = (Ok rs, st') /\
    forall i, In i rs -> exists s ds, novelty_is st' i (Fin s) /\
      Forall2 (fun j q => exists a b, matches_are st i a /\ matches_are st j b /\ distance_is a b q) (arch st ++ rs) ds /\
      mean_of_smallest (Nat.min k (length (arch st ++ rs) - 1)) ds s.
Proof. intros L X y d k rs st HT HX. exact (exact_scores L X y d HT HX k rs st). Qed.
Print Assumptions C36_score_is_mean_of_nearest.
(* scores stay in [0,1], and in [0,2] with local competition *)
Theorem C36_score_range : forall (L : learner) X y d b t k rs (st : nst L) out st',
  table d X y -> X <> [] -> (forall m e, exists q, rfitness L m e = Fin q) ->
  ready d X y st -> Forall (live st) rs -> rs <> [] -> type_ok t -> (forall nb fb, b <> NBiased nb fb) ->
  novelty b t k rs st = (Ok out, st') ->
  Forall (fun i => exists q, novelty_is st' i (Fin q) /\ 0 <= q <= match t with TLocal _ => 2 | _ => 1 end) out.
Proof. intros L X y d b t k rs st out st' HT HX HP. exact (novelty_range L X y d HT HX HP b t k rs st out st'). Qed.
Print Assumptions C36_score_range.
Theorem C36_local_score_refuted : exists d X y (st : nst mean_learner) rs k range out st' i q, table d X y /\ ready d X y st /\ Forall (live st) rs /\ type_ok (TLocal range) /\
  novelty NBasic (TLocal range) k rs st = (Ok out, st') /\ In i out /\ novelty_is st' i (Fin q) /\ 1 < q.
Proof. exact local_score_exceeds. Qed.
Print Assumptions C36_local_score_refuted.
(* a rule is its own nearest neighbour: with one neighbour its score is 0 although everything else is far away *)
Theorem C36_nearest_other_refuted : exists d X y (st : nst mean_learner) rs out st' i, table d X y /\ ready d X y st /\ Forall (live st) rs /\
  novelty NBasic TBasic 1 rs st = (Ok out, st') /\ In i rs /\ novelty_is st' i (Fin 0) /\
  Forall (fun j => j = i \/ exists a b q, matches_are st i a /\ matches_are st j b /\ distance_is a b q /\ 1 # 3 <= q) (arch st ++ rs).
Proof. exact self_is_neighbour. Qed.
Print Assumptions C36_nearest_other_refuted.
(* the n most novel of the kept rules survive, the most novel first; the archive only grows, by kept rules *)
Theorem C36_most_novel_survive : forall (L : learner) X y d (c : nscfg) rs n roh (st : nst L),
  table d X y -> X <> [] -> (forall m e, exists q, rfitness L m e = Fin q) ->
  ready d X y st -> Forall (live st) rs -> rs <> [] -> type_ok (ns_type c) -> (forall nb fb, ns_calc c <> NBiased nb fb) ->
  exists mid out rest new st', rule_selection c rs n roh st = (Ok out, st') /\ ready d X y st' /\ incl mid rs /\ mid <> [] /\
    Permutation mid (out ++ rest) /\ length out = Nat.min n (length mid) /\
    StronglySorted (preferred st') out /\ (forall a b, In a out -> In b rest -> preferred st' a b) /\ arch st' = arch st ++ new /\ incl new mid.
Proof. intros L X y d c rs n roh st HT HX HP. exact (selection_best L X y d HT HX HP c rs n roh st). Qed.
Print Assumptions C36_most_novel_survive.
Example C36_satisfiable :
  table 1 dx dyy /\ dx <> [] /\ (forall m e, exists q, rfitness mean_learner m e = Fin q) /\ ready 1 dx dyy nst1 /\ arch nst1 <> [] /\
  Forall (live nst1) [1; 2; 3]%nat /\ NoDup [1; 2; 3]%nat /\ Forall (unseen nst1) [1; 2; 3]%nat /\ (forall i, In i [1; 2; 3]%nat -> ~ In i (arch nst1)) /\
  Forall (fun t => type_ok t /\ Forall (fun b => exists out st', novelty b t 2 [1; 2; 3]%nat nst1 = (Ok out, st')) [NBasic; NProgressive; NPareto; NBiased 1 1]) [TBasic; TMinimal 50; TLocal 2].
Proof.
  split; [exact dx_table|]. split; [discriminate|]. split; [exact mean_finite|]. split; [exact nst1_ready|]. split; [discriminate|]. split; [exact nst1_live|].
  split; [repeat constructor; cbn; lia|]. split; [exact nst1_unseen|]. split; [cbn; lia|].
  repeat constructor; try discriminate; (do 2 eexists; vm_compute; reflexivity).
Qed.

(* ----- C32 ----- *)
(* rules found by novelty search were accepted, and can serve as the archive of the next search *)
Theorem C32_ns_rules_accepted : forall (L : learner) (c : nscfg) d X y (pool : list (cell L)) elite mix n g out g',
  table d X y -> X <> [] -> (forall m e, exists q, rfitness L m e = Fin q) -> space_dim d (d_constraint (ns_d c)) -> usable (d_accept (ns_d c)) -> type_ok (ns_type c) ->
  Forall (searched d X y) pool -> ns_optimize c X y pool elite mix n g = (Ok out, g') ->
  (length out <= n)%nat /\
  Forall (fun x => searched d X y x /\ cscore x = None /\ matches_some X (crule x) /\ passes (d_accept (ns_d c)) y (crule x)) out.
Proof. exact ns_optimize_accepted. Qed.
Print Assumptions C32_ns_rules_accepted.
Example C32_ns_satisfiable :
  let c := ns_conf 2 NBasic TBasic ANovel in
  let pool := [old_cell (on_data dx dyy 0 1)] in
  space_dim 1 (d_constraint (ns_d c)) /\ usable (d_accept (ns_d c)) /\ type_ok (ns_type c) /\ Forall (searched 1 dx dyy) pool /\
  exists r1 r2 g', ns_optimize c dx dyy pool None (mkMixing KeepAll ExpAsIs 1) 2 (scripted [2; 2]) = (Ok [r1; r2], g').
Proof.
  split; [reflexivity|]. split; [discriminate|]. split; [exact I|]. split; [exact old_searched|]. do 3 eexists. vm_compute. reflexivity.
Qed.

(* ----- C51: uniform crossover ----- *)
(* in every dimension the two children hold the two bounds of the parents *)
Theorem C51_children_recombine_bounds : forall a b g cs g', uniform_crossover OrderedBound a b g = (Ok cs, g') -> exists a' b', cs = [a'; b'] /\
  mt a' = mt a /\ mt b' = mt b /\ length (bnd a') = length (bnd a) /\ length (bnd b') = length (bnd a) /\
  forall i, (i < length (bnd a))%nat -> exists p q, nth_error (bnd a) i = Some p /\ nth_error (bnd b) i = Some q /\
    ((nth_error (bnd a') i = Some p /\ nth_error (bnd b') i = Some q) \/ (nth_error (bnd a') i = Some q /\ nth_error (bnd b') i = Some p)).
Proof. exact crossed_ok. Qed.
Print Assumptions C51_children_recombine_bounds.
(* so children of proper boxes are proper boxes *)
Theorem C51_children_stay_boxes : forall a b g cs g', Forall (fun i => fst i <= snd i) (bnd a) -> Forall (fun i => fst i <= snd i) (bnd b) ->
  uniform_crossover OrderedBound a b g = (Ok cs, g') -> Forall (fun m => Forall (fun i => fst i <= snd i) (bnd m)) cs.
Proof. exact crossed_boxes. Qed.
Print Assumptions C51_children_stay_boxes.
(* every mix of the parents' bounds can be drawn *)
Theorem C51_every_mix_possible : forall a b mask, length (bnd a) = length mask -> length (bnd b) = length mask ->
  exists g g', uniform_crossover OrderedBound a b g =
    (Ok [mkMatching (mt a) (map (fun z : bool * ((Q * Q) * (Q * Q)) => if fst z then fst (snd z) else snd (snd z)) (combine mask (combine (bnd a) (bnd b))));
         mkMatching (mt b) (map (fun z : bool * ((Q * Q) * (Q * Q)) => if fst z then snd (snd z) else fst (snd z)) (combine mask (combine (bnd a) (bnd b))))], g').
Proof. exact every_mix. Qed.
Print Assumptions C51_every_mix_possible.
(* no crossover below the rate: the parents themselves *)
Theorem C51_no_crossover_keeps_parents : forall t a b rate g, rate <= 0 -> exists g', crossover rate t a b g = (Ok [a; b], g').
Proof. exact no_crossover. Qed.
Print Assumptions C51_no_crossover_keeps_parents.
(* the other representations are not supported *)
Theorem C51_other_representations_raise : forall t a b rate g, t <> OrderedBound -> 1 <= rate -> exists g', crossover rate t a b g = (Raise TypeError, g').
Proof. exact crossover_other_types. Qed.
Print Assumptions C51_other_representations_raise.
Theorem C51_other_representations_refuted : exists t a b g g', t <> OrderedBound /\ mt a = t /\ mt b = t /\ length (bnd a) = length (bnd b) /\ crossover (1#5) t a b g = (Raise TypeError, g').
Proof. exact crossover_refuted. Qed.
Print Assumptions C51_other_representations_refuted.
Example C51_satisfiable :
  let a := mkMatching OrderedBound [(0, 1); (2, 3)] in let b := mkMatching OrderedBound [(4, 5); (6, 7)] in
  (exists g', uniform_crossover OrderedBound a b (scripted [1; 0]) = (Ok [mkMatching OrderedBound [(0, 1); (6, 7)]; mkMatching OrderedBound [(4, 5); (2, 3)]], g')) /\
  Forall (fun i => fst i <= snd i) (bnd a) /\ Forall (fun i => fst i <= snd i) (bnd b) /\ CenterSpread <> OrderedBound.
Proof. split; [eexists; vm_compute; reflexivity|]. split; [repeat constructor; discriminate|]. split; [repeat constructor; discriminate|discriminate]. Qed.
