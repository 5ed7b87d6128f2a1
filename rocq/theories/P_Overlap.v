(* C70: ants in the complete graph weigh overlap, and mark what the best of them selected. *)
From Coq Require Import Qminmax.
From Verif Require Import PyNum PyList PyMon PyRng M_Matching S_Matching M_Rule L_RuleProps M_Mixing L_MixingProps M_Solution S_Solution M_Composition S_Composition S_GenomeOps
  L_GenomeProps L_SasProps L_SagaProps M_Aco S_Aco L_Aco L_AcoProps S_Swarm S_Overlap L_Overlap L_OverlapProps L_OverlapEx.

(* ----- overlap of two rules with ordered bounds ----- *)
Theorem C70_share_range_partial : forall {L} (a b : rule L), ordered a -> ordered b -> same_dims (cond a) (cond b) ->
  exists s, share a b s /\ share b a s /\ 0 <= s <= 1 /\ (s == 1 <-> lies_within (cond a) (cond b) \/ lies_within (cond b) (cond a)).
Proof. exact @share_of. Qed.
Print Assumptions C70_share_range_partial.
Theorem C70_share_of_volume_partial : forall {L} (a b : rule L) m, ordered a -> ordered b -> same_dims (cond a) (cond b) -> proper m -> common m (cond a) (cond b) ->
  share a b (box_volume m / Qmin (box_volume (cond a)) (box_volume (cond b))).
Proof. exact @share_volume. Qed.
Print Assumptions C70_share_of_volume_partial.
Theorem C70_apart_partial : forall {L} (a b : rule L), ordered a -> ordered b -> same_dims (cond a) (cond b) ->
  (forall x, ~ (covers (cond a) x /\ covers (cond b) x)) -> share a b 0.
Proof. exact @share_apart. Qed.
Print Assumptions C70_apart_partial.
(* Missing: the other encodings.  Their arrays do not hold limits, but are read as if they did; a rule inside another one
   gets a negative share, so that it is even more likely to be selected.  Boxes of volume 0 give NaN: never selected. *)
Theorem C70_other_encodings_refuted : exists (a b : rule mean_learner) s, mt (cond a) = CenterSpread /\ mt (cond b) = CenterSpread /\ solid (cond a) /\ solid (cond b) /\
  same_dims (cond a) (cond b) /\ lies_within (cond b) (cond a) /\ share a b s /\ s < 0.
Proof. exact center_overlap. Qed.
Print Assumptions C70_other_encodings_refuted.
Theorem C70_flat_rules_refuted : exists a : rule mean_learner, mt (cond a) = OrderedBound /\ proper (cond a) /\ bounds_overlap a a = (NaN, NaN).
Proof. exact flat_overlap. Qed.
Print Assumptions C70_flat_rules_refuted.

(* ----- selecting a further rule ----- *)
(* it has no chance exactly if all rules it is compared with contain it or lie within it *)
Theorem C70_chance_unless_nested : forall {L} A b partial (pool : list (rule L)) fs p j route, root_ok A b -> measured pool fs -> varied fs -> boxes pool ->
  square_for positive (length pool) p -> (j < length pool)%nat -> route <> [] -> Forall (fun i => (i < length pool)%nat) route ->
  exists eta q, relative_fitness pool = Ok eta /\ com_prob A b partial p pool eta route j = Ok (Fin q) /\ 0 <= q < 1 /\
    (q == 0 <-> Forall (nested pool j) (looked_at partial route)).
Proof. exact @complete_next. Qed.
Print Assumptions C70_chance_unless_nested.
Theorem C70_nested_never_selected : forall {L} A b partial (pool : list (rule L)) fs p j route (s : hst plain), root_ok A b -> measured pool fs -> varied fs -> boxes pool ->
  square_for positive (length pool) p -> (j < length pool)%nat -> route <> [] -> Forall (fun i => (i < length pool)%nat) route ->
  Forall (nested pool j) (looked_at partial route) -> 0 < fst (random (hrng s)) ->
  exists eta s', relative_fitness pool = Ok eta /\ com_visit A b partial p pool eta route j s = (Ok route, s').
Proof. exact @nested_never. Qed.
Print Assumptions C70_nested_never_selected.
(* of two equally fit and equally marked rules the one that overlaps more is not more likely to be selected *)
Theorem C70_more_overlap_less_likely : forall {L} A b partial (pool : list (rule L)) fs p j k rj rk f f' route, root_ok A b -> measured pool fs -> varied fs -> boxes pool ->
  square_for positive (length pool) p -> route <> [] -> Forall (fun i => (i < length pool)%nat) route ->
  nth_error pool j = Some rj -> nth_error pool k = Some rk -> nth_error fs j = Some f -> nth_error fs k = Some f' -> f == f' ->
  (forall i, In i (looked_at partial route) -> cell p i j = cell p i k) -> cell p j j = cell p k k ->
  (forall i ri s t, In i (looked_at partial route) -> nth_error pool i = Some ri -> share ri rj s -> share ri rk t -> t <= s) ->
  exists eta q q', relative_fitness pool = Ok eta /\ com_prob A b partial p pool eta route j = Ok (Fin q) /\
    com_prob A b partial p pool eta route k = Ok (Fin q') /\ q <= q'.
Proof. exact @complete_more. Qed.
Print Assumptions C70_more_overlap_less_likely.

(* ----- marks ----- *)
(* the entries of a selected rule j, and those of a rule j left out beside selected rules and itself *)
Theorem C70_complete_marks : forall p g d i j t, cell p i j = Some t -> (i < length g)%nat -> (j < length g)%nat ->
  (nth_error g j = Some true -> cell (com_update p g d) i j = Some (fst t, nadd (snd t) d)) /\
  (nth_error g j = Some false -> nth_error g i = Some true \/ i = j -> cell (com_update p g d) i j = Some (nadd (fst t) d, snd t)) /\
  (nth_error g j = Some false -> nth_error g i = Some false -> i <> j -> cell (com_update p g d) i j = Some t).
Proof. exact update_cells. Qed.
Print Assumptions C70_complete_marks.
Theorem C70_binary_marks : forall p g d i t, nth_error p i = Some t -> length g = length p ->
  (nth_error g i = Some true -> exists t', nth_error (bin_update p g d) i = Some t' /\ fst t' = nadd (fst t) (nmul (Fin 0) d) /\ snd t' = nadd (snd t) (nmul (Fin 1) d)) /\
  (nth_error g i = Some false -> exists t', nth_error (bin_update p g d) i = Some t' /\ fst t' = nadd (fst t) (nmul (Fin 1) d) /\ snd t' = nadd (snd t) (nmul (Fin 0) d)).
Proof. exact binary_cells. Qed.
Print Assumptions C70_binary_marks.
(* an iteration: the pheromones evaporate, the best n_best ants mark their rules with their fitness times c, everything is clipped *)
Theorem C70_binary_iteration : forall {L} A b (E : env L) c pop p (s : hst plain) pop' p' s', never_nan E -> built s -> sized_pop E s pop -> length p = length (epool E) ->
  aco_step (Binary A b) c E (pop, p) s = (Ok (pop', p'), s') ->
  pop' = pop /\ Forall (honest E s') pop /\ exists best marks, fittest_k s' (a_best c) pop best /\
    Forall2 (fun r m => exists bits a, shows s' r bits (Some a) /\ m = (bits, nmul (sfitness a) (Fin (a_c c)))) best marks /\
    p' = ph_map (Binary A b) (nclip (Fin (a_min c)) (Fin (a_max c)))
      (fold_left (fun q m => bin_update q (fst m) (snd m)) marks (ph_map (Binary A b) (nmul (Fin (1 - a_evap c))) p)).
Proof. exact @binary_iteration. Qed.
Print Assumptions C70_binary_iteration.
Theorem C70_complete_iteration : forall {L} A b partial (E : env L) c pop p (s : hst plain) pop' p' s', never_nan E -> built s -> sized_pop E s pop ->
  square_for (fun _ => True) (length (epool E)) p -> aco_step (Complete A b partial) c E (pop, p) s = (Ok (pop', p'), s') ->
  pop' = pop /\ Forall (honest E s') pop /\ exists best marks, fittest_k s' (a_best c) pop best /\
    Forall2 (fun r m => exists bits a, shows s' r bits (Some a) /\ m = (bits, nmul (sfitness a) (Fin (a_c c)))) best marks /\
    p' = ph_map (Complete A b partial) (nclip (Fin (a_min c)) (Fin (a_max c)))
      (fold_left (fun q m => com_update q (fst m) (snd m)) marks (ph_map (Complete A b partial) (nmul (Fin (1 - a_evap c))) p)).
Proof. exact @complete_iteration. Qed.
Print Assumptions C70_complete_iteration.

(* the second rule lies within the first one, the third one sticks out *)
Example C70_satisfiable : root_ok plain_math (mkBp 1 1 5) /\ boxes three_boxes /\ measured three_boxes [1; 2; 2] /\ varied [1; 2; 2] /\
  square_for positive 3 (repeat (repeat (Fin 5, Fin 5) 3) 3) /\ Forall (nested three_boxes 1) (looked_at true [0%nat]) /\ ~ nested three_boxes 2 0 /\
  share (fitted_rule 0 4 1 1 1) (fitted_rule 1 2 1 2 1) 1 /\ share (fitted_rule 0 4 1 1 1) (fitted_rule 3 6 1 2 1) (1#3) /\
  (exists q, com_prob plain_math (mkBp 1 1 5) true (repeat (repeat (Fin 5, Fin 5) 3) 3) three_boxes [(Fin 1, Fin 1); (Fin (1#2), Fin (3#2)); (Fin (1#2), Fin (3#2))] [0%nat] 1 = Ok (Fin q) /\ q == 0) /\
  (exists q, com_prob plain_math (mkBp 1 1 5) true (repeat (repeat (Fin 5, Fin 5) 3) 3) three_boxes [(Fin 1, Fin 1); (Fin (1#2), Fin (3#2)); (Fin (1#2), Fin (3#2))] [0%nat] 2 = Ok (Fin q) /\ q == 3#5) /\
  com_update (repeat (repeat (Fin 5, Fin 5) 3) 3) [true; true; false] (Fin 2) =
    [[(Fin 5, Fin 7); (Fin 5, Fin 7); (Fin 7, Fin 5)]; [(Fin 5, Fin 7); (Fin 5, Fin 7); (Fin 7, Fin 5)]; [(Fin 5, Fin 7); (Fin 5, Fin 7); (Fin 7, Fin 5)]] /\
  com_update (repeat (repeat (Fin 5, Fin 5) 2) 2) [false; false] (Fin 2) = [[(Fin 7, Fin 5); (Fin 5, Fin 5)]; [(Fin 5, Fin 5); (Fin 7, Fin 5)]].
Proof.
  split; [apply plain_root|]. destruct three_ok as (H1 & H2 & H3). split; [exact H1|]. split; [exact H2|]. split; [exact H3|].
  assert (HP : positive (Fin 5)) by (exists 5; split; reflexivity).
  assert (HR : pairs_for positive 3 (repeat (Fin 5, Fin 5) 3)) by (split; [reflexivity|repeat constructor; exact HP]).
  split; [split; [reflexivity|repeat (constructor; [exact HR|]); constructor]|].
  split; [constructor; [|constructor]; eexists _, _; split; [reflexivity|]; split; [reflexivity|]; right; exact second_within_first|].
  split; [exact third_sticks_out|]. split; [eexists _, _; split; [vm_compute; reflexivity|split; reflexivity]|].
  split; [eexists _, _; split; [vm_compute; reflexivity|split; reflexivity]|]. split; [eexists; split; [vm_compute; reflexivity|reflexivity]|].
  split; [eexists; split; [vm_compute; reflexivity|reflexivity]|]. split; vm_compute; reflexivity.
Qed.
(* an iteration with either builder: two of three ants mark *)
Example C70_iteration_satisfiable :
  let E := count_env by_count in
  let c := mkA 2 3 (78#100) 10 (1#10) 2 (1#100) true in
  let s := run_ops (K := plain) (L := mean_learner) [HNew [true; false; false]; HNew [false; true; true]; HNew [false; false; false]]
             (mkH [] [] (mkRng (fun i => qofnat i * (3 # 7) + (1 # 9)) 0)) in
  never_nan E /\ built s /\ sized_pop E s [0; 1; 2]%nat /\ length (epool E) = 3%nat /\ square_for (fun _ => True) 3 (repeat (repeat (Fin 5, Fin 5) 3) 3) /\
  (exists pop' p' s', aco_step (Binary plain_math (mkBp 1 1 5)) c E ([0; 1; 2]%nat, repeat (Fin 5, Fin 5) 3) s = (Ok (pop', p'), s')) /\
  exists pop' p' s', aco_step (Complete plain_math (mkBp 1 1 5) true) c E ([0; 1; 2]%nat, repeat (repeat (Fin 5, Fin 5) 3) 3) s = (Ok (pop', p'), s').
Proof.
  cbv zeta. split; [intros e k j; reflexivity|]. split; [eexists _, _, _; reflexivity|]. split.
  { repeat constructor; (eexists _, _; split; [eexists; vm_compute; split; [reflexivity|split; reflexivity]|reflexivity]). }
  split; [reflexivity|]. split; [split; [reflexivity|repeat constructor]|].
  split; match goal with |- exists pop' p' s', ?r = _ =>
    destruct (ran_ok r (fun _ _ => true)) as ([pop' p'] & s' & H1 & _); [vm_compute; reflexivity|exists pop', p', s'; exact H1] end.
Qed.
