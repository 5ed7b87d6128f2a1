(* C72: particles and wolves move by the documented formulas. *)
From Verif Require Import PyNum PyList PyMon PyRng M_Matching M_Rule L_RuleProps M_Mixing M_Solution S_Solution M_Composition M_GenomeOps S_GenomeOps L_GenomeProps
  S_Aco M_Abc M_Swarm S_Swarm S_Moves L_Moves L_MovesQ L_Hunt L_HuntStep L_MovesEx L_HeapProps.

(* ----- particles ----- *)
(* the k-th particle uses the random numbers after those of the particles before it; the target is the position of the particle that is fittest at the moment *)
Theorem C72_classical : forall M b c vmax a ps n (s : hst plain), 0 <= vmax -> wf s -> ps <> [] -> NoDup (map p_sol ps) ->
  Forall (fun p => fits_pool n (MSigmoid b c vmax) p /\ tame (MSigmoid b c vmax) p /\ rated s (p_sol p)) ps ->
  exists best ps' s', move M (MSigmoid b c vmax) (Fin a) ps s = (Ok ps', s') /\ leads s best ps /\ wf s' /\ length ps' = length ps /\
    (forall r bits x, ~ In r (map p_sol ps) -> shows s r bits x -> shows s' r bits x) /\
    forall k p, nth_error ps k = Some p -> exists p' bits, nth_error ps' k = Some p' /\
      classical M b c vmax a (p_pos best) n (later ((n + n + n) * k) (hrng s)) p p' bits /\
      forall old x, shows s (p_sol p) old x -> shows s' (p_sol p) bits x.
Proof. exact classical_moves. Qed.
Print Assumptions C72_classical.
Theorem C72_quantum : forall M a ps n (s : hst plain), log_finite M -> wf s -> ps <> [] -> NoDup (map p_sol ps) ->
  Forall (fun p => length (p_pos p) = n /\ Forall (in_range 0 1) (p_pos p) /\ rated s (p_sol p)) ps ->
  exists best ps' s', move M MSigmoidQuantum (Fin a) ps s = (Ok ps', s') /\ leads s best ps /\ wf s' /\ length ps' = length ps /\
    (forall r bits x, ~ In r (map p_sol ps) -> shows s r bits x -> shows s' r bits x) /\
    forall k p, nth_error ps k = Some p -> exists p' bits, nth_error ps' k = Some p' /\
      quantum M a (p_pos best) (mean_at ps) n (later ((n + n + 1 + n) * k) (hrng s)) p p' bits /\
      forall old x, shows s (p_sol p) old x -> shows s' (p_sol p) bits x.
Proof. exact quantum_moves. Qed.
Print Assumptions C72_quantum.
Example C72_particles_satisfiable : 0 <= 1 /\ wf swarm_heap /\ two_particles <> [] /\ NoDup (map p_sol two_particles) /\ log_finite flat /\
  Forall (fun p => fits_pool 3 (MSigmoid (1 # 2) (1 # 2) 1) p /\ tame (MSigmoid (1 # 2) (1 # 2) 1) p /\ rated swarm_heap (p_sol p)) two_particles /\
  Forall (fun p => length (p_pos p) = 3%nat /\ Forall (in_range 0 1) (p_pos p) /\ rated swarm_heap (p_sol p)) two_particles /\
  ~ number (hrng swarm_heap) 3 == 0.
Proof.
  split; [discriminate|]. split; [exact (built_wf _ swarm_heap_built)|]. split; [discriminate|].
  split; [constructor; [intros [H|[]]; discriminate|constructor; [intros []|constructor]]|].
  split; [exact flat_log|]. split; [exact two_classical|]. split; [exact two_quantum|]. vm_compute. discriminate.
Qed.
(* without inertia and with pulls of at most one a particle never flies past the point that draws it *)
Theorem C72_no_overshoot : forall M b c vmax a target n g p p' bits i x t, classical M b c vmax a target n g p p' bits -> 0 <= vmax -> 0 <= b -> 0 <= c -> b + c <= 1 ->
  0 <= x <= 1 -> 0 <= t <= 1 -> (i < n)%nat ->
  is_at (p_pos p) i x -> is_at (p_bestpos p) i t -> is_at target i t -> (exists v, is_at (p_vel p) i v /\ a * v == 0) ->
  exists x', is_at (p_pos p') i x' /\ (x <= x' <= t \/ t <= x' <= x).
Proof. exact classical_between. Qed.
Print Assumptions C72_no_overshoot.
(* a particle at rest in the best position stays there *)
Theorem C72_at_rest : forall M b c vmax a target n g p p' bits i x, classical M b c vmax a target n g p p' bits -> 0 <= vmax -> 0 <= x <= 1 -> (i < n)%nat ->
  is_at (p_pos p) i x -> is_at (p_bestpos p) i x -> is_at target i x -> (exists v, is_at (p_vel p) i v /\ v == 0) ->
  exists x' v', is_at (p_pos p') i x' /\ is_at (p_vel p') i v' /\ x' == x /\ v' == 0.
Proof. exact classical_rest. Qed.
Print Assumptions C72_at_rest.
(* coordinate 0 of the first particle of the example is at rest; coordinate 0 of the second, with inertia 0, is drawn from 1/3 to 1/2 *)
Example C72_coordinates_satisfiable : exists p q, nth_error two_particles 0 = Some p /\ nth_error two_particles 1 = Some q /\
  is_at (p_pos p) 0 (1 # 2) /\ is_at (p_bestpos p) 0 (1 # 2) /\ is_at (p_vel p) 0 0 /\
  is_at (p_pos q) 0 (1 # 3) /\ is_at (p_bestpos q) 0 (1 # 2) /\ (exists v, is_at (p_vel q) 0 v /\ 0 * v == 0) /\ (1 # 2) + (1 # 2) <= 1.
Proof. eexists _, _. split; [reflexivity|]. split; [reflexivity|]. do 5 (split; [reflexivity|]). split; [exists (1 # 4); split; reflexivity|discriminate]. Qed.
(* the weight of the inertia falls linearly from a_max, to a_min after the last iteration *)
Theorem C72_inertia : forall {L} (E : env L) M c pop, (ps_iter c <> 0)%nat -> forall k ps a (s : hst plain) ps' a' s',
  iterate k (swarm_step M c E pop) (ps, a) s = (Ok (ps', a'), s') -> a' == a - qofnat k * ((ps_amax c - ps_amin c) / qofnat (ps_iter c)).
Proof. exact @swarm_schedule. Qed.
Print Assumptions C72_inertia.
(* a_min is documented as the weight at the last iteration; the last of two iterations has another one *)
Theorem C72_last_inertia_refuted : exists c ps (s : hst plain) ps' a' s', ps_iter c = 2%nat /\
  iterate 1 (swarm_step low c (count_env by_count) [0; 1]%nat) (ps, ps_amax c) s = (Ok (ps', a'), s') /\ ~ a' == ps_amin c.
Proof.
  destruct found_and_lost as (s0 & ps & s1 & ps' & a' & s2 & _ & _ & H & _ & HN). exists two_steps, ps, s1, ps', a', s2. split; [reflexivity|]. split; [exact H|exact HN].
Qed.
Print Assumptions C72_last_inertia_refuted.
(* the swarm is not drawn to the best position found so far: after one iteration every particle may be less fit than what one of them had found,
   and the target of the next movement is the position of one of the particles (C72_classical) *)
Theorem C72_global_best_refuted : exists (s : hst plain) s0 ps s1 ps' a' s2, built s /\ fit_all (count_env by_count) [0; 1]%nat s = (Ok [0; 1]%nat, s0) /\
  mmap (init_particle (ps_move two_steps)) [0; 1]%nat s0 = (Ok ps, s1) /\
  iterate 1 (swarm_step low two_steps (count_env by_count) [0; 1]%nat) (ps, ps_amax two_steps) s1 = (Ok (ps', a'), s2) /\
  exists q fq, In q ps' /\ has_fit s2 (p_best q) fq /\ forall p f, In p ps' -> has_fit s2 (p_sol p) f -> nlt f fq = true.
Proof.
  destruct found_and_lost as (s0 & ps & s1 & ps' & a' & s2 & H1 & H2 & H3 & H4 & _). exists start_heap, s0, ps, s1, ps', a', s2.
  split; [exact start_heap_built|]. split; [exact H1|]. split; [exact H2|]. split; [exact H3|exact H4].
Qed.
Print Assumptions C72_global_best_refuted.
(* the random number 0 turns a quantum particle in the mean position into one without a position *)
Theorem C72_quantum_number_refuted : exists M p (s : hst plain) ps' s' p', log_finite M /\ m_log M PInf = PInf /\ Forall (in_range 0 1) (p_pos p) /\ rated s (p_sol p) /\
  move M MSigmoidQuantum (Fin 1) [p] s = (Ok ps', s') /\ nth_error ps' 0 = Some p' /\ nth_error (p_pos p') 0 = Some NaN.
Proof.
  destruct nan_position as (ps' & s' & H1 & p' & H2 & H3).
  exists flat, (mkPart 0 0 [Fin (1 # 2); Fin 0; Fin 1] [Fin (1 # 2); Fin 0; Fin 1] []), lone_heap, ps', s', p'.
  split; [exact flat_log|]. split; [reflexivity|]. split; [exact lone_range|]. split; [exact lone_rated|]. split; [exact H1|]. split; [exact H2|exact H3].
Qed.
Print Assumptions C72_quantum_number_refuted.

(* ----- wolves ----- *)
Theorem C72_wolves : forall {L} (E : env L) M c pop a n (s : hst plain) pop' a' s', wf s -> Forall (fun r => rated s r /\ exists b x, shows s r b x /\ length b = n) pop ->
  wolf_step M c E (pop, a) s = (Ok (pop', a'), s') ->
  a' == a - 2 / qofnat (w_iter c) /\ length pop' = length pop /\
  exists leaders lbits, fittest_k s (w_leaders c) pop leaders /\ Forall2 (fun l b => exists x, shows s l b x) leaders lbits /\
    forall k r wolf x, nth_error pop k = Some r -> shows s r wolf x -> exists r' bits y, nth_error pop' k = Some r' /\ ~ live s r' /\ shows s' r' bits y /\
      hunts (w_pos c) M a lbits wolf (later (needs (w_pos c) (length leaders) n * k) (hrng s)) bits.
Proof. exact @wolf_step_eq. Qed.
Print Assumptions C72_wolves.
Example C72_wolves_satisfiable : wf swarm_heap /\ Forall (fun r => rated swarm_heap r /\ exists b x, shows swarm_heap r b x /\ length b = 3%nat) [0; 1]%nat /\
  forall pos, exists pop' a' s', wolf_step flat (mkW 4 2 1 pos) (count_env by_count) ([0; 1]%nat, 2) swarm_heap = (Ok (pop', a'), s') /\ pop' = [4; 5]%nat.
Proof. split; [exact (built_wf _ swarm_heap_built)|]. split; [exact wolves_rated|exact wolves_ran]. Qed.
(* the range of the moves falls linearly from two, to zero after the last iteration *)
Theorem C72_range : forall {L} (E : env L) M c k pop a (s : hst plain) pop' a' s', iterate k (wolf_step M c E) (pop, a) s = (Ok (pop', a'), s') ->
  a' == a - qofnat k * (2 / qofnat (w_iter c)).
Proof. exact @wolf_schedule. Qed.
Print Assumptions C72_range.
(* with range zero the share of the leaders that have the rule decides *)
Theorem C72_range_zero : forall M a leaders wolf g bits i w, averaged M a leaders wolf g bits -> a == 0 -> nth_error wolf i = Some w ->
  exists bit x, nth_error bits i = Some bit /\ x == qofnat (ones_at leaders i) / qofnat (length leaders) /\ binarised M (number g (2 * length wolf * length leaders + i)) x bit.
Proof. exact averaged_end. Qed.
Print Assumptions C72_range_zero.
Example C72_range_zero_satisfiable : exists bits s', wolf_sigmoid flat 0 [[true; false]; [true; true]] [false; false] swarm_heap = (Ok bits, s') /\
  averaged flat 0 [[true; false]; [true; true]] [false; false] (hrng swarm_heap) bits.
Proof.
  eexists _, _. split; [reflexivity|]. eapply (sigmoid_draws flat 0 [[true; false]; [true; true]] [false; false] swarm_heap); [repeat constructor|reflexivity].
Qed.
