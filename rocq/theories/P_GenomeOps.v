(* Properties C24 to C26: crossover, mutation and parent selection of solutions. *)
From Verif Require Import PyNum PyList PyMon PyRng PyStat M_Matching M_Rule L_RuleProps M_Mixing L_MixingProps M_Solution S_Solution
  L_HeapProps M_GenomeOps S_GenomeOps L_GenomeProps.

(* ----- C24: crossover; [both] distinguishes the ga operators (true) from their saga and sas copies (false) ----- *)
Theorem C24_child_recombines_positionwise : forall {K} both x rate (s : hst K) a b ba aa bb ab,
  built s -> shows s a ba aa -> shows s b bb ab -> length ba = length bb ->
  exists c s' bits ac, crossover both x rate a b s = (Ok c, s') /\ shows s' c bits ac /\ recombined ba bb bits /\
    (c = a \/ ~ live s c) /\ forall r bits0 a0, shows s r bits0 a0 -> shows s' r bits0 a0.
Proof. exact @crossover_positionwise. Qed.
Print Assumptions C24_child_recombines_positionwise.
(* uniform crossover can produce every recombination *)
Theorem C24_uniform_takes_either : forall {K} both (s : hst K) a b ba aa bb ab bits,
  built s -> shows s a ba aa -> shows s b bb ab -> length ba = length bb -> recombined ba bb bits ->
  exists g c s' ac, recombine both Uniform a b (mkH (garr s) (sols s) g) = (Ok c, s') /\ shows s' c bits ac.
Proof. exact @uniform_onto. Qed.
Print Assumptions C24_uniform_takes_either.
(* what n-point crossover does instead of alternating: one cut, at the smallest of the points *)
Theorem C24_npoint_cuts_once_partial : forall {K} both k (s : hst K) a b ba aa bb ab,
  built s -> shows s a ba aa -> shows s b bb ab -> length ba = length bb ->
  exists c s' cuts ac, recombine both (NPoint k) a b s = (Ok c, s') /\ length cuts = Nat.min k (length ba) /\ NoDup cuts /\
    Forall (fun i => i < length ba)%nat cuts /\ shows s' c (cut_at (fold_right Nat.min (length ba) cuts) ba bb) ac.
Proof. exact @npoint_single_cut. Qed.
Print Assumptions C24_npoint_cuts_once_partial.
Theorem C24_npoint_alternates_refuted : forall both : bool,
  exists (s : hst plain) a b ba aa bb ab,
    built s /\ shows s a ba aa /\ shows s b bb ab /\ length ba = length bb /\
    exists c s' bits ac, recombine both (NPoint 2) a b s = (Ok c, s') /\ shows s' c bits ac /\
    forall cuts, length cuts = 2%nat -> NoDup cuts -> Forall (fun i => i < length ba)%nat cuts -> ~ alternates cuts ba bb bits.
Proof. exact alternation_fails. Qed.
Print Assumptions C24_npoint_alternates_refuted.
Example C24_satisfiable :
  let s := pop_heap by_count (scripted [0; 1#4; 3#4; 1#4]) in
  built s /\ (exists a, shows s 0 [true; true; true] a) /\ (exists a, shows s 1 [false; false; false] a) /\
  recombined [true; true; true] [false; false; false] [true; false; true] /\
  exists c s', crossover true Uniform (Fin (1#2)) 0 1 s = (Ok c, s') /\ shows s' c [true; false; true] None.
Proof.
  intros s. split; [apply pop_heap_built|].
  split; [do 2 eexists; vm_compute; split; [reflexivity|split; reflexivity]|].
  split; [do 2 eexists; vm_compute; split; [reflexivity|split; reflexivity]|].
  split; [split; [reflexivity|]; intros [|[|[|[|i]]]] x; cbn; auto; destruct i; discriminate|].
  do 2 eexists. split; [vm_compute; reflexivity|]. eexists. vm_compute. split; [reflexivity|split; reflexivity].
Qed.

(* ----- C25: bit flips ----- *)
Theorem C25_flips_drawn_positions : forall {K} rate (s : hst K) r bits a,
  built s -> shows s r bits a ->
  exists c s' us bits', bit_flips (Fin rate) r s = (Ok c, s') /\ ~ live s c /\ shows s' c bits' None /\
    us = fst (randoms (length bits) (hrng s)) /\ flipped rate us bits bits' /\
    (rate <= 0 -> bits' = bits) /\ (1 <= rate -> bits' = map negb bits) /\
    (forall q b0 a0, shows s q b0 a0 -> shows s' q b0 a0).
Proof. exact @bit_flip_exact. Qed.
Print Assumptions C25_flips_drawn_positions.
(* with a rate strictly between 0 and 1 every genome can be reached *)
Theorem C25_every_genome_reachable : forall {K} rate (s : hst K) r bits a bits',
  built s -> shows s r bits a -> 0 < rate -> rate < 1 -> length bits' = length bits ->
  exists g c s', bit_flips (Fin rate) r (mkH (garr s) (sols s) g) = (Ok c, s') /\ shows s' c bits' None.
Proof. exact @bit_flip_onto. Qed.
Print Assumptions C25_every_genome_reachable.
Example C25_satisfiable :
  let s := pop_heap by_count (scripted [1#4; 3#4; 1#4]) in
  built s /\ (exists a, shows s 2 [true; false; false] a) /\
  exists c s', bit_flips (Fin (1#2)) 2 s = (Ok c, s') /\ shows s' c [false; false; true] None.
Proof.
  intros s. split; [apply pop_heap_built|].
  split; [do 2 eexists; vm_compute; split; [reflexivity|split; reflexivity]|].
  do 2 eexists. split; [vm_compute; reflexivity|]. eexists. vm_compute. split; [reflexivity|split; reflexivity].
Qed.

(* ----- C26: parent selection ----- *)
Theorem C26_selects_n_members : forall {K} k pop n (s : hst K) r s' fs,
  Forall2 (has_fit s) pop fs -> Forall (fun f => is_nan f = false) fs ->
  select k pop n s = (Ok r, s') -> length r = n /\ Forall (fun x => In x pop) r.
Proof. exact @select_members. Qed.
Print Assumptions C26_selects_n_members.
Theorem C26_tournament_winner_is_fittest : forall {K} k pop n (s : hst K) r s' fs,
  Forall2 (has_fit s) pop fs -> Forall (fun f => is_nan f = false) fs ->
  select (SelTournament k) pop n s = (Ok r, s') -> Forall2 (tournament_won s) (rounds n k pop (hrng s)) r.
Proof. exact @select_tournament. Qed.
Print Assumptions C26_tournament_winner_is_fittest.
Theorem C26_linear_rank_prefers_fitter : forall {K} pop n (s : hst K) fs,
  Forall2 (has_fit s) pop fs -> Forall (fun f => is_nan f = false) fs -> pop <> [] ->
  exists w r s', select SelLinearRank pop n s = (Ok r, s') /\
    Forall2 (fun u x => exists i, picks w u i /\ nth_error pop i = Some x) (fst (randoms n (hrng s))) r /\
    length w = length pop /\ Forall (fun p => 0 < p) w /\ qsum w == 1 /\
    forall i j x y wi wj, nth_error fs i = Some x -> nth_error fs j = Some y ->
      nth_error w i = Some wi -> nth_error w j = Some wj -> nlt x y = true -> wi < wj.
Proof. exact @select_linear_rank. Qed.
Print Assumptions C26_linear_rank_prefers_fitter.
(* roulette: proportional to fitness, never a member of fitness 0 *)
Theorem C26_roulette_proportional : forall {K} pop n (s : hst K) qs,
  Forall2 (has_fit s) pop (map Fin qs) -> Forall (fun q => 0 <= q) qs -> 0 < qsum qs ->
  exists w r s', select SelRoulette pop n s = (Ok r, s') /\
    Forall2 (fun u x => exists i, picks w u i /\ nth_error pop i = Some x) (fst (randoms n (hrng s))) r /\
    Forall2 (fun q p => p == q / qsum qs) qs w /\
    Forall (fun x => exists f, has_fit s x (Fin f) /\ 0 < f) r.
Proof. exact @select_roulette. Qed.
Print Assumptions C26_roulette_proportional.
(* with negative fitnesses (pseudo-BIC) roulette prefers the least fit, or fails *)
Theorem C26_roulette_negative_refuted :
  exists (s : hst plain) pop q0 q1 q2, built s /\ Forall2 (has_fit s) pop [Fin q0; Fin q1; Fin q2] /\ q0 < q2 /\ q2 < q1 /\
    exists w w0 w1 w2, w = [w0; w1; w2] /\ w1 < w2 /\ w2 < w0 /\
      forall n g, exists r s', select SelRoulette pop n (mkH (garr s) (sols s) g) = (Ok r, s') /\
        Forall2 (fun u x => exists i, picks w u i /\ nth_error pop i = Some x) (fst (randoms n g)) r.
Proof. exact roulette_inverted. Qed.
Print Assumptions C26_roulette_negative_refuted.
Theorem C26_roulette_mixed_signs_refuted :
  exists (s : hst plain) pop q0 q1 q2, built s /\ Forall2 (has_fit s) pop [Fin q0; Fin q1; Fin q2] /\ q0 < 0 /\ 0 < q1 /\ 0 < q2 /\
    forall n g, fst (select SelRoulette pop n (mkH (garr s) (sols s) g)) = Raise ValueError.
Proof. exact roulette_mixed_signs. Qed.
Print Assumptions C26_roulette_mixed_signs_refuted.
(* three members of fitness 3, 0 and 1 *)
Example C26_satisfiable :
  let s := pop_heap by_count (scripted [0; 3#10; 9#10; 2; 1; 2; 1; 0; 0]) in
  Forall2 (has_fit s) [0; 1; 2]%nat (map Fin [3; 0; 1]) /\ Forall (fun f => is_nan f = false) (map Fin [3; 0; 1]) /\
  0 < qsum [3; 0; 1] /\
  fst (select SelRoulette [0; 1; 2]%nat 3 s) = Ok [0; 0; 2]%nat /\
  fst (select SelLinearRank [0; 1; 2]%nat 3 s) = Ok [0; 0; 2]%nat /\
  fst (select (SelTournament 3) [0; 1; 2]%nat 3 s) = Ok [0; 2; 0]%nat /\
  fst (select SelRandom [0; 1; 2]%nat 4 s) = Ok [0; 0; 0; 2]%nat.
Proof.
  cbv zeta. split; [|split; [|split; [reflexivity|split; [|split; [|split]]]]].
  - repeat constructor; (do 2 eexists; split; [eexists; split; [vm_compute; reflexivity|split; vm_compute; reflexivity]|vm_compute; reflexivity]).
  - repeat constructor.
  - vm_compute; reflexivity.
  - vm_compute; reflexivity.
  - vm_compute; reflexivity.
  - vm_compute; reflexivity.
Qed.
