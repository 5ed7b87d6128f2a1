(* C31: particle swarm and grey wolves. *)
From Verif Require Import PyNum PyList PyMon PyRng M_Matching M_Rule L_RuleProps M_Mixing M_Solution S_Solution M_Composition S_Composition M_GenomeOps
  L_GenomeProps L_SasProps L_SagaProps S_Aco M_Abc S_Abc M_Swarm S_Swarm L_SwarmProps L_Quantum.

(* ----- positions are bit strings of the pool's length, measured as such ----- *)
Theorem C31_swarm_binary : forall {L} (E : env L) M c ini pop (s : hst plain), built s -> sized_pop E s pop ->
  match swarm_run M c L E ini pop tt s with
  | (Ok (pop', _), s') => pop' = pop /\ Forall (honest E s') pop'
  | (Raise e, _) => e <> AssertionError /\ e <> Dangling
  end.
Proof. exact @built_swarm_run. Qed.
Print Assumptions C31_swarm_binary.
Theorem C31_wolves_binary : forall {L} (E : env L) M c ini pop (s : hst plain), built s -> sized_pop E s pop ->
  match wolf_run M c L E ini pop tt s with
  | (Ok (pop', _), s') => length pop' = length pop /\ Forall (honest E s') pop'
  | (Raise e, _) => e <> AssertionError /\ e <> Dangling
  end.
Proof. exact @built_wolf_run. Qed.
Print Assumptions C31_wolves_binary.
(* crossover of the wolves: where all leaders have a one, the wolf gets a one *)
Theorem C31_wolves_follow : forall M a leaders wolf (s : hst plain) bits s' i, (i < length wolf)%nat ->
  Forall (fun l => length l = length wolf /\ nth_error l i = Some true) leaders ->
  wolf_crossover M a leaders wolf s = (Ok bits, s') -> nth_error bits i = Some true.
Proof. exact wolf_crossover_keeps. Qed.
Print Assumptions C31_wolves_follow.

(* ----- personal bests; positions and velocities stay in their ranges (part of swarm_ok) ----- *)
Theorem C31_iteration : forall {L} (E : env L) M c pop ps a (s : hst plain) ps' a' s', vmax_ok (ps_move c) -> wf s ->
  swarm_ok E (ps_move c) s pop ps -> swarm_step M c E pop (ps, a) s = (Ok (ps', a'), s') ->
  wf s' /\ swarm_ok E (ps_move c) s' pop ps' /\ Forall2 (improved s s') ps ps' /\ Forall (honest E s') pop.
Proof. exact @swarm_step_ok. Qed.
Print Assumptions C31_iteration.
Theorem C31_best_never_worse : forall {L} (E : env L) M c pop k a (s : hst plain) s0 ps s1 ps' a' s2,
  never_nan E -> vmax_ok (ps_move c) -> built s -> sized_pop E s pop ->
  fit_all E pop s = (Ok pop, s0) -> mmap (init_particle (ps_move c)) pop s0 = (Ok ps, s1) ->
  iterate k (swarm_step M c E pop) (ps, a) s1 = (Ok (ps', a'), s2) ->
  swarm_ok E (ps_move c) s1 pop ps /\ Forall (twin s1) ps /\ swarm_ok E (ps_move c) s2 pop ps' /\
  Forall2 (fun p p' => p_sol p' = p_sol p /\ not_worse s1 (p_best p) s2 (p_best p')) ps ps'.
Proof. exact @built_bests. Qed.
Print Assumptions C31_best_never_worse.

(* ----- the binary mean ----- *)
(* the full claim holds when there are as many particles as rules, an even number *)
Theorem C31_mean_partial : forall n xs g i, length xs = n -> Nat.even n = true -> (i < n)%nat ->
  (2 * ones_at xs i > length xs -> nth_error (fst (binary_mean n xs g)) i = Some true)%nat /\
  (2 * ones_at xs i < length xs -> nth_error (fst (binary_mean n xs g)) i = Some false)%nat.
Proof. exact mean_even. Qed.
Print Assumptions C31_mean_partial.
(* with fewer particles than half the number of rules the mean is all zeros, whatever the particles are *)
Theorem C31_mean_small_swarm : forall n xs g, (length xs < Nat.div n 2)%nat -> fst (binary_mean n xs g) = repeat false n.
Proof. exact mean_small. Qed.
Print Assumptions C31_mean_small_swarm.
Theorem C31_mean_refuted : exists n xs, Forall (fun x => length x = n) xs /\ (forall i, (i < n)%nat -> ones_at xs i = length xs) /\ xs <> [] /\
  forall g, fst (binary_mean n xs g) = repeat false n.
Proof.
  exists 8%nat, (repeat (repeat true 8) 3). split; [repeat constructor|]. split.
  - intros i Hi. do 8 (destruct i as [|i]; [reflexivity|]). do 8 apply Nat.succ_lt_mono in Hi. destruct (Nat.nlt_0_r i Hi).
  - split; [discriminate|]. intros g. apply mean_small. repeat constructor.
Qed.
Print Assumptions C31_mean_refuted.

(* ----- the binary movement ----- *)
(* the attractor: own best and the best of another particle mixed bit by bit; if that changes nothing, one bit of a further particle *)
Theorem C31_attractor : forall pl na n ps p s att s', attractor pl na n ps p s = (Ok att, s') -> (forall q, In q (p :: ps) -> exists b a, shows s (p_best q) b a /\ length b = n) ->
  (garr s' = garr s /\ sols s' = sols s) /\ exists own nb gn a a', shows s (p_best p) own a /\ In nb ps /\ shows s (p_best nb) gn a' /\
    exists learned, mixed (Fin pl) (fst (randoms n (hrng s))) own gn learned /\
      ((learned <> own /\ att = learned) \/
       (learned = own /\ ((n <> 0)%nat -> exists j nb2 g2 a2, (j < n)%nat /\ In nb2 ps /\ shows s (p_best nb2) g2 a2 /\ length att = n /\
          nth_error att j = nth_error g2 j /\ forall i, i <> j -> nth_error att i = nth_error own i))).
Proof. exact attractor_spec. Qed.
Print Assumptions C31_attractor.
(* the movement: own position and attractor mixed bit by bit, the more of the attractor the farther from the mean *)
Theorem C31_binary_move : forall M a n mean p att s s' own x, binary_move M a n mean p att s = (Ok tt, s') -> built s -> length att = n -> length own = n -> shows s (p_sol p) own x ->
  exists u us bits limit, (u, us) = (fst (random (hrng s)), fst (randoms n (snd (random (hrng s))))) /\ ~ u == 0 /\
    limit = npymin (ndiv (nmul (nmul a (Fin (qofnat (apart own mean)))) (m_log M (ndiv (Fin 1) (Fin u)))) (Fin (qofnat n))) (Fin 1) /\
    shows s' (p_sol p) bits x /\ mixed limit us own att bits /\ forall r b y, r <> p_sol p -> shows s r b y -> shows s' r b y.
Proof. exact built_quantum. Qed.
Print Assumptions C31_binary_move.
Example C31_binary_satisfiable :
  let M := mkSmath (fun x => x) (fun x => x) in
  let s := run_ops (K := plain) (L := mean_learner) [HNew [true; false; false]; HNew [false; true; true]; HFit 0 (count_env by_count); HFit 1 (count_env by_count)]
             (mkH [] [] (mkRng (fun i => qofnat i * (3 # 7) + (1 # 9)) 0)) in
  let ps := [mkPart 0 0 [] [] []; mkPart 1 1 [] [] []] in
  built s /\ (exists x, shows s 0 [true; false; false] x) /\ (exists x, shows s 1 [false; true; true] x) /\
  (exists s', attractor (1 # 2) 2 3 ps (mkPart 0 0 [] [] []) s = (Ok [false; false; false], s')) /\
  exists s', binary_move M (Fin (1 # 9)) 3 [false; true; true] (mkPart 0 0 [] [] []) [false; true; true] s = (Ok tt, s') /\ garr s' <> garr s.
Proof.
  cbv zeta. split; [eexists _, _, _; reflexivity|]. split; [eexists _, _; repeat split|]. split; [eexists _, _; repeat split|]. split.
  - match goal with |- exists s', ?r = _ => destruct (ran_ok r (fun a _ => match a with [false; false; false] => true | _ => false end)) as (a & s' & H1 & H2); [vm_compute; reflexivity|] end.
    exists s'. destruct a as [|[|] [|[|] [|[|] [|? ?]]]]; try discriminate H2. exact H1.
  - match goal with |- exists s', ?r = _ /\ _ => destruct (ran_ok r (fun _ s' => match garr s' with (false :: _) :: _ => true | _ => false end)) as ([] & s' & H1 & H2); [vm_compute; reflexivity|] end.
    exists s'. split; [exact H1|]. intros E. rewrite E in H2. vm_compute in H2. discriminate.
Qed.

(* three particles, two iterations, each movement *)
Example C31_satisfiable : forall m, In m [MSigmoid 1 1 1; MSigmoidQuantum; MBinaryQuantum (1#2) 2] ->
  let E := count_env by_count in
  let c := mkP 2 3 1 2 m in
  let M := mkSmath (fun x => x) (fun x => x) in
  let s := run_ops (K := plain) (L := mean_learner) [HNew [true; false; false]; HNew [false; true; true]; HNew [false; false; false]]
             (mkH [] [] (mkRng (fun i => qofnat i * (3 # 7) + (1 # 9)) 0)) in
  never_nan E /\ vmax_ok m /\ built s /\ sized_pop E s [0; 1; 2]%nat /\
  exists s0 ps s1 ps' a' s2, fit_all E [0; 1; 2]%nat s = (Ok [0; 1; 2]%nat, s0) /\ mmap (init_particle m) [0; 1; 2]%nat s0 = (Ok ps, s1) /\
    iterate 2 (swarm_step M c E [0; 1; 2]%nat) (ps, 2) s1 = (Ok (ps', a'), s2) /\ existsb (fun p => Nat.leb 6 (p_best p)) ps' = true.
Proof.
  intros m Hm. cbv zeta. split; [intros e k j; reflexivity|]. split; [destruct Hm as [<-|[<-|[<-|[]]]]; cbn; auto; discriminate|].
  split; [eexists _, _, _; reflexivity|]. split.
  { repeat constructor; (eexists _, _; split; [eexists; vm_compute; split; [reflexivity|split; reflexivity]|reflexivity]). }
  assert (HR : exists z s', (let* pop := fit_all (count_env by_count) [0; 1; 2]%nat in let* ps := mmap (init_particle m) [0; 1; 2]%nat in
      let* q := iterate 2 (swarm_step (mkSmath (fun x => x) (fun x => x)) (mkP 2 3 1 2 m) (count_env by_count) [0; 1; 2]%nat) (ps, 2) in ret (pop, q))
      (run_ops (K := plain) (L := mean_learner) [HNew [true; false; false]; HNew [false; true; true]; HNew [false; false; false]]
             (mkH [] [] (mkRng (fun i => qofnat i * (3 # 7) + (1 # 9)) 0))) = (Ok z, s') /\
      match z with ([0; 1; 2]%nat, (ps', _)) => existsb (fun p => Nat.leb 6 (p_best p)) ps' | _ => false end = true).
  { destruct Hm as [<-|[<-|[<-|[]]]]; (match goal with |- exists z s', ?r = _ /\ _ =>
      destruct (ran_ok r (fun z _ => match z with ([0; 1; 2]%nat, (ps', _)) => existsb (fun p => Nat.leb 6 (p_best p)) ps' | _ => false end)) as (z & s' & H1 & H2);
      [vm_compute; reflexivity|exists z, s'; split; [exact H1|exact H2]] end). }
  destruct HR as (z & s2 & H & HC). apply bind_inv in H as (pop & s0 & H1 & H). apply bind_inv in H as (ps & s1 & H2 & H).
  apply bind_inv in H as ([ps' a'] & s3 & H3 & H). injection H as <- <-. exists s0, ps, s1, ps', a', s3.
  destruct pop as [|[|?] [|[|[|?]] [|[|[|[|?]]] [|? ?]]]]; try discriminate HC. split; [exact H1|]. split; [exact H2|]. split; [exact H3|exact HC].
Qed.
(* two wolves, both ways to move *)
Example C31_wolves_satisfiable : forall p, In p [WCrossover; WSigmoid] ->
  let E := count_env by_count in
  let s := run_ops (K := plain) (L := mean_learner) [HNew [true; false; false]; HNew [true; true; true]] (mkH [] [] (mkRng (fun i => qofnat i * (3 # 7) + (1 # 9)) 0)) in
  built s /\ sized_pop E s [0; 1]%nat /\
  exists pop' s', wolf_run (mkSmath (fun x => x) (fun x => x)) (mkW 2 2 2 p) mean_learner E ZeroInit [0; 1]%nat tt s = (Ok (pop', tt), s').
Proof.
  intros p Hp. cbv zeta. split; [eexists _, _, _; reflexivity|]. split.
  { repeat constructor; (eexists _, _; split; [eexists; vm_compute; split; [reflexivity|split; reflexivity]|reflexivity]). }
  destruct Hp as [<-|[<-|[]]]; (match goal with |- exists pop' s', ?r = _ =>
    destruct (ran_ok r (fun _ _ => true)) as ([pop' []] & s' & H1 & _); [vm_compute; reflexivity|exists pop', s'; exact H1] end).
Qed.
