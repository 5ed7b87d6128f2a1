(* C28: ageing and extinction; C49: what a step on an empty pool leaves behind *)
From Coq Require Import Arith.
From Verif Require Import PyNum PyList PyMon PyRng PyStat M_Matching M_Rule L_RuleProps M_Mixing M_Solution S_Solution
  L_HeapProps M_Composition M_GenomeOps S_GenomeOps L_GenomeProps M_GA M_Saga S_Saga M_Sas S_Sas L_SagaProps L_Sas L_SasProps.
Open Scope Q_scope.

(* below the capacity of five times the initial size, ageing removes nobody who was just born *)
Theorem C28_newborns_survive : forall initial pop (s : hst sas_sol),
  built s -> NoDup pop -> Forall (measured s) pop -> pop <> [] -> (length pop < 5 * initial)%nat ->
  exists parents s', ageing initial pop s = (Ok parents, s') /\ forall r, In r pop -> newborn s r -> In r parents.
Proof. exact newborns_survive. Qed.
Print Assumptions C28_newborns_survive.
(* a living best member that beats the median does not age, at any population size *)
Theorem C28_best_survives : forall initial pop (s : hst sas_sol) fs r f, built s -> NoDup pop -> (1 <= initial)%nat ->
  Forall2 (has_fit s) pop fs -> Forall (fun f => is_nan f = false) fs ->
  In r pop -> alive s r -> has_fit s r f -> (forall f', In f' fs -> nle f' f = true) -> nlt (nmedian fs) f = true ->
  exists parents s', ageing initial pop s = (Ok parents, s') /\ In r parents /\ forall x, has_ext s r x -> has_ext s' r x.
Proof. exact best_survives. Qed.
Print Assumptions C28_best_survives.
(* so a generation with two newborn members produces another one *)
Theorem C28_generation : forall {L} (E : env L) c pop k (s : hst sas_sol) pop' k' s' a b,
  built s -> NoDup pop -> Forall (honest E s) pop -> (length pop < 5 * sa_init c)%nat ->
  In a pop -> In b pop -> a <> b -> newborn s a -> newborn s b ->
  sas_step c E (pop, k) s = (Ok (pop', k'), s') ->
  (2 <= k')%nat /\ NoDup pop' /\ Forall (honest E s') pop' /\ (length pop' <= 2 * length pop)%nat /\
  exists a' b', In a' pop' /\ In b' pop' /\ a' <> b' /\ newborn s' a' /\ newborn s' b'.
Proof. exact @sas_generation. Qed.
Print Assumptions C28_generation.
(* a run that starts with a population of one loses it *)
Theorem C28_extinct_refuted : exists (E : env mean_learner) (g : rng) st s,
  compose (sas (sas1 2 1)) (mkCcfg ZeroInit true false) [(E, g)] (fresh_comp (sas (sas1 2 1)) 1%nat) (mkH [] [] g) = (Ok st, s) /\ cpop st = [].
Proof. exact sas_lone_dies. Qed.
Print Assumptions C28_extinct_refuted.
(* ... and then fails *)
Theorem C28_no_parents_refuted : exists (E : env mean_learner) (g : rng) s,
  compose (sas (sas1 3 1)) (mkCcfg ZeroInit true true) [(E, g)] (fresh_comp (sas (sas1 3 1)) 1%nat) (mkH [] [] g) = (Raise IndexError, s).
Proof. exact sas_lone_raises. Qed.
Print Assumptions C28_no_parents_refuted.
(* at the capacity one call of ageing can remove everybody, newborn members included *)
Theorem C28_capacity_refuted : exists (E : env mean_learner) (s : hst sas_sol) pop s',
  built s /\ NoDup pop /\ Forall (honest E s) pop /\
  length pop = 9%nat /\ (exists a b, a <> b /\ In a pop /\ In b pop /\ newborn s a /\ newborn s b) /\
  (forall r, In r pop -> alive s r) /\ ageing 1 pop s = (Ok [], s').
Proof. exact ageing_kills_all. Qed.
Print Assumptions C28_capacity_refuted.

(* ----- C49 ----- *)
(* whatever the optimizer, an empty pool leaves a population of one *)
Theorem C49_one_left : forall {K L} (O : optimizer K) c (E : env L) g (st st' : comp O) s s',
  epool E = [] -> optimize O c E g st s = (Ok st', s') -> length (cpop st') = 1%nat /\ cint st' = cint st.
Proof. exact @empty_pool_one. Qed.
Print Assumptions C49_one_left.
(* genetic algorithms and random search are back at their size after the next step *)
Theorem C49_ga_recovers : forall {L} c cc (E : env L) g (st st' : comp (ga c)) s s', epool E <> [] -> (0 < g_iter c)%nat ->
  optimize (ga c) cc E g st s = (Ok st', s') -> (g_size c <= length (cpop st'))%nat.
Proof. exact @ga_recovers. Qed.
Print Assumptions C49_ga_recovers.
Theorem C49_saga1_recovers : forall {L} c cc (E : env L) g (st st' : comp (saga1 c)) s s', epool E <> [] -> (0 < s1_iter c)%nat ->
  optimize (saga1 c) cc E g st s = (Ok st', s') -> (s1_size c <= length (cpop st'))%nat.
Proof. exact @saga1_recovers. Qed.
Print Assumptions C49_saga1_recovers.
Theorem C49_saga3_recovers : forall {L} c cc (E : env L) g (st st' : comp (saga3 c)) s s', epool E <> [] -> (0 < s3_iter c)%nat ->
  optimize (saga3 c) cc E g st s = (Ok st', s') -> (s3_size c <= length (cpop st'))%nat.
Proof. exact @saga3_recovers. Qed.
Print Assumptions C49_saga3_recovers.
Theorem C49_rs_recovers : forall {L} ni size cc (E : env L) g (st st' : comp (rs ni size)) s s', epool E <> [] ->
  optimize (rs ni size) cc E g st s = (Ok st', s') -> length (cpop st') = size.
Proof. exact @rs_recovers. Qed.
Print Assumptions C49_rs_recovers.
(* the ageing optimizer dies out although it was given four initial members *)
Theorem C49_sas_refuted : exists (E : env mean_learner) (g : rng) s, epool E <> [] /\
  compose (sas (sas1 16 4)) (mkCcfg ZeroInit true true) [(no_rules by_count, g); (E, g)] (fresh_comp (sas (sas1 16 4)) 4%nat) (mkH [] [] g) = (Raise IndexError, s).
Proof. exact sas_empty_step_raises. Qed.
Print Assumptions C49_sas_refuted.
(* saga2 compares generations of different lengths *)
Theorem C49_saga2_refuted : forall t, exists (E : env mean_learner) (g : rng) s, epool E <> [] /\
  compose (saga2 t cfg4) (mkCcfg ZeroInit true true) [(no_rules by_count, scripted []); (E, g)] (fresh_comp (saga2 t cfg4) (s2_init cfg4))
    (mkH [] [] (scripted [])) = (Raise IndexError, s).
Proof. exact saga2_empty_step. Qed.
Print Assumptions C49_saga2_refuted.

(* two newborn members, capacity 10: a generation that ends normally *)
Example C28_satisfiable :
  let E := count_env by_count in
  let s := run_ops (K := sas_sol) (L := mean_learner) [HNew [true; false; true]; HNew [true; true; true]; HFit 0 E; HFit 1 E] (mkH [] [] (scripted [1#3; 2#3])) in
  built s /\ NoDup [0; 1]%nat /\ Forall (honest E s) [0; 1]%nat /\ newborn s 0 /\ newborn s 1 /\
  exists z s', sas_step (sas1 16 2) E ([0; 1]%nat, 2%nat) s = (Ok z, s') /\ length (fst z) = 4%nat.
Proof.
  cbv zeta. split; [eexists _, _, _; reflexivity|]. split; [repeat constructor; cbn; intuition discriminate|]. split.
  { repeat constructor; (eexists _, _, (scripted []), _; split;
      [eexists; vm_compute; split; [reflexivity|split; reflexivity]|split; [reflexivity|vm_compute; reflexivity]]). }
  split; [eexists; split; vm_compute; reflexivity|]. split; [eexists; split; vm_compute; reflexivity|].
  match goal with |- exists z s', ?r = _ /\ _ => destruct (ran_ok r (fun z _ => Nat.eqb (length (fst z)) 4)) as (z & s' & H1 & H2) end; [vm_compute; reflexivity|].
  exists z, s'. split; [exact H1|]. apply Nat.eqb_eq. exact H2.
Qed.
(* without the empty step the same ageing run ends normally *)
Example C49_sas_normal_run : exists (E : env mean_learner) (g : rng) st s, epool E <> [] /\
  compose (sas (sas1 16 4)) (mkCcfg ZeroInit true true) [(E, g)] (fresh_comp (sas (sas1 16 4)) 4%nat) (mkH [] [] g) = (Ok st, s) /\ cpop st <> [].
Proof. exact sas_without_empty_step. Qed.
(* a genetic algorithm over an empty and then a non-empty pool *)
Example C49_satisfiable :
  let c := mkG 2 4 (1#4) (SelTournament 2) Uniform (9#10) (1#100) in
  exists st s, compose (ga c) (mkCcfg ZeroInit true true) [(no_rules by_count, scripted []); (count_env by_count, scripted [1#3; 2#3; 1#5])]
    (fresh_comp (ga c) tt) (mkH [] [] (scripted [])) = (Ok st, s) /\ length (cpop st) = 5%nat.
Proof.
  cbv zeta. match goal with |- exists st s, ?r = _ /\ _ => destruct (ran_ok r (fun st _ => Nat.eqb (length (cpop st)) 5)) as (st & s & H1 & H2) end; [vm_compute; reflexivity|].
  exists st, s. split; [exact H1|]. apply Nat.eqb_eq. exact H2.
Qed.
