(* C23: the genetic algorithm keeps its elitists *)
From Verif Require Import PyNum PyList PyMon PyRng M_Matching M_Rule M_Mixing S_Mixing M_Solution S_Solution
  L_HeapProps M_Composition M_GenomeOps S_GenomeOps M_GA S_GA L_GenomeProps L_GAProps.
Open Scope Q_scope.

(* one generation: the fittest go through unchanged, g_size c new objects join them *)
Theorem C23_elitists_survive_unchanged : forall {K L} (E : env L) c pop (s : hst K) pop' s',
  built s -> Forall (honest E s) pop -> deterministic (emix E) -> (forall e k j, is_nan (efit E e k j) = false) ->
  ga_step c E pop s = (Ok pop', s') ->
  exists el new, pop' = el ++ new /\ fittest_k s (n_elitists (g_size c) (g_ratio c)) pop el /\
    length new = g_size c /\ Forall (fun r => ~ live s r) new /\ Forall (honest E s') pop' /\
    (forall r bits a, In r el -> shows s r bits a -> shows s' r bits a).
Proof. exact @ga_elitists. Qed.
Print Assumptions C23_elitists_survive_unchanged.
(* with at least one elitist the best fitness never falls as generations are added *)
Theorem C23_best_never_falls : forall {K L} (E : env L) c ini i j pop (s : hst K) pop1 s1 pop2 s2,
  built s -> Forall (fun r => exists bits a, shows s r bits a /\ length bits = length (epool E)) pop ->
  deterministic (emix E) -> (forall e k j, is_nan (efit E e k j) = false) ->
  (1 <= n_elitists (g_size c) (g_ratio c))%nat ->
  ga_run (with_iter c i) L E ini pop tt s = (Ok (pop1, tt), s1) ->
  ga_run (with_iter c (i + j)) L E ini pop tt s = (Ok (pop2, tt), s2) ->
  forall r f, In r pop1 -> has_fit s1 r f -> exists r' f', In r' pop2 /\ has_fit s2 r' f' /\ nle f f' = true.
Proof. exact @ga_best_grows. Qed.
Print Assumptions C23_best_never_falls.
(* after at least one generation the population has population_size + elitists members, all measured *)
Theorem C23_population_size : forall {K L} (E : env L) c ini pop (s : hst K) pop' s',
  built s -> Forall (fun r => exists bits a, shows s r bits a /\ length bits = length (epool E)) pop ->
  deterministic (emix E) -> (forall e k j, is_nan (efit E e k j) = false) ->
  (n_elitists (g_size c) (g_ratio c) <= length pop)%nat -> (1 <= g_iter c)%nat ->
  ga_run c L E ini pop tt s = (Ok (pop', tt), s') ->
  length pop' = (n_elitists (g_size c) (g_ratio c) + g_size c)%nat /\ Forall (honest E s') pop'.
Proof. exact @ga_size. Qed.
Print Assumptions C23_population_size.

(* three members of fitness 3, 0 and 1; 4 children, one elitist, two generations *)
Example C23_satisfiable :
  let E := count_env by_count in
  let s := pop_heap by_count (scripted [0; 3#10; 9#10; 2; 1; 2; 1; 0; 0]) in
  let c := mkG 2 4 (3#10) (SelTournament 3) Uniform (9#10) (1#100) in
  built s /\ Forall (fun r => exists bits a, shows s r bits a /\ length bits = length (epool E)) [0; 1; 2]%nat /\
  Forall (honest E s) [0; 1; 2]%nat /\ deterministic (emix E) /\ (forall e k j, is_nan (efit E e k j) = false) /\
  n_elitists (g_size c) (g_ratio c) = 1%nat /\
  (exists s', ga_step c E [0; 1; 2]%nat s = (Ok [0; 7; 8; 9; 10]%nat, s')) /\
  (exists s', ga_run c _ E (RandomInit (1#2)) [0; 1; 2]%nat tt s = (Ok ([0; 15; 16; 17; 18]%nat, tt), s')).
Proof.
  cbv zeta. split; [apply pop_heap_built|].
  split; [repeat constructor; (do 2 eexists; split; [eexists; split; [vm_compute; reflexivity|split; vm_compute; reflexivity]|reflexivity])|].
  split; [repeat constructor; (eexists _, _, (scripted []), _; split; [eexists; split; [vm_compute; reflexivity|split; vm_compute; reflexivity]|split; [reflexivity|vm_compute; reflexivity]])|].
  split; [left; reflexivity|]. split; [reflexivity|]. split; [reflexivity|].
  split; eexists; vm_compute; reflexivity.
Qed.
