(* C29: ant colony *)
From Verif Require Import PyNum PyList PyMon PyRng M_Matching M_Rule L_RuleProps M_Mixing M_Solution S_Solution L_HeapProps
  M_Composition S_Composition L_GenomeProps M_Aco S_Aco L_Num L_SagaProps L_AcoProps.
Open Scope Q_scope.

(* after every learning run, for each builder: one pair per rule (pair of rules), every value in the configured interval *)
Theorem C29_binary_in_range : forall {L} A b c cc steps (E : env L) g g0 st s,
  a_min c <= a_max c -> a_iter c <> 0%nat -> epool E <> [] ->
  Forall (fun z => finite_fit (fst z)) (steps ++ [(E, g)]) -> one_fit (steps ++ [(E, g)]) ->
  compose (aco (Binary A b) c) cc (steps ++ [(E, g)]) (fresh_comp (aco (Binary A b) c) None) (mkH [] [] g0) = (Ok st, s) ->
  exists p, cint st = Some p /\ pairs_for (in_range (a_min c) (a_max c)) (length (epool E)) p.
Proof. exact @binary_in_range. Qed.
Print Assumptions C29_binary_in_range.
Theorem C29_complete_in_range : forall {L} A b partial c cc steps (E : env L) g g0 st s,
  a_min c <= a_max c -> a_iter c <> 0%nat -> epool E <> [] ->
  Forall (fun z => finite_fit (fst z)) (steps ++ [(E, g)]) -> one_fit (steps ++ [(E, g)]) ->
  compose (aco (Complete A b partial) c) cc (steps ++ [(E, g)]) (fresh_comp (aco (Complete A b partial) c) None) (mkH [] [] g0) = (Ok st, s) ->
  exists p, cint st = Some p /\ square_for (in_range (a_min c) (a_max c)) (length (epool E)) p.
Proof. exact @complete_in_range. Qed.
Print Assumptions C29_complete_in_range.
(* a fitness that may be infinite or NaN leaves nothing but NaN outside the interval *)
Theorem C29_binary_any_fitness : forall {L} A b c cc steps (E : env L) g g0 st s,
  a_min c <= a_max c -> a_iter c <> 0%nat -> epool E <> [] -> one_fit (steps ++ [(E, g)]) ->
  compose (aco (Binary A b) c) cc (steps ++ [(E, g)]) (fresh_comp (aco (Binary A b) c) None) (mkH [] [] g0) = (Ok st, s) ->
  exists p, cint st = Some p /\ pairs_for (in_range_or_nan (a_min c) (a_max c)) (length (epool E)) p.
Proof. exact @binary_in_range_any. Qed.
Print Assumptions C29_binary_any_fitness.
Theorem C29_complete_any_fitness : forall {L} A b partial c cc steps (E : env L) g g0 st s,
  a_min c <= a_max c -> a_iter c <> 0%nat -> epool E <> [] -> one_fit (steps ++ [(E, g)]) ->
  compose (aco (Complete A b partial) c) cc (steps ++ [(E, g)]) (fresh_comp (aco (Complete A b partial) c) None) (mkH [] [] g0) = (Ok st, s) ->
  exists p, cint st = Some p /\ square_for (in_range_or_nan (a_min c) (a_max c)) (length (epool E)) p.
Proof. exact @complete_in_range_any. Qed.
Print Assumptions C29_complete_any_fitness.

(* rules of different fitness: every rule is selected with a probability strictly between 0 and 1 *)
Theorem C29_binary_selectable : forall {L} A b (pool : list (rule L)) fs p,
  pow_pos A -> measured pool fs -> varied fs -> pairs_for positive (length pool) p ->
  exists probs, length probs = length pool /\ Forall (fun w => 0 < w < 1) probs /\
    forall s, exists s', ph_build (Binary A b) L p pool s =
      (Ok (map2 (fun u w => qle u w) (fst (randoms (length pool) (hrng s))) probs), s').
Proof. exact @binary_selectable. Qed.
Print Assumptions C29_binary_selectable.
(* ... as the first rule of a route, in the complete graph *)
Theorem C29_complete_selectable_first : forall {L} A b partial (pool : list (rule L)) fs p j,
  pow_pos A -> sqrt_pos A -> measured pool fs -> varied fs -> square_for positive (length pool) p -> (j < length pool)%nat ->
  exists eta q, relative_fitness pool = Ok eta /\ com_prob A b partial p pool eta [] j = Ok (Fin q) /\ 0 < q < 1.
Proof. exact @complete_first. Qed.
Print Assumptions C29_complete_selectable_first.
(* equally fit rules: no ant selects any rule, whatever the pheromones and the draws *)
Theorem C29_binary_equally_fit_selects_nothing : forall {L} A b (pool : list (rule L)) fs p s,
  m_pow A NaN (b_beta b) = NaN -> measured pool fs -> pool <> [] -> all_same fs -> length p = length pool ->
  exists s', ph_build (Binary A b) L p pool s = (Ok (repeat false (length pool)), s').
Proof. exact @binary_nothing. Qed.
Print Assumptions C29_binary_equally_fit_selects_nothing.
Theorem C29_complete_equally_fit_selects_nothing : forall {L} A b partial (pool : list (rule L)) fs p s,
  m_pow A NaN (b_beta b) = NaN -> m_sqrt A NaN = NaN ->
  measured pool fs -> pool <> [] -> all_same fs -> square_for (fun _ => True) (length pool) p ->
  exists s', ph_build (Complete A b partial) L p pool s = (Ok (repeat false (length pool)), s').
Proof. exact @complete_nothing. Qed.
Print Assumptions C29_complete_equally_fit_selects_nothing.
(* so the last clause of the property fails *)
Theorem C29_binary_selectable_refuted : forall A b, m_pow A NaN (b_beta b) = NaN ->
  exists (pool : list (rule mean_learner)) fs, pool <> [] /\ measured pool fs /\
    forall p s, length p = length pool -> exists s', ph_build (Binary A b) mean_learner p pool s = (Ok (repeat false (length pool)), s').
Proof. exact binary_twins. Qed.
Print Assumptions C29_binary_selectable_refuted.
Theorem C29_complete_selectable_refuted : forall A b partial, m_pow A NaN (b_beta b) = NaN -> m_sqrt A NaN = NaN ->
  exists (pool : list (rule mean_learner)) fs, pool <> [] /\ measured pool fs /\
    forall p s, square_for (fun _ => True) (length pool) p ->
      exists s', ph_build (Complete A b partial) mean_learner p pool s = (Ok (repeat false (length pool)), s').
Proof. exact complete_twins. Qed.
Print Assumptions C29_complete_selectable_refuted.

(* two learning iterations with the default parameters *)
Example C29_satisfiable :
  a_min aco_cfg <= a_max aco_cfg /\ a_iter aco_cfg <> 0%nat /\ finite_fit (count_env by_count) /\
  one_fit ([(count_env by_count, scripted [1#3; 2#3; 1#4; 3#4])] ++ [(count_env by_count, scripted [1#9; 2#9; 5; 7])]) /\
  (exists st s, compose (aco (Binary plain_math (mkBp 1 1 5)) aco_cfg) (mkCcfg (RandomInit (1#2)) true true)
    ([(count_env by_count, scripted [1#3; 2#3; 1#4; 3#4])] ++ [(count_env by_count, scripted [1#9; 2#9; 5; 7])])
    (fresh_comp (aco (Binary plain_math (mkBp 1 1 5)) aco_cfg) None) (mkH [] [] (scripted [])) = (Ok st, s) /\ length (cpop st) = 3%nat) /\
  exists st s, compose (aco (Complete plain_math (mkBp 1 1 5) true) aco_cfg) (mkCcfg (RandomInit (1#2)) true true)
    ([(count_env by_count, scripted [1#3; 2#3; 1#4; 3#4])] ++ [(count_env by_count, scripted [1#9; 2#9; 5; 7])])
    (fresh_comp (aco (Complete plain_math (mkBp 1 1 5) true) aco_cfg) None) (mkH [] [] (scripted [])) = (Ok st, s) /\ length (cpop st) = 3%nat.
Proof.
  split; [discriminate|]. split; [discriminate|]. split; [intros e k j; eexists; reflexivity|].
  split; [split; [split; [exists []; reflexivity|repeat split]|split; exact I]|].
  split; match goal with |- exists st s, ?r = _ /\ _ =>
    destruct (ran_ok r (fun st _ => Nat.eqb (length (cpop st)) 3)) as (st & s & H1 & H2); [vm_compute; reflexivity|];
    exists st, s; split; [exact H1|]; apply Nat.eqb_eq; exact H2 end.
Qed.
Example C29_selectable_satisfiable :
  pow_pos plain_math /\ sqrt_pos plain_math /\ measured (epool (count_env by_count)) [1; 2; 1] /\ varied [1; 2; 1] /\
  pairs_for positive 3 (repeat (Fin 5, Fin 5) 3) /\ square_for positive 3 (repeat (repeat (Fin 5, Fin 5) 3) 3) /\
  measured twins [1; 1] /\ all_same [1; 1] /\ m_pow plain_math NaN 1 = NaN /\ m_sqrt plain_math NaN = NaN.
Proof.
  split; [intros x a H; exists x; split; [reflexivity|exact H]|]. split; [intros x H; exists x; split; [reflexivity|exact H]|].
  split; [apply ex_measured|]. split; [exists 1, 2; split; [left; reflexivity|split; [right; left; reflexivity|reflexivity]]|].
  assert (HP : positive (Fin 5)) by (exists 5; split; reflexivity).
  assert (HR : pairs_for positive 3 (repeat (Fin 5, Fin 5) 3)) by (split; [reflexivity|repeat constructor; exact HP]).
  split; [exact HR|]. split; [split; [reflexivity|repeat (constructor; [exact HR|]); constructor]|].
  split; [apply twins_measured|]. split; [apply twins_same|]. split; reflexivity.
Qed.
