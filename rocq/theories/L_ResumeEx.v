(* Two estimators in the middle of a fit. *)
From Verif Require Import PyNum PyList PyMon PyRng M_Matching M_Rule M_Mixing M_GenomeOps M_Solution M_Composition M_GA M_Fit M_Shipped S_More S_Solution S_Resume L_RuleProps L_HeapProps L_GenomeProps L_Shipped L_ColdEx.

Definition mid_tape : rng := mkRng (fun i => match i with O => 9#10 | _ => 1#10 end) 0.
Definition mid_ga : gcfg := mkG 0 2 0 SelRandom Uniform 1 (1#10).
Definition mid_batches : list (list (rule mean_learner)) := [firstn 1 (M_Solution.epool ex_env)].
(* the composition with or without warm start, and two populations with the same elitist *)
Definition mid_comp (warm : bool) : composition mean_learner := shipped_composition mean_learner (fun _ => mid_tape) (ga mid_ga) tt (mkCcfg (RandomInit (1#2)) warm false) (M_Solution.emix ex_env) (fun _ => by_count1).
Definition mid_state (warm : bool) (bits : list bool) : cst (mid_comp warm) :=
  (mkComp (O := ga mid_ga) [0%nat; 1%nat] [] tt, run_ops [HNew [true; false; false]; HNew bits; HFit 0 (count_env by_count1); HFit 1 (count_env by_count1)] (mkH [] [] a_tape)).
Definition mid_est (warm : bool) (bits : list bool) : est (batches mid_batches) (mid_comp warm) (recorder mean_learner) :=
  let sd k := mkSeed (mkStream 7 [k]) 0 in
  mkEst (D := batches mid_batches) (C := mid_comp warm) (G := recorder mean_learner) 0 0 (Fin 0) false false (Some Placeholder) (M_Solution.epool ex_env) [sd 0; sd 2]%nat [sd 1; sd 3]%nat (Some mid_batches) (Some (mid_state warm bits)) (Some []) 3.
Definition mid_rest (warm : bool) (bits : list bool) : res unit * est (batches mid_batches) (mid_comp warm) (recorder mean_learner) := rest (cold_par 0) false (eX ex_env) (ey ex_env) [1%nat] (mid_est warm bits).
Lemma mid_differ : mid_state false [false; false; false] <> mid_state false [false; true; false].
Proof. intros H. apply (f_equal (fun z : cst (mid_comp false) => garr (snd z))) in H. vm_compute in H. discriminate. Qed.
