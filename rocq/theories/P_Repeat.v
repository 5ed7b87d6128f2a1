(* C84: Giving every training sample several times *)
From Verif Require Import PyNum PyList PyMon PyRng L_Num M_Matching M_Rule M_RuleGen M_Mixing M_Discovery M_Logging S_Units S_Order S_Repeat L_Units L_Repeat L_RuleProps L_GenomeProps L_RepeatEx.

(* a condition fitted on data with k copies of every sample gives the same rule: same predictions, error and fitness, k times the experience *)
Theorem C84_rule : forall k L m X y, (0 < k)%nat -> weightless k L -> alike_res (repeated_rule k L) (fitted m X y) (fitted m (repeated k X) (repeated k y)).
Proof. intros k L m X y Hk HL. exact (fitted_repeated k L Hk HL m X y). Qed.
Print Assumptions C84_rule.
(* it is accepted into the pool in the same cases *)
Theorem C84_accept : forall k L ac r r' y, (0 < k)%nat -> repeated_rule k L r r' -> accept ac r' (repeated k y) = accept ac r y.
Proof. intros k L ac r r' y Hk HR. exact (accept_repeated k L Hk ac r r' y HR). Qed.
Print Assumptions C84_accept.
(* the bounds read off the data are the same *)
Theorem C84_bounds : forall k X, (0 < k)%nat -> estimate_bounds (repeated k X) = estimate_bounds X.
Proof. intros k X Hk. exact (bounds_repeated k X Hk). Qed.
Print Assumptions C84_bounds.
(* a genome over such rules predicts the same for any data, and for each copy of a sample what it predicted for the sample *)
Theorem C84_predict : forall k L mx bits pool pool' Z, (0 < k)%nat -> plain_mixing mx -> Forall2 (repeated_rule k L) pool pool' ->
  alike (Forall2 Qeq) (sol_predict L mx bits pool Z false) (sol_predict L mx bits pool' Z false) /\
  forall cache, alike (fun p p' => Forall2 Qeq (repeated k p) p') (sol_predict L mx bits pool Z cache) (sol_predict L mx bits pool' (repeated k Z) cache).
Proof.
  intros k L mx bits pool pool' Z Hk HM HP. split; [|intros cache; exact (predict_repeated k L Hk mx bits pool pool' Z cache k HM Hk (fun _ => eq_refl) HP)].
  exact (predict_once k L Hk mx bits pool pool' Z HM HP).
Qed.
Print Assumptions C84_predict.
(* it has the same error, complexity and fitness *)
Theorem C84_measure : forall k L mx f bits pool pool' X y, (0 < k)%nat -> plain_mixing mx -> (forall e e' c n, e == e' -> same_num (f e c n) (f e' c n)) ->
  Forall2 (repeated_rule k L) pool pool' -> alike same_measures (sol_fit L mx f bits pool X y) (sol_fit L mx f bits pool' (repeated k X) (repeated k y)).
Proof. intros k L mx f bits pool pool' X y Hk HM Hf HP. exact (measure_repeated k L Hk mx f bits pool pool' X y HM Hf HP). Qed.
Print Assumptions C84_measure.
(* and the same coefficient of determination *)
Theorem C84_score : forall k y p p', (0 < k)%nat -> (2 <= length y)%nat -> Forall2 Qeq (repeated k p) p' -> alike_res same_num (r2_score y p) (r2_score (repeated k y) p').
Proof. intros k y p p' Hk Hy HP. exact (r2_repeated k y p p' Hk Hy HP). Qed.
Print Assumptions C84_score.
(* as the place of a new rule each copy of a sample is k times less likely than the sample was, so the sample as likely as before *)
Theorem C84_origins : forall k L D D' use, (0 < k)%nat -> plain_mixing (dmix D) -> repeated_problem k L D D' ->
  alike_res (fun rs rs' => matching_weights rs' = let? ws := matching_weights rs in Ok (repeated k ws)) (subgroup D use) (subgroup D' use) /\
  alike (fun ws ws' => Forall2 Qeq (repeated k ws) ws') (squared_weights D use) (squared_weights D' use) /\
  forall ws ws', Forall2 Qeq (repeated k ws) ws' -> paired (fun p p' => Forall2 (fun a b => b == a / qofnat k) (repeated k p) p') (probabilities ws) (probabilities ws').
Proof.
  intros k L D D' use Hk HM HD. split; [|split; [exact (squared_repeated k L Hk D D' use HM HD)|intros ws ws' H; exact (shares_repeated k Hk ws ws' H)]].
  pose proof (group_repeated k L D D' use HD) as H. destruct (subgroup D use), (subgroup D' use); cbn [alike_res] in *; auto. exact (weights_repeated k L Hk _ _ H).
Qed.
Print Assumptions C84_origins.
(* not so when the experience is limited from above *)
Theorem C84_capped_matters : exists X y x, told mean_learner (CapExperience None (Some 2)) (repeated 2 X) (repeated 2 y) x <> told mean_learner (CapExperience None (Some 2)) X y x.
Proof. exists three_x, three_y, (1#2). destruct capped_matters as (-> & -> & _). discriminate. Qed.
Print Assumptions C84_capped_matters.
(* nor with a regularised local model *)
Theorem C84_shrinkage_matters : exists X y x, told shrunk_learner ExpAsIs (repeated 2 X) (repeated 2 y) x <> told shrunk_learner ExpAsIs X y x.
Proof. exists three_x, three_y, 2. destruct shrunk_matters as [-> ->]. discriminate. Qed.
Print Assumptions C84_shrinkage_matters.

Example C84_satisfiable : weightless 3 mean_learner /\ plain_mixing (mkMixing KeepAll ExpAsIs 1) /\
  Forall2 (repeated_rule 3 mean_learner) (boxes mean_learner three_x three_y) (boxes mean_learner (repeated 3 three_x) (repeated 3 three_y)) /\ length (boxes mean_learner three_x three_y) = 2%nat /\
  told mean_learner ExpAsIs (repeated 3 three_x) (repeated 3 three_y) (1#2) = Ok [4] /\ told mean_learner ExpAsIs three_x three_y (1#2) = Ok [4].
Proof.
  split; [apply mean_weightless; repeat constructor|]. split; [repeat split; cbn; try exact I; discriminate|]. split; [apply boxes_repeated; repeat constructor|]. vm_compute. auto.
Qed.
