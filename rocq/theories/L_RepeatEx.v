(* Concrete cases for the theorems about repeated samples. *)
From Verif Require Import PyNum PyList PyMon PyRng L_Num M_Matching M_Rule M_RuleGen M_Mixing M_Discovery S_Units S_Repeat L_Repeat L_RuleProps L_GenomeProps.
From Coq Require Import Lia Lqa.

Lemma mean_weightless k : (0 < k)%nat -> weightless k mean_learner.
Proof.
  intros Hk. constructor; cbn [mpred train mean_learner rfitness].
  - intros X y _ _. rewrite rep_len, rep_qsum, qofnat_mul. apply div_both. exact Hk.
  - intros _ e e' H. cbn. lra.
Qed.
(* a mean drawn towards zero, as a regularised linear model without features *)
Definition shrunk_learner : learner := mkLearner Q (fun _ y => qsum y / (qofnat (length y) + 1)) (fun m _ => m) (fun _ e => Fin (1 - e)).

Definition three_x : matrix := [[0]; [2]; [3]].
Definition three_y : targets := [0; 6; 6].
Definition left_box : matching := mkMatching OrderedBound [(0, 1)].
Definition wide_box : matching := mkMatching OrderedBound [(1#4, 3)].
Definition boxes (L : learner) (X : matrix) (y : targets) : list (rule L) :=
  match rmap (fun m => fitted m X y) [left_box; wide_box] with Ok rs => rs | Raise _ => [] end.
(* prediction of both rules at one place *)
Definition told (L : learner) (c : expcalc) (X : matrix) (y : targets) (x : Q) : res (list Q) :=
  let? p := fst (sol_predict L (mkMixing KeepAll c 1) [true; true] (boxes L X y) [[x]] false (scripted [])) in Ok (map Qred p).
Lemma boxes_repeated k : (0 < k)%nat -> Forall2 (repeated_rule k mean_learner) (boxes mean_learner three_x three_y) (boxes mean_learner (repeated k three_x) (repeated k three_y)).
Proof.
  intros Hk. unfold boxes. pose proof (L_Units.alike_rmap eq (repeated_rule k mean_learner) (fun m => fitted m three_x three_y) (fun m => fitted m (repeated k three_x) (repeated k three_y)) [left_box; wide_box] [left_box; wide_box]) as H.
  destruct (rmap (fun m => fitted m three_x three_y) [left_box; wide_box]), (rmap (fun m => fitted m (repeated k three_x) (repeated k three_y)) [left_box; wide_box]); cbn [alike_res] in H.
  - apply H; [intros m m' <-; apply fitted_repeated; [exact Hk|apply mean_weightless; exact Hk]|repeat constructor].
  - exfalso. apply H; [intros m m' <-; apply fitted_repeated; [exact Hk|apply mean_weightless; exact Hk]|repeat constructor].
  - exfalso. apply H; [intros m m' <-; apply fitted_repeated; [exact Hk|apply mean_weightless; exact Hk]|repeat constructor].
  - constructor.
Qed.
Lemma capped_matters : told mean_learner (CapExperience None (Some 2)) three_x three_y (1#2) = Ok [4] /\ told mean_learner (CapExperience None (Some 2)) (repeated 2 three_x) (repeated 2 three_y) (1#2) = Ok [3] /\
  told mean_learner ExpAsIs three_x three_y (1#2) = Ok [4] /\ told mean_learner ExpAsIs (repeated 2 three_x) (repeated 2 three_y) (1#2) = Ok [4].
Proof. vm_compute. auto. Qed.
Lemma shrunk_matters : told shrunk_learner ExpAsIs three_x three_y 2 = Ok [4] /\ told shrunk_learner ExpAsIs (repeated 2 three_x) (repeated 2 three_y) 2 = Ok [24#5].
Proof. vm_compute. auto. Qed.
