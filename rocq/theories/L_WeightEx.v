(* Concrete cases for the theorems about the weight of the experience. *)
From Verif Require Import PyNum PyList PyMon PyRng L_Num M_Matching M_Rule M_RuleGen M_Mixing M_Discovery S_Repeat S_Weight L_Weight L_RuleProps L_GenomeProps L_RepeatEx.
From Coq Require Import Lqa.

(* what both rules together say at one place *)
Definition weighted (w x : Q) : res (list Q) :=
  let? p := fst (sol_predict mean_learner (mkMixing KeepAll (CapExperience None (Some 2)) w) [true; true] (boxes mean_learner three_x three_y) [[x]] false (scripted [])) in Ok (map Qred p).
Lemma boxes_measured L X y : Forall measured (boxes L X y).
Proof.
  unfold boxes. cbn [rmap rbind]. destruct (fitted left_box X y) as [a|e] eqn:E1; cbn [rbind]; [|constructor]. destruct (fitted wide_box X y) as [b|e] eqn:E2; cbn [rbind]; [|constructor].
  constructor; [eapply fitted_measured; exact E1|]. constructor; [eapply fitted_measured; exact E2|constructor].
Qed.
Lemma weighted_values : weighted 1 (1#2) = Ok [4] /\ weighted 5 (1#2) = Ok [4] /\ weighted (-3) (1#2) = Ok [4] /\ weighted 0 (1#2) = Ok [0].
Proof. vm_compute. auto. Qed.
Definition error_f (e : Q) (c n : nat) : num := Fin (1 - e).
Lemma error_f_value : by_value error_f.
Proof. intros e e' c n H. cbn. lra. Qed.
Lemma weighted_four w : ~ w == 0 -> exists p, fst (sol_predict mean_learner (mkMixing KeepAll (CapExperience None (Some 2)) w) [true; true] (boxes mean_learner three_x three_y) [[1#2]] false (scripted [])) = Ok [p] /\ p == 4.
Proof.
  intros Hw. pose proof (predict_weight mean_learner (mkMixing KeepAll (CapExperience None (Some 2)) 1) (mkMixing KeepAll (CapExperience None (Some 2)) w) [true; true] (boxes mean_learner three_x three_y) [[1#2]] false) as H.
  specialize (H ltac:(constructor; cbn; try reflexivity; [discriminate|split; [discriminate|exact Hw]]) (boxes_measured _ _ _) (scripted [])). revert H. pose proof (proj1 weighted_values) as E. unfold weighted in E. revert E.
  destruct (sol_predict mean_learner (mkMixing KeepAll (CapExperience None (Some 2)) 1) _ _ _ _ _) as [[p|e] g]; cbn [fst rbind]; [|discriminate]. intros E. destruct (sol_predict mean_learner (mkMixing KeepAll (CapExperience None (Some 2)) w) _ _ _ _ _) as [[p'|e] g']; [|contradiction].
  intros [_ H]. destruct p as [|a [|b p]]; try discriminate. injection E as E. inversion H as [|a0 q l l' H1 H2]; subst. inversion H2; subst. exists q. split; [reflexivity|]. rewrite <- H1, <- (Qred_correct a), E. reflexivity.
Qed.
