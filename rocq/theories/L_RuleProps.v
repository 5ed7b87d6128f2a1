From Verif Require Import PyNum PyList PyMon L_Num L_List M_Matching S_Matching L_Matching M_Rule S_Rule L_Rule.

(* a concrete local model for examples: predicts the mean of its training targets *)
Definition mean_learner : learner :=
  mkLearner Q (fun _ y => qsum y / qofnat (length y)) (fun m _ => m) (fun _ e => Fin (1 - e)).

Lemma refit_stale : exists (L : learner) m X y1 y2 r1 r2,
  data_ok m X y1 /\ data_ok m X y2 /\
  rule_fit L (fresh_rule L m) X y1 = (Ok tt, r1) /\ rule_fit L r1 X y2 = (Ok tt, r2) /\
  ~ truthful L m X y2 r2.
Proof.
  exists mean_learner, (mkMatching OrderedBound [(0, 1)]), [[0]; [1]], [0; 0], [5; 5].
  eexists; eexists. split; [split; repeat constructor|]. split; [split; repeat constructor|].
  split; [vm_compute; reflexivity|]. split; [vm_compute; reflexivity|].
  intros [_ (a & Ha & _ & _ & H)]. inversion Ha; subst a. simpl in H.
  destruct H as (_ & H & _); [discriminate|]. discriminate H.
Qed.
