(* C89: A composition step sees of earlier solutions only those it holds *)
From Verif Require Import PyNum PyList PyMon PyRng PyStat M_Matching M_Rule M_Mixing M_GenomeOps M_Solution M_Composition M_GA M_Saga M_Sas M_Abc M_Swarm M_Aco S_Cold L_Cold L_ColdRuns L_RuleProps L_Shipped L_PictureEx.

(* with warm start and archive too, for all optimizers *)
Theorem C89_step : (forall c, sees_picture (ga c)) /\ (forall k size, sees_picture (rs k size)) /\ (forall c, sees_picture (saga1 c)) /\ (forall t c, sees_picture (saga2 t c)) /\ (forall c, sees_picture (saga3 c)) /\ (forall c, sees_picture (sas c)) /\
  (forall M c, sees_picture (bees M c)) /\ (forall M c, sees_picture (swarm M c)) /\ (forall M c, sees_picture (wolves M c)) /\ (forall A b c, sees_picture (aco (Binary A b) c)) /\ forall A b part c, sees_picture (aco (Complete A b part) c).
Proof. exact cold_picture. Qed.
Print Assumptions C89_step.
(* another solution was created first, and the two of the population in reverse order; warm start *)
Example C89_satisfiable : same_picture pic_heap pic_other (cpop (pic_comp [0; 1]%nat) ++ carch (pic_comp [0; 1]%nat)) (cpop (pic_comp [2; 1]%nat) ++ carch (pic_comp [2; 1]%nat)) /\ cwarm pic_cc = true /\ length (sols pic_heap) <> length (sols pic_other) /\
  end_genomes _ (optimize (ga pic_ga) pic_cc pic_env a_tape (pic_comp [0; 1]%nat) pic_heap) = Some [Some [true; false; true]; Some [true; false; true]] /\
  end_genomes _ (optimize (ga pic_ga) pic_cc pic_env a_tape (pic_comp [2; 1]%nat) pic_other) = Some [Some [true; false; true]; Some [true; false; true]].
Proof. split; [exact pictured|]. split; [reflexivity|]. split; [vm_compute; discriminate|]. split; vm_compute; reflexivity. Qed.
(* and over any number of steps, with whatever happens to the learner's pool in between *)
Theorem C89_histories : (forall c, sees_picture_always (ga c)) /\ (forall k size, sees_picture_always (rs k size)) /\ (forall c, sees_picture_always (saga1 c)) /\ (forall t c, sees_picture_always (saga2 t c)) /\ (forall c, sees_picture_always (saga3 c)) /\ (forall c, sees_picture_always (sas c)) /\
  (forall M c, sees_picture_always (bees M c)) /\ (forall M c, sees_picture_always (swarm M c)) /\ (forall M c, sees_picture_always (wolves M c)) /\ (forall A b c, sees_picture_always (aco (Binary A b) c)) /\ forall A b part c, sees_picture_always (aco (Complete A b part) c).
Proof. exact cold_pictures. Qed.
Print Assumptions C89_histories.
Example C89_histories_satisfiable : same_picture pic_heap pic_other (cpop (pic_comp [0; 1]%nat) ++ carch (pic_comp [0; 1]%nat)) (cpop (pic_comp [2; 1]%nat) ++ carch (pic_comp [2; 1]%nat)) /\ cint (pic_comp [0; 1]%nat) = cint (pic_comp [2; 1]%nat) /\ hrng pic_heap = hrng pic_other /\
  exists l, end_genomes _ (compose (ga pic_ga) pic_cc [(pic_env, a_tape); (pic_env, pic_tape)] (pic_comp [0; 1]%nat) pic_heap) = Some l /\ length l = 2%nat /\ end_genomes _ (compose (ga pic_ga) pic_cc [(pic_env, a_tape); (pic_env, pic_tape)] (pic_comp [2; 1]%nat) pic_other) = Some l.
Proof. split; [exact pictured|]. split; [reflexivity|]. split; [vm_compute; reflexivity|]. eexists. split; [vm_compute; reflexivity|]. split; vm_compute; reflexivity. Qed.
(* equal contents are not enough: a population that holds one object twice is not one that holds two equal objects *)
Theorem C89_identity_matters : exists c cc L (E : env L) q st st' (s : hst plain), map (view s) (cpop st ++ carch st) = map (view s) (cpop st' ++ carch st') /\ Forall (fun r => view s r <> None) (cpop st) /\
  exists l l', end_genomes (ga c) (optimize (ga c) cc E q st s) = Some l /\ end_genomes (ga c) (optimize (ga c) cc E q st' s) = Some l' /\ l <> l'.
Proof.
  exists still_ga, pic_cc, mean_learner, pic_env, pic_tape, (still_comp [0; 1]%nat), (still_comp [0; 0]%nat), twins. split; [vm_compute; reflexivity|]. split; [vm_compute; repeat constructor; discriminate|].
  eexists. eexists. split; [vm_compute; reflexivity|]. split; [vm_compute; reflexivity|discriminate].
Qed.
Print Assumptions C89_identity_matters.
