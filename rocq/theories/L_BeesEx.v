(* Examples for the moves of the bees (C74). *)
From Coq Require Import Lia.
From Verif Require Import PyNum PyList PyMon PyRng PyStat L_Num L_List M_Matching M_Rule L_RuleProps M_Mixing M_Solution S_Solution L_HeapProps
  M_Composition S_Composition M_GenomeOps S_GenomeOps L_GenomeProps L_SagaProps M_Abc S_Abc L_AbcProps S_Moves L_Moves S_Bees L_Bees.

Definition plain_math : smath := mkSmath (fun x => x) (fun x => x).
Definition two_bees : bcfg := mkBee 2 2 5 FBitwise.
(* fitness falls with the number of rules and is zero when all are selected *)
Definition by_left_out : Q -> nat -> nat -> num := fun _ c l => Fin (qofnat l - qofnat c).
Definition hive (f : Q -> nat -> nat -> num) (a b : list bool) (g : rng) : hst plain :=
  run_ops (K := plain) (L := mean_learner) [HNew a; HNew b; HFit 0 (count_env f); HFit 1 (count_env f)] (mkH [] [] g).
Definition two_sources : list source := [mkSrc 0 0; mkSrc 1 0].
Lemma hive_wf f a b g : wf (hive f a b g). Proof. apply built_wf. eexists _, _, _. reflexivity. Qed.

Lemma all_selected : let E := count_env by_left_out in let s := hive by_left_out [true; true; true] [true; true; true] (scripted []) in
  Forall (honest E s) (map src two_sources) /\ fst (bee_step plain_math two_bees E (RandomInit (1 # 2)) two_sources s) = Raise ValueError.
Proof.
  cbv zeta. split.
  - repeat constructor; (eexists _, _, (scripted []), _; split; [eexists; vm_compute; split; [reflexivity|split; reflexivity]|split; [reflexivity|vm_compute; reflexivity]]).
  - vm_compute. reflexivity.
Qed.
Lemma minus_hive : let E := count_env by_minus_count in let s := hive by_minus_count [true; true; true] [true; false; false] (scripted []) in
  Forall (honest E s) (map src two_sources) /\ (exists fs' s', bee_step plain_math two_bees E (RandomInit (1 # 2)) two_sources s = (Ok fs', s')) /\
  has_fit s 0%nat (Fin (-(4))) /\ has_fit s 1%nat (Fin (-(2))).
Proof.
  cbv zeta. split; [|split; [|split]].
  - repeat constructor; (eexists _, _, (scripted []), _; split; [eexists; vm_compute; split; [reflexivity|split; reflexivity]|split; [reflexivity|vm_compute; reflexivity]]).
  - match goal with |- exists fs' s', ?r = _ => destruct (ran_ok r (fun _ _ => true)) as (fs' & s' & H1 & _); [vm_compute; reflexivity|exists fs', s'; exact H1] end.
  - do 2 eexists. split; [eexists; split; [vm_compute; reflexivity|split; vm_compute; reflexivity]|vm_compute; reflexivity].
  - do 2 eexists. split; [eexists; split; [vm_compute; reflexivity|split; vm_compute; reflexivity]|vm_compute; reflexivity].
Qed.
