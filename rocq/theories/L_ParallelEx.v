(* Parallel runs: the cases used in the examples. *)
From Verif Require Import PyNum PyList PyMon PyRng PyStat M_Matching M_Rule M_RuleGen M_Mixing M_GenomeOps M_Discovery M_Parallel S_Parallel L_Parallel L_DiscoveryEx L_RuleProps.
From Verif Require Import L_SagaProps L_SasProps L_GenomeProps.

Definition race_conf : escfg := mkEs (d_conf UniformSamples) 1 1 EsComma 1 (MutRange (MutNormal (Scalar 1)) 0 1) RFittest.
Definition race_tasks : list (rule mean_learner * rng) := [(on_data dx dyy 1 1, scripted [0; 2; 2]); (on_data dx dyy 1 1, scripted [1#2; 2; 2])].
Definition matched (r : option (res (list (rule mean_learner)))) : option (list bounds) := match r with Some (Ok l) => Some (map (fun r => bnd (cond r)) l) | _ => None end.
Lemma matched_ok r b : matched r = Some b -> exists l, r = Some (Ok l) /\ map (fun r => bnd (cond r)) l = b.
Proof. unfold matched. destruct r as [[l|e]|]; try discriminate. intros E. injection E as <-. exists l. auto. Qed.
Lemma race : exists c (D : denv mean_learner) s tasks schedule schedule' l l' r r',
  in_threads schedule s (map (es_run c D) tasks) = Some (Ok l) /\ in_threads schedule' s (map (es_run c D) tasks) = Some (Ok l') /\
  nth_error l 0 = Some r /\ nth_error l' 0 = Some r' /\ bnd (cond r) <> bnd (cond r').
Proof.
  exists race_conf, (d_env None), (Scalar 1), race_tasks, [0; 0; 1; 1]%nat, [0; 1; 0; 1]%nat.
  destruct (matched_ok (in_threads [0; 0; 1; 1]%nat (Scalar 1) (map (es_run race_conf (d_env None)) race_tasks)) [[(1, 1)]; [(4 # 2, 4 # 2)]]) as (l & H1 & H2); [vm_compute; reflexivity|].
  destruct (matched_ok (in_threads [0; 1; 0; 1]%nat (Scalar 1) (map (es_run race_conf (d_env None)) race_tasks)) [[(4 # 2, 4 # 2)]; [(4 # 2, 4 # 2)]]) as (l' & H1' & H2'); [vm_compute; reflexivity|].
  destruct l as [|r l]; [discriminate|]. destruct l' as [|r' l']; [discriminate|]. exists (r :: l), (r' :: l'), r, r'. repeat split; try assumption. injection H2 as H2 _. injection H2' as H2' _. rewrite H2, H2'. discriminate.
Qed.
(* two runs of two generations with two children, in two workers whose turns alternate *)
Definition turns : list nat := concat (repeat [0; 1]%nat 8).
Lemma race_apart : exists l, in_processes [1]%nat turns (Scalar 1) (map (es_run race_conf (d_env None)) race_tasks) = Some (Ok l) /\ map (fun r => bnd (cond r)) l = [[(1, 1)]; [(4 # 2, 4 # 2)]].
Proof. apply matched_ok. vm_compute. reflexivity. Qed.
Definition calm_conf : escfg := mkEs (d_conf UniformSamples) 2 2 EsComma 1 (Mut (MutNormal (Scalar (1 # 2)))) RFittest.
Lemma calm_threads : exists l, in_threads turns (Scalar (1 # 2)) (map (es_run calm_conf (d_env None)) race_tasks) = Some (Ok l) /\ length l = 2%nat.
Proof.
  destruct (matched_ok (in_threads turns (Scalar (1 # 2)) (map (es_run calm_conf (d_env None)) race_tasks)) ltac:(let x := eval vm_compute in (matched (in_threads turns (Scalar (1 # 2)) (map (es_run calm_conf (d_env None)) race_tasks))) in match x with Some ?b => exact b end)) as (l & H1 & H2); [vm_compute; reflexivity|].
  exists l. split; [exact H1|]. apply (f_equal (@length bounds)) in H2. rewrite map_length in H2. exact H2.
Qed.
Lemma race_optimize : exists l g', es_optimize_by (in_processes [1]%nat turns (Scalar 1)) race_conf (d_env None) 2 (fun i => nth i (map snd race_tasks) (scripted [])) (scripted [1; 2]) = Some (Ok l, g') /\ l <> [].
Proof.
  assert (H : match es_optimize_by (in_processes [1]%nat turns (Scalar 1)) race_conf (d_env None) 2 (fun i => nth i (map snd race_tasks) (scripted [])) (scripted [1; 2]) with Some (Ok (_ :: _), _) => true | _ => false end = true) by (vm_compute; reflexivity).
  destruct (es_optimize_by _ _ _ _ _ _) as [[[l|e] g']|]; try discriminate H. exists l, g'. split; [reflexivity|]. intros ->. discriminate H.
Qed.
