(* Concrete swarms and packs for C72. *)
From Coq Require Import Lia.
From Verif Require Import PyNum PyList PyMon PyRng PyStat L_Num M_Matching M_Rule L_RuleProps M_Mixing M_Solution S_Solution M_Composition M_GenomeOps L_GenomeProps
  L_SasProps L_SagaProps M_Aco S_Aco L_AcoProps M_Abc M_Swarm S_Swarm L_SwarmProps L_Quantum S_Moves L_Moves.
From Coq Require Import Lqa.

Definition flat : smath := mkSmath (fun _ => Fin (1 # 2)) (fun x => match x with PInf => PInf | _ => Fin 1 end).
Definition swarm_tape : rng := mkRng (fun i => qofnat i * (3 # 7) + (1 # 9)) 0.
Definition swarm_heap : hst plain := run_ops (K := plain) (L := mean_learner)
  [HNew [true; false; false]; HNew [false; true; true]; HFit 0 (count_env by_count); HFit 1 (count_env by_count); HClone 0; HClone 1] (mkH [] [] swarm_tape).
Definition two_particles : list particle :=
  [mkPart 0 2 [Fin (1 # 2); Fin (1 # 4); Fin 0] [Fin (1 # 2); Fin (1 # 4); Fin 0] [Fin 0; Fin (1 # 2); Fin (-(1))];
   mkPart 1 3 [Fin (1 # 3); Fin 1; Fin (3 # 4)] [Fin (1 # 2); Fin 1; Fin (3 # 4)] [Fin (1 # 4); Fin 0; Fin 1]].
Lemma swarm_heap_built : built swarm_heap. Proof. eexists _, _, _; reflexivity. Qed.
Lemma swarm_heap_rated r : (r < 2)%nat -> rated swarm_heap r.
Proof.
  intros H. destruct r as [|[|r]]; [| |lia]; (eexists; split; [eexists _, _; split; [eexists; split; [vm_compute; reflexivity|split; vm_compute; reflexivity]|reflexivity]|reflexivity]).
Qed.
Lemma unit_range (l : list Q) : forallb (fun q => qle 0 q && qle q 1) l = true -> Forall (in_range 0 1) (map Fin l).
Proof.
  intros H. rewrite forallb_forall in H. apply Forall_forall. intros x Hx. apply in_map_iff in Hx as (q & <- & Hq). specialize (H q Hq). apply andb_prop in H as [H1 H2].
  apply qle_iff in H1, H2. exists q. auto.
Qed.
Lemma sym_range (l : list Q) : forallb (fun q => qle (-(1)) q && qle q 1) l = true -> Forall (in_range (-(1)) 1) (map Fin l).
Proof.
  intros H. rewrite forallb_forall in H. apply Forall_forall. intros x Hx. apply in_map_iff in Hx as (q & <- & Hq). specialize (H q Hq). apply andb_prop in H as [H1 H2].
  apply qle_iff in H1, H2. exists q. auto.
Qed.
Lemma two_classical : Forall (fun p => fits_pool 3 (MSigmoid (1 # 2) (1 # 2) 1) p /\ tame (MSigmoid (1 # 2) (1 # 2) 1) p /\ rated swarm_heap (p_sol p)) two_particles.
Proof.
  constructor; [|constructor; [|constructor]]; (split; [repeat split|]; split; [|apply swarm_heap_rated; cbn; lia]).
  - split; [|split]; [apply (unit_range [1 # 2; 1 # 4; 0])|apply (unit_range [1 # 2; 1 # 4; 0])|apply (sym_range [0; 1 # 2; -(1)])]; reflexivity.
  - split; [|split]; [apply (unit_range [1 # 3; 1; 3 # 4])|apply (unit_range [1 # 2; 1; 3 # 4])|apply (sym_range [1 # 4; 0; 1])]; reflexivity.
Qed.
Lemma two_quantum : Forall (fun p => length (p_pos p) = 3%nat /\ Forall (in_range 0 1) (p_pos p) /\ rated swarm_heap (p_sol p)) two_particles.
Proof. pose proof two_classical as H. revert H. apply Forall_impl. intros p ((H1 & _) & (H2 & _) & H3). auto. Qed.
Lemma flat_log : log_finite flat. Proof. intros q _. exists 1. reflexivity. Qed.
(* a run in which the fittest particles get worse *)
Definition low : smath := mkSmath (fun _ => Fin (-(1))) (fun _ => Fin 1).
Definition start_heap : hst plain := run_ops (K := plain) (L := mean_learner) [HNew [true; false; false]; HNew [false; true; true]] (mkH [] [] swarm_tape).
Definition fit_of (s : hst plain) (r : nat) : option num := match L_Heap.vw s r with Some (_, Some a, _) => Some (sfitness a) | _ => None end.
Lemma fit_of_spec s r f : has_fit s r f -> fit_of s r = Some f.
Proof. intros (b & a & HS & ->). unfold fit_of. apply L_Heap.shows_vw in HS as (x & HV). rewrite HV. reflexivity. Qed.
Lemma fit_of_inv s r f : fit_of s r = Some f -> has_fit s r f.
Proof.
  unfold fit_of. destruct (L_Heap.vw s r) as [[[b [a|]] x]|] eqn:E; try discriminate. intros H. injection H as <-. exists b, a. split; auto. apply L_Heap.shows_vw. eauto.
Qed.
(* every particle is less fit than what the first one found before *)
Definition lost (s : hst plain) (ps : list particle) : bool :=
  match ps with
  | q :: _ => match fit_of s (p_best q) with
              | Some fq => forallb (fun p => match fit_of s (p_sol p) with Some f => nlt f fq | None => false end) ps
              | None => false end
  | [] => false
  end.
Lemma lost_spec s ps : lost s ps = true -> exists q fq, In q ps /\ has_fit s (p_best q) fq /\ forall p f, In p ps -> has_fit s (p_sol p) f -> nlt f fq = true.
Proof.
  unfold lost. destruct ps as [|q ps']; [discriminate|]. destruct (fit_of s (p_best q)) as [fq|] eqn:E; [|discriminate]. intros H. rewrite forallb_forall in H.
  exists q, fq. split; [left; auto|]. split; [apply fit_of_inv; auto|]. intros p f Hp Hf. specialize (H p Hp). rewrite (fit_of_spec _ _ _ Hf) in H. exact H.
Qed.
Definition two_steps : pcfg := mkP 2 2 1 2 (MSigmoid 1 1 1).
Lemma found_and_lost : exists s0 ps s1 ps' a' s2, fit_all (count_env by_count) [0; 1]%nat start_heap = (Ok [0; 1]%nat, s0) /\
  mmap (init_particle (ps_move two_steps)) [0; 1]%nat s0 = (Ok ps, s1) /\
  iterate 1 (swarm_step low two_steps (count_env by_count) [0; 1]%nat) (ps, ps_amax two_steps) s1 = (Ok (ps', a'), s2) /\
  (exists q fq, In q ps' /\ has_fit s2 (p_best q) fq /\ forall p f, In p ps' -> has_fit s2 (p_sol p) f -> nlt f fq = true) /\ ~ a' == ps_amin two_steps.
Proof.
  assert (HR : exists z s', (let* pop := fit_all (count_env by_count) [0; 1]%nat in let* ps := mmap (init_particle (ps_move two_steps)) [0; 1]%nat in
      let* q := iterate 1 (swarm_step low two_steps (count_env by_count) [0; 1]%nat) (ps, ps_amax two_steps) in ret (pop, q)) start_heap = (Ok z, s') /\
      match z with ([0; 1]%nat, (ps', a')) => lost s' ps' && negb (qeq a' (ps_amin two_steps)) | _ => false end = true).
  { match goal with |- exists z s', ?r = _ /\ _ => destruct (ran_ok r (fun z s' => match z with ([0; 1]%nat, (ps', a')) => lost s' ps' && negb (qeq a' (ps_amin two_steps)) | _ => false end)) as (z & s' & H1 & H2);
      [vm_compute; reflexivity|exists z, s'; split; [exact H1|exact H2]] end. }
  destruct HR as (z & s2 & H & HC). apply bind_inv in H as (pop & s0 & H1 & H). apply bind_inv in H as (ps & s1 & H2 & H).
  apply bind_inv in H as ([ps' a'] & s3 & H3 & H). injection H as <- <-. exists s0, ps, s1, ps', a', s3.
  destruct pop as [|[|?] [|[|[|?]] [|? ?]]]; try discriminate HC. split; [exact H1|]. split; [exact H2|]. split; [exact H3|]. apply andb_prop in HC as [HC1 HC2]. split; [apply lost_spec; exact HC1|].
  intros E. apply Bool.negb_true_iff in HC2. apply qeq_false in HC2. apply HC2. exact E.
Qed.
(* the random number zero *)
Definition zeros : rng := mkRng (fun _ => 0) 0.
Definition lone_heap : hst plain := run_ops (K := plain) (L := mean_learner) [HNew [true; false; false]; HFit 0 (count_env by_count)] (mkH [] [] zeros).
Lemma nan_position : exists ps' s', move flat MSigmoidQuantum (Fin 1) [mkPart 0 0 [Fin (1 # 2); Fin 0; Fin 1] [Fin (1 # 2); Fin 0; Fin 1] []] lone_heap = (Ok ps', s') /\
  exists p', nth_error ps' 0 = Some p' /\ nth_error (p_pos p') 0 = Some NaN.
Proof.
  match goal with |- exists ps' s', ?r = _ /\ _ => destruct (ran_ok r (fun ps' _ => match ps' with p' :: _ => match p_pos p' with NaN :: _ => true | _ => false end | [] => false end)) as (ps' & s' & H1 & H2);
    [vm_compute; reflexivity|] end.
  exists ps', s'. split; [exact H1|]. destruct ps' as [|p' ps']; [discriminate|]. exists p'. split; [reflexivity|]. destruct (p_pos p') as [|[| | |] ?]; try discriminate H2. reflexivity.
Qed.
Lemma wolves_rated : Forall (fun r => rated swarm_heap r /\ exists b x, shows swarm_heap r b x /\ length b = 3%nat) [0; 1]%nat.
Proof.
  constructor; [|constructor; [|constructor]]; (split; [apply swarm_heap_rated; cbn; lia|]);
    (eexists _, _; split; [eexists; split; [vm_compute; reflexivity|split; vm_compute; reflexivity]|reflexivity]).
Qed.
Lemma wolves_ran pos : exists pop' a' s', wolf_step flat (mkW 4 2 1 pos) (count_env by_count) ([0; 1]%nat, 2) swarm_heap = (Ok (pop', a'), s') /\ pop' = [4; 5]%nat.
Proof.
  match goal with |- exists pop' a' s', ?r = _ /\ _ => destruct (ran_ok r (fun z _ => match fst z with [4; 5]%nat => true | _ => false end)) as ([pop' a'] & s' & H1 & H2); [destruct pos; vm_compute; reflexivity|] end.
  exists pop', a', s'. split; [exact H1|]. cbn [fst] in H2. destruct pop' as [|[|[|[|[|[|?]]]]] [|[|[|[|[|[|[|?]]]]]] [|? ?]]]; try discriminate H2. reflexivity.
Qed.
Lemma start_heap_built : built start_heap. Proof. eexists _, _, _; reflexivity. Qed.
Lemma lone_rated : rated lone_heap 0.
Proof. eexists; split; [eexists _, _; split; [eexists; split; [vm_compute; reflexivity|split; vm_compute; reflexivity]|reflexivity]|reflexivity]. Qed.
Lemma lone_range : Forall (in_range 0 1) [Fin (1 # 2); Fin 0; Fin 1]. Proof. apply (unit_range [1 # 2; 0; 1]). reflexivity. Qed.
