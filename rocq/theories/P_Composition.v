(* C21: genomes fit the pool; C22: the elitist; C49: optimizers that never grow back *)
From Coq Require Import Arith Lia.
From Verif Require Import PyNum PyList PyMon PyRng PyStat M_Matching M_Rule L_RuleProps M_Mixing M_Solution S_Solution
  L_HeapProps M_Composition S_Composition M_GenomeOps S_GenomeOps L_GenomeProps M_GA M_Saga M_Sas M_Aco M_Abc M_Swarm S_Optimizers L_SagaProps L_SasProps L_AcoProps L_Shipped.
Open Scope Q_scope.

(* with every shipped optimizer, after any history of growing pools, all genomes are as long as the pool, their rules can
   be looked up and the measured values belong to them; no run ends in the length assertion *)
Theorem C21_genomes_fit_pool : forall {K L} (O : optimizer K) i c (steps : list (env L * rng)) E g g0,
  shipped O i -> one_fit (steps ++ [(E, g)]) ->
  match compose O c (steps ++ [(E, g)]) (fresh_comp O i) (mkH [] [] g0) with
  | (Ok st, s) => Forall (fits_the_pool E s) (cpop st ++ carch st) /\ Forall (honest E s) (cpop st ++ carch st)
  | (Raise e, _) => e <> AssertionError /\ e <> Dangling
  end.
Proof. exact @shipped_fits. Qed.
Print Assumptions C21_genomes_fit_pool.

(* the elitist is a best member of population and archive *)
Theorem C22_elitist_is_best : forall {K L} (O : optimizer K) i c (steps : list (env L * rng)) E g g0 st s,
  shipped O i -> one_fit (steps ++ [(E, g)]) -> never_nan E ->
  compose O c (steps ++ [(E, g)]) (fresh_comp O i) (mkH [] [] g0) = (Ok st, s) -> cpop st <> [] ->
  exists r f, elitist st s = (Ok (Some r), s) /\ best_of s (cpop st ++ carch st) r f.
Proof. exact @shipped_best. Qed.
Print Assumptions C22_elitist_is_best.
(* with the archive it never gets worse, however many steps follow *)
Theorem C22_never_worse : forall {K L} (O : optimizer K) i c (steps : list (env L * rng)) E1 g1 later g0 st1 s1 st2 s2 r1 r2 f1 f2,
  shipped O i -> carchive c = true -> deterministic (emix E1) -> never_nan E1 -> size_free E1 ->
  one_fit (steps ++ [(E1, g1)] ++ later) ->
  compose O c (steps ++ [(E1, g1)]) (fresh_comp O i) (mkH [] [] g0) = (Ok st1, s1) ->
  compose O c (steps ++ [(E1, g1)] ++ later) (fresh_comp O i) (mkH [] [] g0) = (Ok st2, s2) ->
  elitist st1 s1 = (Ok (Some r1), s1) -> elitist st2 s2 = (Ok (Some r2), s2) -> has_fit s1 r1 f1 -> has_fit s2 r2 f2 -> nle f1 f2 = true.
Proof. exact @shipped_never_worse. Qed.
Print Assumptions C22_never_worse.
(* each hypothesis is needed: without the archive, *)
Theorem C22_no_archive_refuted : exists (E : env mean_learner) g1 g2,
  deterministic (emix E) /\ never_nan E /\ size_free E /\
  worse_later (rs 1 1) (mkCcfg (RandomInit (1#2)) false false) [(E, g1)] [(E, g2)] tt.
Proof.
  exists (count_env by_count), (scripted []), (mkRng (fun _ => 3#4) 0). split; [left; reflexivity|].
  split; [intros e k j; reflexivity|]. split; [intros e k j j'; reflexivity|]. apply falls_ok. vm_compute. reflexivity.
Qed.
Print Assumptions C22_no_archive_refuted.
(* with a fitness that depends on the genome length, as PseudoBIC does, when the pool grows, *)
Theorem C22_genome_length_refuted : exists (E1 E2 : env mean_learner) g,
  extends E1 E2 /\ efit E1 = bic_like /\ deterministic (emix E1) /\ never_nan E1 /\
  worse_later (ga (mkG 1 2 (1#2) SelRandom Uniform (9#10) (1#100))) (mkCcfg ZeroInit true true) [(E1, g)] [(E2, g)] tt.
Proof.
  exists (with_target 3 (one_rule bic_like)), (with_target 3 (count_env bic_like)), a_tape. split.
  - split; [eexists; reflexivity|repeat split].
  - split; [reflexivity|]. split; [left; reflexivity|]. split; [intros e k j; reflexivity|]. apply falls_ok. vm_compute. reflexivity.
Qed.
Print Assumptions C22_genome_length_refuted.
(* with a mixing model that draws the rules it uses *)
Theorem C22_random_mixing_refuted : exists (E : env mean_learner) g1 g2,
  emix E = mkMixing (NRandom 1) ExpAsIs 1 /\ never_nan E /\ size_free E /\
  worse_later (rs 1 1) (mkCcfg (RandomInit 1) true true) [(E, g1)] [(E, g2)] tt.
Proof.
  exists (with_mix (mkMixing (NRandom 1) ExpAsIs 1) (count_env by_error)), (mkRng (fun _ => 0) 0), (mkRng (fun _ => 1) 0).
  split; [reflexivity|]. split; [intros e k j; reflexivity|]. split; [intros e k j j'; reflexivity|]. apply falls_ok. vm_compute. reflexivity.
Qed.
Print Assumptions C22_random_mixing_refuted.

(* ----- C49: colonies, swarms and packs keep the one member that a step on an empty pool left them ----- *)
Theorem C49_stays_alone : forall {K L} (O : optimizer K) c (E0 : env L) g0 steps,
  keeps_size O -> cwarm c = true -> epool E0 = [] ->
  forall (st st' : comp O) s s', compose O c ((E0, g0) :: steps) st s = (Ok st', s') -> length (cpop st') = 1%nat.
Proof. exact @stays_alone. Qed.
Print Assumptions C49_stays_alone.
(* ... although they were configured with three *)
Theorem C49_swarms_refuted :
  ends_alone (aco (Binary plain_math (mkBp 1 1 5)) aco_cfg) None 3 /\
  ends_alone (bees same_math (mkBee 2 3 5 FBitwise)) tt 3 /\
  ends_alone (swarm same_math (mkP 2 3 1 2 MSigmoidQuantum)) tt 3 /\
  ends_alone (wolves same_math (mkW 2 3 1 WCrossover)) tt 3.
Proof.
  repeat split; exists mean_learner, (no_rules by_count1), (count_env by_count1), a_tape;
  (match goal with |- exists st s, _ /\ _ /\ _ /\ ?r = _ /\ _ => destruct (ran_ok r (fun st _ => Nat.eqb (length (cpop st)) 1)) as (st & s & H1 & H2) end;
   [vm_compute; reflexivity|]);
  exists st, s; (split; [reflexivity|]); (split; [split; [eexists; reflexivity|repeat split]|]); (split; [discriminate|]);
  (split; [exact H1|apply Nat.eqb_eq; exact H2]).
Qed.
Print Assumptions C49_swarms_refuted.

(* two steps over a growing pool with an archive, for one optimizer of each family *)
Example C21_satisfiable :
  let hist := [(one_rule by_count1, a_tape); (count_env by_count1, a_tape)] in
  one_fit hist /\ deterministic (emix (one_rule by_count1)) /\ never_nan (one_rule by_count1) /\ size_free (one_rule by_count1) /\
  Forall (fun b => b = true) [
    survives (ga (mkG 2 4 (1#4) (SelTournament 2) Uniform (9#10) (1#100))) tt hist;
    survives (rs 3 2) tt hist;
    survives (aco (Complete plain_math (mkBp 1 1 5) true) aco_cfg) None hist;
    survives (bees same_math (mkBee 2 3 5 FSigmoid)) tt hist;
    survives (swarm same_math (mkP 2 3 1 2 MSigmoidQuantum)) tt hist;
    survives (wolves same_math (mkW 2 3 1 WSigmoid)) tt hist;
    survives (sas (sas1 8 4)) 4%nat hist].
Proof.
  cbv zeta. split; [split; [split; [eexists; reflexivity|repeat split]|split; exact I]|]. split; [left; reflexivity|].
  split; [intros e k j; reflexivity|]. split; [intros e k j j'; reflexivity|].
  repeat (apply Forall_cons; [vm_compute; reflexivity|]). apply Forall_nil.
Qed.
(* a random search whose elitist improves from the first step to the second *)
Example C22_satisfiable :
  let O := rs 1 1 in let c := mkCcfg (RandomInit (1#2)) true true in
  let first := [(one_rule by_count1, mkRng (fun _ => 3#4) 0)] in let later := [(count_env by_count1, scripted [])] in
  shipped O tt /\ carchive c = true /\ deterministic (emix (one_rule by_count1)) /\ never_nan (one_rule by_count1) /\ size_free (one_rule by_count1) /\
  one_fit (first ++ later) /\
  elite_fit (compose O c first (fresh_comp O tt) (mkH [] [] a_tape)) = Some (Fin 1) /\
  elite_fit (compose O c (first ++ later) (fresh_comp O tt) (mkH [] [] a_tape)) = Some (Fin 4).
Proof.
  cbv zeta. split; [constructor|]. split; [reflexivity|]. split; [left; reflexivity|]. split; [intros e k j; reflexivity|].
  split; [intros e k j j'; reflexivity|]. split; [split; [split; [eexists; reflexivity|repeat split]|split; exact I]|]. split; vm_compute; reflexivity.
Qed.
