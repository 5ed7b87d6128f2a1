(* C86: a fit stopped early is the fit with that many iterations, and more patience never ends it earlier. *)
From Coq Require Import Reals Qreals.
From Verif Require Import PyNum PyList PyMon PyRng M_Matching M_Rule M_RuleGen M_Mixing M_GenomeOps M_Discovery M_Solution M_Composition M_GA M_Fitness M_Fit M_Shipped S_More S_Patience L_UnitsEx L_Patience L_MoreEx.
Local Open Scope Q_scope.

(* a fit that early stopping ended is the fit without early stopping and with that many iterations: same model, same pool, same logs, same predictions *)
Theorem C86_stopped : forall L (D : discovery L) (C : composition L) (G : logger L) p os clean X y (e e1 : est D C G), blind_to_length C -> (step e < n_iter p)%nat -> fit p os clean X y e = (Ok tt, e1) -> (step e <= step e1)%nat ->
  exists e1', fit (exactly (S (step e1)) p) os clean X y e = (Ok tt, e1') /\ same_learned e1 e1' /\ forall Z g, M_Fit.predict e1 Z g = M_Fit.predict e1' Z g.
Proof.
  intros L D C G p os clean X y e e1 HC HN H HS. destruct (stopped_shorter D C G p os clean X y e e1 HC HN H HS) as (e1' & H1 & H2). exists e1'. split; [exact H1|]. split; [exact H2|]. exact (learned_predict e1 e1' H2).
Qed.
Print Assumptions C86_stopped.
(* the same for a fitness that does look at the announced maximum is false: it grows with n_iter *)
Theorem C86_length_matters : exists L (D : discovery L) rngof (O : optimizer plain) i c mix f p os X y, (forall m e k s, (0 < m)%nat -> exists q, f m e k s = Fin q /\ sol_fitness (ComplexityEmary 0) m (Q2R e) k s = Ok (Some (Q2R q))) /\
  let o p := fit p os false X y (unfitted D (shipped_composition L rngof O i c mix f) (recorder L)) in let e1 := snd (o p) in
  fst (o p) = Ok tt /\ is_error e1 = false /\ (S (step e1) < n_iter p)%nat /\ fst (o (exactly (S (step e1)) p)) = Ok tt /\ M_Fit.elitist e1 <> M_Fit.elitist (snd (o (exactly (S (step e1)) p))).
Proof.
  exists line_learner, (es_discovery line_learner some_tape (units_es 3) (GivenClip None)), some_tape, (M_GA.rs 1 2), tt, (mkCcfg (RandomInit 1) true true), (mkMixing KeepAll ExpAsIs 1), by_length, (in_iterations 2 1 60), 0%Z, in_cm, heights.
  split; [intros m e k s H; eexists; split; [reflexivity|apply emary_by_length; exact H]|]. cbv zeta. split; [vm_compute; reflexivity|]. split; [vm_compute; reflexivity|]. split; [vm_compute; repeat constructor|]. split; [vm_compute; reflexivity|]. vm_compute. discriminate.
Qed.
Print Assumptions C86_length_matters.
(* early stopping that did not cut the fit short had no influence at all, whatever the fitness *)
Theorem C86_unused : forall L (D : discovery L) (C : composition L) (G : logger L) p p' os clean X y (e e1 : est D C G), same_but_stopping p p' -> more_patient p p' -> fit p os clean X y e = (Ok tt, e1) -> S (step e1) = n_iter p \/ is_error e1 = true ->
  exists e1', fit p' os clean X y e = (Ok tt, e1') /\ same_but_counter e1 e1'.
Proof. intros L. exact patience_unused. Qed.
Print Assumptions C86_unused.
(* more patience, or a smaller delta, never ends learning earlier: all the impatient fit did and logged is how the patient one begins *)
Theorem C86_more_patience : forall L (D : discovery L) (C : composition L) p p' os X y (e e1 : est D C (recorder L)), same_but_stopping p p' -> more_patient p p' -> fit p os false X y e = (Ok tt, e1) ->
  let e2 := snd (fit p' os false X y e) in (step e1 <= step e2)%nat /\ begins_with (pool e1) (pool e2) /\ match logs e1, logs e2 with Some l, Some l' => begins_with l l' | None, None => True | _, _ => False end.
Proof. intros L. exact patience_begins. Qed.
Print Assumptions C86_more_patience.
Example C86_satisfiable : blind_to_length (few_rules by_error) /\ more_patient (in_iterations 5 1 60) (in_iterations 5 3 60) /\ more_patient (in_iterations 5 3 60) (in_iterations 5 0 60) /\ more_patient (in_iterations 5 1 60) (in_iterations 5 1 (1#2)) /\
  fst (found_in by_error (in_iterations 5 1 60)) = Ok tt /\ step (snd (found_in by_error (in_iterations 5 1 60))) = 0%nat /\ step (snd (found_in by_error (in_iterations 5 3 60))) = 2%nat /\ step (snd (found_in by_error (in_iterations 5 0 60))) = 4%nat /\
  length (pool (snd (found_in by_error (in_iterations 5 3 60)))) = 3%nat /\ length (pool (snd (found_in by_error (exactly 3 (in_iterations 5 3 60))))) = 3%nat /\ is_error (snd (found_in by_error (in_iterations 5 3 60))) = false.
Proof.
  split; [intros X y m m' pool s z; reflexivity|]. split; [right; repeat split; discriminate|]. split; [left; discriminate|]. split; [right; repeat split; discriminate|]. repeat split; vm_compute; reflexivity.
Qed.
