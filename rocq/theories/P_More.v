(* C82: a fit with more iterations goes on where the shorter one ends. *)
From Coq Require Import Reals Qreals.
From Verif Require Import PyNum PyList PyMon PyRng M_Matching M_Rule M_RuleGen M_Mixing M_GenomeOps M_Discovery M_Solution M_Composition M_GA M_Fit M_Shipped M_Fitness S_More L_More L_UnitsEx L_MoreEx.
Open Scope Q_scope.

(* all that is shown to the logger, and the pool, begin with those of the shorter fit *)
Theorem C82_begins : forall L (D : discovery L) (C : composition L) p p' os X y (e : est D C (recorder L)), blind_to_length C -> same_but_iterations p p' -> (n_iter p <= n_iter p')%nat -> (step e < n_iter p)%nat ->
  let e1 := snd (fit p os false X y e) in let e2 := snd (fit p' os false X y e) in
  begins_with (pool e1) (pool e2) /\ match logs e1, logs e2 with Some l, Some l' => begins_with l l' | None, None => True | _, _ => False end.
Proof. intros L D C. exact (record_begins D C). Qed.
Print Assumptions C82_begins.
(* the model of a fit is the last one shown, so the longer fit had it, too *)
Theorem C82_model_shown : forall L (D : discovery L) (C : composition L) p os X y (e : est D C (recorder L)), (0 < n_iter p)%nat ->
  let e1 := snd (fit p os false X y e) in fst (fit p os false X y e) = Ok tt -> is_error e1 = false ->
  exists l pop b, logs e1 = Some (l ++ [mkEntry (step e1) (pool e1) pop (Ok (Some b))]) /\ M_Fit.elitist e1 = Some (Learned b).
Proof. intros L D C. exact (model_recorded D C). Qed.
Print Assumptions C82_model_shown.
(* a fit that stopped early or failed would have done so with more iterations, too: same result, same model, same predictions *)
Theorem C82_ended_early : forall L (D : discovery L) (C : composition L) (G : logger L) p p' os clean X y (e : est D C G), blind_to_length C -> same_but_iterations p p' -> (n_iter p <= n_iter p')%nat -> (step e < n_iter p)%nat ->
  let o := fit p os clean X y e in let o' := fit p' os clean X y e in (S (step (snd o)) < n_iter p)%nat \/ is_error (snd o) = true ->
  fst o = fst o' /\ same_but_length (snd o) (snd o') /\ forall Z g, M_Fit.predict (snd o) Z g = M_Fit.predict (snd o') Z g.
Proof.
  intros L D C G p p' os clean X y e HC HP HL HS o o' H. destruct (ended_early D C G HC (n_iter p) p p' HP os clean X y e eq_refl HL HS H) as [H1 H2]. split; [exact H1|]. split; [exact H2|].
  intros Z g. unfold o, o', M_Fit.predict. rewrite (proj1 (sl_status _ _ H2)), (proj2 (sl_status _ _ H2)), (sl_elitist _ _ H2). reflexivity.
Qed.
Print Assumptions C82_ended_early.
(* a fitness that ignores the announced maximum makes the composition blind to it *)
Theorem C82_blind : forall L rngof (K : skind) (O : optimizer K) i c mix g, blind_to_length (shipped_composition L rngof O i c mix (fun _ => g)).
Proof. intros L rngof K O i c mix g X y m m' pool s z. reflexivity. Qed.
Print Assumptions C82_blind.
(* PseudoBIC does *)
Theorem C82_pseudo_bic : forall m m' error complexity size, sol_fitness PseudoBIC m error complexity size = sol_fitness PseudoBIC m' error complexity size.
Proof. reflexivity. Qed.
Print Assumptions C82_pseudo_bic.
(* the other fitnesses do not ignore it: with ComplexityEmary the announced maximum grows with the iterations, so a fit stopped early would not have been stopped with more iterations *)
Theorem C82_length_matters : exists L (D : discovery L) rngof (O : optimizer plain) i c mix f p p' os X y, (forall m e k s, (0 < m)%nat -> exists q, f m e k s = Fin q /\ sol_fitness (ComplexityEmary 0) m (Q2R e) k s = Ok (Some (Q2R q))) /\
  same_but_iterations p p' /\ (n_iter p <= n_iter p')%nat /\
  let o p := snd (fit p os false X y (unfitted D (shipped_composition L rngof O i c mix f) (recorder L))) in
  is_error (o p) = false /\ is_error (o p') = false /\ (S (step (o p)) < n_iter p)%nat /\ (length (pool (o p)) < length (pool (o p')))%nat.
Proof.
  exists line_learner, (es_discovery line_learner some_tape (units_es 3) (GivenClip None)), some_tape, (M_GA.rs 1 2), tt, (mkCcfg (RandomInit 1) true true), (mkMixing KeepAll ExpAsIs 1), by_length, (in_iterations 2 1 60), (in_iterations 4 1 60), 0%Z, in_cm, heights.
  split; [intros m e k s H; eexists; split; [reflexivity|apply emary_by_length; exact H]|]. split; [repeat split|]. split; [cbn; repeat constructor|]. cbv zeta. split; [vm_compute; reflexivity|]. split; [vm_compute; reflexivity|]. split; vm_compute; repeat constructor.
Qed.
Print Assumptions C82_length_matters.
Example C82_satisfiable : blind_to_length (few_rules by_error) /\ same_but_iterations (in_iterations 2 (-1) 60) (in_iterations 4 (-1) 60) /\ (step (snd (found_in by_error (in_iterations 2 (-1) 60))) = 1)%nat /\
  fst (found_in by_error (in_iterations 2 (-1) 60)) = Ok tt /\ length (pool (snd (found_in by_error (in_iterations 2 (-1) 60)))) = 2%nat /\ length (pool (snd (found_in by_error (in_iterations 4 (-1) 60)))) = 4%nat /\
  step (snd (found_in by_error (in_iterations 4 1 60))) = 0%nat /\ length (pool (snd (found_in by_error (in_iterations 5 1 60)))) = 1%nat.
Proof. split; [intros X y m m' pool s z; reflexivity|]. split; [repeat split|]. repeat split; vm_compute; reflexivity. Qed.
