(* The composition as the estimator uses it, with other solutions on the heap. *)
From Verif Require Import PyNum PyList PyMon PyRng M_Matching M_Rule M_Mixing M_Solution M_Composition M_GA M_Saga M_Sas M_Abc M_Swarm M_Aco M_Fit M_Shipped S_Units L_Units L_Tandem S_Cold S_ColdFit L_Cold L_ColdRuns.

Section Ship.
Variables (K : skind) (O : optimizer K) (RI : ostate O -> ostate O -> Prop).
Hypothesis HO : forall w L (E : env L), runs_alike K w L E O RI.
Hypothesis HZ : forall i i', RI i i' -> osize O i = osize O i'.
Variables (L : learner) (rngof : stream -> rng) (i : ostate O) (c : ccfg) (mix : mixing) (f : nat -> Q -> nat -> nat -> num).
Hypotheses (HW : cwarm c = false) (HA : carchive c = false).
Local Notation C := (shipped_composition L rngof O i c mix f).
Lemma crun_afresh X y k pool s (z z' : cst C) : RI (cint (fst z)) (cint (fst z')) ->
  fst (crun C X y k pool s z) = fst (crun C X y k pool s z') /\
  (fst (crun C X y k pool s z) = Ok tt -> cbest C (snd (crun C X y k pool s z)) = cbest C (snd (crun C X y k pool s z')) /\ cpopulation C (snd (crun C X y k pool s z)) = cpopulation C (snd (crun C X y k pool s z'))).
Proof.
  intros HI. destruct z as [st h], z' as [st' h']. cbn [fst snd] in HI. cbn [crun cbest cpopulation shipped_composition fst snd]. set (E := step_env mix f X y k pool). set (q := rngof (sstream s)).
  set (W := apart h h'). pose proof (moved_apart h h' q) as HP. fold W in HP.
  pose proof (mv_optimize K W L E O RI c q st st' (HO W L E) HZ (or_introl HW) (or_introl HA) HI _ _ HP) as HT. change (optimize O c E q st (mkH (garr h) (sols h) q)) with (optimize O c E q st h) in HT. change (optimize O c E q st' (mkH (garr h') (sols h') q)) with (optimize O c E q st' h') in HT.
  destruct (optimize O c E q st h) as [[a|e] t], (optimize O c E q st' h') as [[a'|e'] t']; try contradiction; destruct HT as [HM HC]; cbn [fst snd].
  - split; [reflexivity|]. intros _. split.
    + assert (HR : tandem (moved K W) eq (read_elitist mix a) (read_elitist mix a')).
      { unfold read_elitist. eapply tan_bind; [apply (mv_elitist K _ RI a a' HC)|]. intros [r|] [r'|] Hr; cbn in Hr; try contradiction; [|apply tan_ret; reflexivity]. eapply tan_bind; [apply mv_genome; exact Hr|]. intros b b' <-. eapply tan_bind; [apply mv_satt; exact Hr|]. intros w w' <-. apply tan_ret. reflexivity. }
      specialize (HR _ _ HM). destruct (read_elitist mix a t) as [[x|x] u], (read_elitist mix a' t') as [[x'|x'] u']; try contradiction; destruct HR as [_ <-]; reflexivity.
    + destruct HC as [HF _]. assert (HR : tandem (moved K W) eq (mmap get_satt (cpop a)) (mmap get_satt (cpop a'))).
      { apply (tan_weak _ (Forall2 eq)); [apply L_Units.eq_Forall2|]. apply (tan_mmap _ (ref W)); [|exact HF]. intros r r' Hr. apply mv_satt. exact Hr. }
      specialize (HR _ _ HM). destruct (mmap get_satt (cpop a) t) as [[x|x] u], (mmap get_satt (cpop a') t') as [[x'|x'] u']; try contradiction; destruct HR as [_ <-]; reflexivity.
  - split; [rewrite HC; reflexivity|discriminate].
Qed.
End Ship.

Lemma cold_reports : (forall c, reports_alike (saga1 c) eq) /\ (forall t c, reports_alike (saga2 t c) eq) /\ (forall c, reports_alike (sas c) eq) /\ (forall A b c, reports_alike (aco (Binary A b) c) eq) /\ (forall A b part c, reports_alike (aco (Complete A b part) c) eq) /\
  (forall c, reports_alike (ga c) (fun _ _ => True)) /\ (forall k size, reports_alike (rs k size) (fun _ _ => True)) /\ (forall c, reports_alike (saga3 c) (fun _ _ => True)) /\ (forall M c, reports_alike (bees M c) (fun _ _ => True)) /\ (forall M c, reports_alike (swarm M c) (fun _ _ => True)) /\ (forall M c, reports_alike (wolves M c) (fun _ _ => True)) /\
  (forall A b c, a_warm c = false -> reports_alike (aco (Binary A b) c) (fun _ _ => True)) /\ forall A b part c, a_warm c = false -> reports_alike (aco (Complete A b part) c) (fun _ _ => True).
Proof.
  assert (HE : forall K (O : optimizer K), (forall w L (E : env L), runs_alike K w L E O eq) -> reports_alike O eq).
  { intros K O H L rngof i c mix f HW HA X y k pool s z z' HI. apply (crun_afresh K O eq); auto. intros a a' <-. reflexivity. }
  assert (HU : forall K (O : optimizer K), (forall i i' : ostate O, i = i') -> reports_alike O eq -> reports_alike O (fun _ _ => True)).
  { intros K O H HR L rngof i c mix f HW HA X y k pool s z z' _. apply HR; auto. }
  refine (conj _ (conj _ (conj _ (conj _ (conj _ (conj _ (conj _ (conj _ (conj _ (conj _ (conj _ (conj _ _)))))))))))); intros.
  - apply HE. intros. apply saga1_runs.
  - apply HE. intros. apply saga2_runs.
  - apply HE. intros. apply sas_runs.
  - apply HE. intros. apply aco_runs; [apply binary_plain|intros i i' <-; reflexivity|reflexivity].
  - apply HE. intros. apply aco_runs; [apply complete_plain|intros i i' <-; reflexivity|reflexivity].
  - apply HU; [exact unit_one|]. apply HE. intros. apply ga_runs.
  - apply HU; [exact unit_one|]. apply HE. intros. apply rs_runs.
  - apply HU; [exact unit_one|]. apply HE. intros. apply saga3_runs.
  - apply HU; [exact unit_one|]. apply HE. intros. apply bees_runs.
  - apply HU; [exact unit_one|]. apply HE. intros. apply swarm_runs.
  - apply HU; [exact unit_one|]. apply HE. intros. apply wolves_runs.
  - intros L rngof i cc mix f HW HA X y k pool s z z' _. apply (crun_afresh _ _ (fun _ _ => True)); auto. intros. apply aco_runs; [apply binary_plain|intros j j' _; rewrite H; reflexivity|auto].
  - intros L rngof i cc mix f HW HA X y k pool s z z' _. apply (crun_afresh _ _ (fun _ _ => True)); auto. intros. apply aco_runs; [apply complete_plain|intros j j' _; rewrite H; reflexivity|auto].
Qed.
