(* The library's composition, and histories of fits, in two runs whose rules and measurements are related. *)
From Coq Require Import Lia.
From Verif Require Import PyNum PyList PyMon PyRng L_Num L_List M_Matching M_Rule M_RuleGen M_Mixing M_GenomeOps M_Discovery M_Solution M_Composition M_Fit M_Shipped L_Invariance S_Units L_Units L_Tandem S_Order L_OrderComp L_OrderFit.

Section Hist.
Variables (L L' : learner) (rr : rule L -> rule L' -> Prop) (RA : satts -> satts -> Prop) (FM : mixing -> mixing -> Prop).
Hypothesis HRA : comparable RA.
Variable rngof : stream -> rng.
Context {K : skind}.
Variables (O : optimizer K) (i : ostate O) (cc : ccfg) (mix mix' : mixing) (f f' : nat -> Q -> nat -> nat -> num).
(* the problems of the two runs, and what the metaheuristic keeps for itself *)
Variables (RE : env L -> env L' -> Prop) (RS : ostate O -> ostate O -> Prop).
Hypothesis HE : forall E E', RE E E' -> ranked_task RA E E'.
Hypothesis HI : RS i i.
Hypothesis HS : forall i i', RS i i' -> osize O i = osize O i'.
Hypothesis HO : forall E E' ini pop i i', RE E E' -> RS i i' -> tandem (ranked_heap RA) (fun z z' => fst z = fst z' /\ RS (snd z) (snd z')) (orun O L E ini pop i) (orun O L' E' ini pop i').
Hypothesis Hmix : FM mix mix'.
(* the data sets of the two runs *)
Variable RX : matrix -> targets -> matrix -> targets -> Prop.
Hypothesis Hcheck : forall X y X' y', RX X y X' y' -> check_X_y X y = check_X_y X' y'.
Hypothesis Htask : forall X y X' y' m pool pool', RX X y X' y' -> Forall2 rr pool pool' -> RE (step_env mix f X y m pool) (step_env mix' f' X' y' m pool').
Notation C := (shipped_composition L rngof O i cc mix f). Notation C' := (shipped_composition L' rngof O i cc mix' f').
Definition RC (z z' : comp O * hst K) : Prop := like_comp RS (fst z) (fst z') /\ ranked_heap RA (snd z) (snd z').
Lemma crun_like X y X' y' m pool pool' s (z z' : comp O * hst K) : RX X y X' y' -> Forall2 rr pool pool' -> RC z z' ->
  fst (crun C X y m pool s z) = fst (crun C' X' y' m pool' s z') /\ RC (snd (crun C X y m pool s z)) (snd (crun C' X' y' m pool' s z')).
Proof.
  intros HX HP [HZ HH]. cbn [crun shipped_composition]. pose proof (Htask X y X' y' m pool pool' HX HP) as Ht.
  pose proof (tan_optimize_like RA HRA L L' _ _ (HE _ _ Ht) O RS cc (rngof (sstream s)) (fst z) (fst z') HS (fun ini pop i i' => HO _ _ ini pop i i' Ht) HZ _ _ HH) as H.
  destruct (optimize O cc (step_env mix f X y m pool) _ _ _) as [[o|x] q], (optimize O cc (step_env mix' f' X' y' m pool') _ _ _) as [[o'|x'] q']; try contradiction; destruct H as [H1 H2]; cbn; [|subst]; (split; [reflexivity|split; assumption]).
Qed.
Lemma cbest_like (z z' : comp O * hst K) : RC z z' -> alike_res (paired (ranked_solution RA FM)) (cbest C z) (cbest C' z').
Proof.
  intros [HZ HH]. cbn [cbest shipped_composition]. assert (HT : tandem (ranked_heap (K := K) RA) (paired (ranked_solution RA FM)) (read_elitist mix (fst z)) (read_elitist mix' (fst z'))).
  { unfold read_elitist. eapply tan_bind.
    - destruct HZ as (Z1 & Z2 & _). replace (M_Composition.elitist (fst z')) with (M_Composition.elitist (fst z)) by (unfold M_Composition.elitist; rewrite Z1, Z2; reflexivity). apply (tan_elitist RA HRA (fst z)).
    - intros b b' <-. destruct b as [r|]; [|apply tan_ret; exact I]. eapply tan_bind; [apply tan_genome|]. intros bits bits' <-. eapply tan_bind; [apply tan_satt|]. intros a a' Ha. apply tan_ret. cbn. unfold ranked_solution. cbn. auto. }
  specialize (HT _ _ HH). destruct (read_elitist _ _ _) as [[o|x] q], (read_elitist _ _ (snd z')) as [[o'|x'] q']; try contradiction; apply HT.
Qed.
Lemma cpop_like (z z' : comp O * hst K) : RC z z' -> alike_res (Forall2 RA) (cpopulation C z) (cpopulation C' z').
Proof.
  intros [(HZ & _) HH]. cbn [cpopulation shipped_composition]. rewrite <- HZ.
  assert (HT : tandem (ranked_heap (K := K) RA) (Forall2 RA) (mmap get_satt (cpop (fst z))) (mmap get_satt (cpop (fst z)))) by (apply (tan_mmap _ eq); [intros r r' <-; apply tan_satt|apply Forall2_eq]).
  specialize (HT _ _ HH). destruct (mmap _ _ _) as [[o|x] q], (mmap _ _ (snd z')) as [[o'|x'] q']; try contradiction; apply HT.
Qed.
Variables (G : logger L) (G' : logger L') (RL : lst G -> lst G' -> Prop).
Hypothesis HG : forall X y X' y', RX X y X' y' -> like_logger rr RA FM X y X' y' G G' RL.
Definition like_call (k k' : call) : Prop := cparams k = cparams k' /\ cos k = cos k' /\ cclean k = cclean k' /\ RX (cX k) (cy k) (cX k') (cy k') /\ (never_stops k \/ stops_alike RA).
Lemma history (D : discovery L) (D' : discovery L') (RD : dst D -> dst D' -> Prop) :
  (forall X y X' y', RX X y X' y' -> alike_res RD (dnew D X) (dnew D' X')) ->
  (forall X y X' y' pool pool' el el' n s d d', RX X y X' y' -> Forall2 rr pool pool' -> paired (like_elite rr RA FM) el el' -> RD d d' ->
    alike_res (Forall2 rr) (fst (drun D X y pool el n s d)) (fst (drun D' X' y' pool' el' n s d')) /\ fst (snd (drun D X y pool el n s d)) = fst (snd (drun D' X' y' pool' el' n s d')) /\
    RD (snd (snd (drun D X y pool el n s d))) (snd (snd (drun D' X' y' pool' el' n s d')))) ->
  forall calls calls', Forall2 like_call calls calls' -> like_estimator rr RA FM (after D C G calls) (after D' C' G' calls') /\ paired RL (logs (after D C G calls)) (logs (after D' C' G' calls')).
Proof.
  intros H1 H2 calls calls' HC. unfold after.
  assert (HQ : same L L' rr RA FM D D' C C' G G' RD RC RL (unfitted D C G) (unfitted D' C' G')) by (constructor; [constructor|..]; cbn; auto).
  revert HQ. generalize (unfitted D C G), (unfitted D' C' G'). induction HC as [|k k' calls calls' Hk HC IH]; intros e e' HQ; cbn [fold_left]; [destruct HQ; auto|].
  apply IH. unfold do_call. destruct Hk as (K1 & K2 & K3 & K4 & K5). rewrite <- K1, <- K2, <- K3.
  assert (A0 : alike_res RC (cnew C) (cnew C')) by (cbn; split; [repeat split; exact HI|constructor; cbn; auto]).
  pose proof (fit_ranked L L' rr RA FM (cX k) (cX k') (cy k) (cy k') D D' C C' G G' RD RC RL (Hcheck _ _ _ _ K4) (H1 _ _ _ _ K4) (fun pool pool' el el' n s d d' => H2 _ _ _ _ pool pool' el el' n s d d' K4) A0
    (fun m pool pool' s c c' => crun_like _ _ _ _ m pool pool' s c c' K4) cbest_like cpop_like (HG _ _ _ _ K4) (cparams k) (cos k) (cclean k) K5 e e' HQ) as HF.
  destruct (M_Fit.fit _ _ _ _ _ e) as [[o|x] e1], (M_Fit.fit _ _ _ _ _ e') as [[o'|x'] e1']; try contradiction; apply HF.
Qed.
End Hist.
