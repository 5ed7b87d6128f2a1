(* The library's estimator in other units. *)
From Coq Require Import Lia.
From Verif Require Import PyNum PyList PyMon PyRng L_Num L_List M_Matching M_Rule M_RuleGen M_Mixing M_Discovery M_Solution M_Composition M_Fit M_Shipped M_Logging L_Invariance S_Units L_Units L_UnitsDisc L_UnitsComp L_UnitsFit.

Section Ship.
Variables (a : Q) (shifts : list Q).
Hypothesis Ha : 0 < a.
Variables L L' : learner.
Hypothesis HU : unitless a shifts L L'.
Notation point := (same_point a shifts). Notation rrule := (rescaled_rule a shifts L L').
Variable rngof : stream -> rng.

Lemma init_bounds_units k k' X X' : rescaled_given a shifts k k' -> Forall2 point X X' -> alike_res (rescaled_constraint a shifts) (init_bounds X k) (init_bounds X' k').
Proof.
  intros HK HX. unfold init_bounds. pose proof (bounds_units a shifts Ha X X' HX) as HB. destruct (estimate_bounds X) as [b|e], (estimate_bounds X') as [b'|e']; cbn in HB; try contradiction; [|exact HB]. cbn [rbind alike_res].
  destruct k as [[c|]|r|r [c|]], k' as [[c'|]|r'|r' [c'|]]; cbn in *; try contradiction; intuition auto.
Qed.
Lemma elite_problem X X' y pool pool' el el' : Forall2 point X X' -> Forall2 rrule pool pool' -> paired (relite a shifts L L') el el' -> rescaled_problem a shifts L L' (discovery_env X y pool el) (discovery_env X' y pool' el').
Proof.
  intros HX HP He. destruct el as [b|], el' as [b'|]; cbn in He; try contradiction; [destruct He as (B1 & B2 & B3 & B4)|]; constructor; cbn; auto; congruence.
Qed.
Lemma settings_of c c' k k' : rescaled_free a c c' -> rescaled_constraint a shifts k k' -> rescaled_settings a shifts (set_constraint k c) (set_constraint k' c').
Proof. intros [F1 F2 F3 F4 F5] HK. constructor; cbn; auto. Qed.

Definition es_state (c c' : escfg) : Prop := rescaled_settings a shifts (es_d c) (es_d c') /\ rescaled_mutation a (es_mut c) (es_mut c') /\
  (es_iter c = es_iter c' /\ es_lambda c = es_lambda c' /\ es_operator c = es_operator c' /\ es_delay c = es_delay c' /\ es_sel c = es_sel c').
Lemma es_new_units c c' k k' X X' : rescaled_es a c c' -> rescaled_given a shifts k k' -> Forall2 point X X' -> alike_res es_state (dnew (es_discovery L rngof c k) X) (dnew (es_discovery L' rngof c' k') X').
Proof.
  intros [E1 E2 E3] HK HX. cbn [dnew es_discovery]. pose proof (init_bounds_units k k' X X' HK HX) as HB.
  assert (HN : match es_new c, es_new c' with Ok d, Ok d' => d = c /\ d' = c' | Raise x, Raise x' => x = x' | _, _ => False end).
  { unfold es_new. destruct E3 as (R1 & R2 & R3 & R4 & R5). rewrite <- R3, <- R4, <- R1. unfold assert_. destruct (Nat.ltb (es_delay c) (es_iter c)); destruct (es_operator c); cbn; auto. }
  destruct (es_new c) as [d|x], (es_new c') as [d'|x']; try contradiction; [|exact HN]. destruct HN as [-> ->]. cbn [rbind]. destruct (init_bounds X k) as [b|x], (init_bounds X' k') as [b'|x']; cbn in HB; try contradiction; [|exact HB]. cbn.
  split; [apply settings_of; assumption|]. auto.
Qed.
Lemma es_run_units c c' k k' X X' y pool pool' el el' n s d d' : Forall2 point X X' -> Forall2 rrule pool pool' -> paired (relite a shifts L L') el el' -> es_state d d' ->
  let o := drun (es_discovery L rngof c k) X y pool el n s d in let o' := drun (es_discovery L' rngof c' k') X' y pool' el' n s d' in
  alike_res (Forall2 rrule) (fst o) (fst o') /\ fst (snd o) = fst (snd o') /\ es_state (snd (snd o)) (snd (snd o')).
Proof.
  intros HX HP He HS. pose proof (elite_problem X X' y pool pool' el el' HX HP He) as HD. destruct HS as (S1 & S2 & S3). cbn. split; [|split; [|repeat split; try apply S1; try apply S2; apply S3]].
  - pose proof (es_units a shifts Ha L L' HU _ _ HD d d' S1 S2 S3 n (fun i => rngof (child s (spawned s + i))) (rngof (sstream s))) as H. destruct (es_optimize d _ _ _ _) as [[o|x] g], (es_optimize d' _ _ _ _) as [[o'|x'] g']; try contradiction; apply H.
  - assert (HI : alike (Forall2 rrule) (es_initial d (discovery_env X y pool el) n) (es_initial d' (discovery_env X' y pool' el') n)).
    { unfold es_initial. rewrite <- (set_origin _ _ _ _ S1). eapply alike_bind; [apply (origins_units a shifts Ha L L' _ _ HD)|]. intros xs xs' Hx. apply (alike_mmap point rrule); [|exact Hx]. intros x x' H. apply (new_units a shifts Ha L L' HU _ _ HD _ _ S1). exact H. }
    specialize (HI (rngof (sstream s))). destruct (es_initial d _ _ _) as [[o|x] g], (es_initial d' _ _ _) as [[o'|x'] g']; try contradiction; cbn [fst]; [|reflexivity]. destruct HI as [_ [|r r' l l' _ _]]; reflexivity.
Qed.
Definition rs_state (c c' : rscfg) : Prop := rescaled_settings a shifts (rs_d c) (rs_d c') /\ rs_generated c = rs_generated c' /\ rs_sel c = rs_sel c'.
Lemma rs_new_units c c' k k' X X' : rescaled_rs a c c' -> rescaled_given a shifts k k' -> Forall2 point X X' -> alike_res rs_state (dnew (rs_discovery L rngof c k) X) (dnew (rs_discovery L' rngof c' k') X').
Proof.
  intros [E1 [E2 E3]] HK HX. cbn [dnew rs_discovery]. pose proof (init_bounds_units k k' X X' HK HX) as HB. destruct (init_bounds X k) as [b|x], (init_bounds X' k') as [b'|x']; cbn in HB; try contradiction; [|exact HB]. cbn. split; [apply settings_of; assumption|]. auto.
Qed.
Lemma rs_run_units c c' k k' X X' y pool pool' el el' n s d d' : Forall2 point X X' -> Forall2 rrule pool pool' -> paired (relite a shifts L L') el el' -> rs_state d d' ->
  let o := drun (rs_discovery L rngof c k) X y pool el n s d in let o' := drun (rs_discovery L' rngof c' k') X' y pool' el' n s d' in
  alike_res (Forall2 rrule) (fst o) (fst o') /\ fst (snd o) = fst (snd o') /\ rs_state (snd (snd o)) (snd (snd o')).
Proof.
  intros HX HP He HS. pose proof (elite_problem X X' y pool pool' el el' HX HP He) as HD. destruct HS as (S1 & S2 & S3). cbn. split; [|split; [reflexivity|repeat split; try apply S1; assumption]].
  pose proof (rs_units a shifts Ha L L' HU _ _ d d' n HD S1 S2 S3 (rngof (sstream s))) as H. destruct (rs_optimize d _ _ _) as [[o|x] g], (rs_optimize d' _ _ _) as [[o'|x'] g']; try contradiction; apply H.
Qed.

Section Composition.
Context {K : skind}.
Variables (O : optimizer K) (i : ostate O) (cc : ccfg) (mix : mixing) (f : nat -> Q -> nat -> nat -> num).
Hypothesis HO : impartial O.
Lemma att_units rs rs' : Forall2 rrule rs rs' -> map att rs = map att rs'.
Proof. apply map_same. intros r r' H. apply (rr_atts _ _ _ _ _ _ H). Qed.
Lemma crun_units X X' y m pool pool' s (z : comp O * hst K) : Forall2 point X X' -> Forall2 rrule pool pool' ->
  crun (shipped_composition L rngof O i cc mix f) X y m pool s z = crun (shipped_composition L' rngof O i cc mix f) X' y m pool' s z.
Proof.
  intros HX HP. cbn [crun shipped_composition]. assert (HE : same_task (step_env mix f X y m pool) (step_env mix f X' y m pool')).
  { constructor; [apply att_units; exact HP|]. intros bits g. apply (sol_fit_units a shifts Ha L L'); assumption. }
  pose proof (optimize_same L L' _ _ HE O cc (rngof (sstream s)) (fst z) HO (snd z)) as H. destruct (optimize O cc (step_env mix f X y m pool) _ _ _) as [[o|x] g], (optimize O cc (step_env mix f X' y m pool') _ _ _) as [[o'|x'] g']; try contradiction; destruct H as [-> ->]; reflexivity.
Qed.
Variables (G : logger L) (G' : logger L') (RL : lst G -> lst G' -> Prop).
Hypothesis HG : forall X X' y, Forall2 point X X' -> rescaled_logger a shifts L L' X X' y G G' RL.
Notation C := (shipped_composition L rngof O i cc mix f). Notation C' := (shipped_composition L' rngof O i cc mix f).
Notation same_call := (same_call a shifts).
Lemma history (D : discovery L) (D' : discovery L') (RD : dst D -> dst D' -> Prop) :
  (forall X X', Forall2 point X X' -> alike_res RD (dnew D X) (dnew D' X')) ->
  (forall X X' y pool pool' el el' n s d d', Forall2 point X X' -> Forall2 rrule pool pool' -> paired (relite a shifts L L') el el' -> RD d d' ->
    alike_res (Forall2 rrule) (fst (drun D X y pool el n s d)) (fst (drun D' X' y pool' el' n s d')) /\ fst (snd (drun D X y pool el n s d)) = fst (snd (drun D' X' y pool' el' n s d')) /\
    RD (snd (snd (drun D X y pool el n s d))) (snd (snd (drun D' X' y pool' el' n s d')))) ->
  forall calls calls', Forall2 same_call calls calls' -> rescaled_estimator a shifts L L' (after D C G calls) (after D' C' G' calls') /\ paired RL (logs (after D C G calls)) (logs (after D' C' G' calls')).
Proof.
  intros H1 H2 calls calls' HC. unfold after.
  assert (HS : same a shifts L L' D D' C C' G G' RD (@eq (comp O * hst K)) RL (unfitted D C G) (unfitted D' C' G')) by (constructor; [constructor|..]; cbn; auto).
  revert HS. generalize (unfitted D C G), (unfitted D' C' G'). induction HC as [|k k' calls calls' (E1 & E2 & E3 & E4 & E5) HC IH]; intros e e' HS; cbn [fold_left]; [split; [apply (s_est _ _ _ _ _ _ _ _ _ _ _ _ _ _ _ HS)|apply (s_logs _ _ _ _ _ _ _ _ _ _ _ _ _ _ _ HS)]|].
  apply IH. unfold do_call. rewrite <- E1, <- E2, <- E3, <- E5.
  pose proof (fit_units a shifts L L' D D' C C' G G' RD (@eq (comp O * hst K)) RL H1 H2 eq_refl) as HF.
  assert (A1 : forall X X' y m pool pool' s (c c' : comp O * hst K), Forall2 point X X' -> Forall2 rrule pool pool' -> c = c' ->
    fst (crun C X y m pool s c) = fst (crun C' X' y m pool' s c') /\ snd (crun C X y m pool s c) = snd (crun C' X' y m pool' s c')).
  { intros X X' y m pool pool' s c c' HX HP <-. rewrite (crun_units X X' y m pool pool' s c HX HP). auto. }
  specialize (HF A1). assert (A2 : forall c c' : comp O * hst K, c = c' -> cbest C c = cbest C' c') by (intros c c' <-; reflexivity). assert (A3 : forall c c' : comp O * hst K, c = c' -> cpopulation C c = cpopulation C' c') by (intros c c' <-; reflexivity).
  specialize (HF A2 A3 HG (cX k) (cX k') (cy k) E4 (cparams k) (cos k) (cclean k) e e' HS).
  destruct (M_Fit.fit _ _ _ _ _ e) as [[o|x] e1], (M_Fit.fit _ _ _ _ _ e') as [[o'|x'] e1']; try contradiction; apply HF.
Qed.
Lemma es_history c c' k k' calls calls' : rescaled_es a c c' -> rescaled_given a shifts k k' -> Forall2 same_call calls calls' ->
  rescaled_estimator a shifts L L' (after (es_discovery L rngof c k) C G calls) (after (es_discovery L' rngof c' k') C' G' calls') /\
  paired RL (logs (after (es_discovery L rngof c k) C G calls)) (logs (after (es_discovery L' rngof c' k') C' G' calls')).
Proof.
  intros HE HK HC. apply (history (es_discovery L rngof c k) (es_discovery L' rngof c' k') es_state); [intros X X' HX; apply es_new_units; assumption| |exact HC]. intros X X' y pool pool' el el' n s d d' HX HP He HS. apply es_run_units; assumption.
Qed.
Lemma rs_history c c' k k' calls calls' : rescaled_rs a c c' -> rescaled_given a shifts k k' -> Forall2 same_call calls calls' ->
  rescaled_estimator a shifts L L' (after (rs_discovery L rngof c k) C G calls) (after (rs_discovery L' rngof c' k') C' G' calls') /\
  paired RL (logs (after (rs_discovery L rngof c k) C G calls)) (logs (after (rs_discovery L' rngof c' k') C' G' calls')).
Proof.
  intros HE HK HC. apply (history (rs_discovery L rngof c k) (rs_discovery L' rngof c' k') rs_state); [intros X X' HX; apply rs_new_units; assumption| |exact HC]. intros X X' y pool pool' el el' n s d d' HX HP He HS. apply rs_run_units; assumption.
Qed.
End Composition.
Lemma predict_same {D C G D' C' G'} (e : est (L := L) D C G) (e' : est (L := L') D' C' G') X X' g : rescaled_estimator a shifts L L' e e' -> Forall2 point X X' -> M_Fit.predict e X g = M_Fit.predict e' X' g.
Proof.
  intros [F1 F2 F3 F4 F5 F6 F7] HX. unfold M_Fit.predict. rewrite F4. destruct (negb _); [reflexivity|]. unfold bind, lift. rewrite (check_units a shifts X X' HX). destruct (check_X X'); [|reflexivity]. rewrite F3. rewrite ?(same_count a shifts _ _ HX), ?(same_rows a shifts _ _ HX). destruct (is_error e'); [reflexivity|].
  destruct (M_Fit.elitist e) as [[|b]|], (M_Fit.elitist e') as [[|b']|]; cbn in F5; try contradiction; try reflexivity. destruct F5 as (B1 & B2 & B3 & B4). rewrite <- B1, <- B3. apply (predict_units a shifts Ha L L'); assumption.
Qed.

(* ----- the loggers ----- *)
Lemma score_units g b b' X X' y : relite a shifts L L' b b' -> Forall2 point X X' -> elite_score g b X y = elite_score g b' X' y.
Proof. intros (B1 & B2 & B3 & B4) HX. unfold elite_score. rewrite <- B1, <- B3, (predict_units a shifts Ha L L' (M_Fit.emix b) (ebits b) _ _ _ _ false g B2 HX). reflexivity. Qed.
Lemma default_units g X X' y : Forall2 point X X' -> rescaled_logger a shifts L L' X X' y (default_logger L g) (default_logger L' g) (@eq metrics).
Proof.
  intros HX. constructor.
  - reflexivity.
  - intros i pool pool' pop b b' l l' HP HB <-. cbn [literation default_logger]. unfold log_iteration, log_pool.
    rewrite (rmap_eq rrule (fun r => let? t := get_att L r in Ok (M_Rule.fitness t)) (fun r => let? t := get_att L' r in Ok (M_Rule.fitness t)) pool pool'); [|intros r r' Hr; unfold get_att; rewrite (rr_atts _ _ _ _ _ _ Hr); reflexivity|exact HP].
    rewrite (L_List.Forall2_len _ _ _ HP). set (m1 := match pool with [] => _ | _ => _ end). set (m2 := match pool' with [] => _ | _ => _ end). assert (E : m1 = m2) by (unfold m1, m2; destruct HP; reflexivity). rewrite E. clear E m1.
    destruct m2 as [m|x]; [|reflexivity]. cbn [rbind]. destruct pop as [pop|x]; [|reflexivity]. cbn [rbind]. destruct (log_population i pop m) as [m'|x]; [|reflexivity]. cbn [rbind].
    destruct b as [[b|]|x], b' as [[b'|]|x']; cbn in HB; try contradiction; try reflexivity; [|exact HB]. cbn [rbind of_option]. unfold log_elitist. rewrite (score_units g b b' X X' y HB HX). destruct HB as (_ & _ & _ & B4). rewrite B4. destruct (elite_score g b' X' y); reflexivity.
  - intros pool pool' m m' l l' _ _ <-. reflexivity.
Qed.
Lemma stdout_units g X X' y : Forall2 point X X' -> rescaled_logger a shifts L L' X X' y (stdout_logger L g) (stdout_logger L' g) (@eq (list message)).
Proof.
  intros HX. constructor.
  - reflexivity.
  - intros i pool pool' pop b b' l l' HP HB <-. cbn [literation stdout_logger]. destruct b as [[b|]|x], b' as [[b'|]|x']; cbn in HB; try contradiction; try reflexivity; [|exact HB]. cbn [rbind of_option]. rewrite (score_units g b b' X X' y HB HX). destruct HB as (_ & _ & _ & B4). rewrite B4. destruct (elite_score g b' X' y); reflexivity.
  - intros pool pool' m m' l l' _ HM <-. cbn [lfinal stdout_logger]. rewrite (check_units a shifts X X' HX). destruct (check_X X'); [|reflexivity]. cbn [rbind].
    destruct m as [|b], m' as [|b']; cbn in HM; try contradiction; [rewrite ?(same_count a shifts _ _ HX), ?(same_rows a shifts _ _ HX); destruct (r2_score _ _); reflexivity|]. rewrite (score_units g b b' X X' y HM HX). destruct (elite_score g b' X' y); reflexivity.
Qed.
End Ship.
