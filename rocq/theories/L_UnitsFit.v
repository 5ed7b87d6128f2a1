(* The estimator in other units. *)
From Coq Require Import Lia.
From Verif Require Import PyNum PyList PyMon PyRng L_Num L_List M_Matching M_Rule M_RuleGen M_Mixing M_Discovery M_Solution M_Composition M_Fit M_Shipped L_Invariance S_Units L_Units L_UnitsDisc L_UnitsComp L_Tandem.

Lemma check_units a shifts X X' : Forall2 (same_point a shifts) X X' -> check_X X = check_X X'.
Proof.
  intros H. assert (HL : forall n, forallb (fun r => Nat.eqb (length r) n) X = forallb (fun r => Nat.eqb (length r) n) X').
  { intros n. apply (forallb_same (same_point a shifts)); [|exact H]. intros x x' Hx. rewrite (point_len a shifts x x' Hx). reflexivity. }
  destruct H as [|x x' X0 X0' Hx HX]; [reflexivity|]. unfold check_X. rewrite (point_len a shifts x x' Hx) in *. specialize (HL (length x')). unfold row in *. rewrite HL. reflexivity.
Qed.

Section Fit.
Variables (a : Q) (shifts : list Q).
Hypothesis Ha : 0 < a.
Variables L L' : learner.
Hypothesis HU : unitless a shifts L L'.
Notation point := (same_point a shifts). Notation rrule := (rescaled_rule a shifts L L'). Notation rmodel_of := (rescaled_model_of a shifts L L').
Variables (D : discovery L) (D' : discovery L') (C : composition L) (C' : composition L') (G : logger L) (G' : logger L').
Variables (RD : dst D -> dst D' -> Prop) (RC : cst C -> cst C' -> Prop) (RL : lst G -> lst G' -> Prop).
Definition relite (b : elite L) (b' : elite L') : Prop := rmodel_of (Some (Learned b)) (Some (Learned b')).
Hypothesis HDnew : forall X X', Forall2 point X X' -> alike_res RD (dnew D X) (dnew D' X').
Hypothesis HDrun : forall X X' y pool pool' el el' n s d d', Forall2 point X X' -> Forall2 rrule pool pool' -> paired relite el el' -> RD d d' ->
  alike_res (Forall2 rrule) (fst (drun D X y pool el n s d)) (fst (drun D' X' y pool' el' n s d')) /\ fst (snd (drun D X y pool el n s d)) = fst (snd (drun D' X' y pool' el' n s d')) /\
  RD (snd (snd (drun D X y pool el n s d))) (snd (snd (drun D' X' y pool' el' n s d'))).
Hypothesis HCnew : alike_res RC (cnew C) (cnew C').
Hypothesis HCrun : forall X X' y m pool pool' s c c', Forall2 point X X' -> Forall2 rrule pool pool' -> RC c c' ->
  fst (crun C X y m pool s c) = fst (crun C' X' y m pool' s c') /\ RC (snd (crun C X y m pool s c)) (snd (crun C' X' y m pool' s c')).
Hypothesis HCbest : forall c c', RC c c' -> cbest C c = cbest C' c'.
Hypothesis HCpop : forall c c', RC c c' -> cpopulation C c = cpopulation C' c'.
Hypothesis HG : forall X X' y, Forall2 point X X' -> rescaled_logger a shifts L L' X X' y G G' RL.

Record same (e : est D C G) (e' : est D' C' G') : Prop := {
  s_est : rescaled_estimator a shifts L L' e e';
  s_disc : paired RD (disc e) (disc e');
  s_compo : paired RC (compo e) (compo e');
  s_logs : paired RL (logs e) (logs e');
  s_max : max_len e = max_len e' }.
Notation T := (tandem same).
Lemma tan_assign f f' : (forall e e', same e e' -> same (f e) (f' e')) -> T (fun _ _ => True) (assign f) (assign f').
Proof. intros H e e' HS. cbn. auto. Qed.
Ltac fields HS := destruct HS as [[F1 F2 F3 F4 F5 F6 F7] F8 F9 F10 F11].
Ltac asg := apply tan_assign; let HS := fresh in let e1 := fresh in let e2 := fresh in intros e1 e2 HS; fields HS; constructor; [constructor|..]; cbn in *; auto; try (f_equal; intuition congruence); try (split; intuition congruence).
Lemma best_units e e' : same e e' -> rescaled_best a shifts L L' (best e) (best e').
Proof.
  intros HS. fields HS. unfold best, the_compo, rescaled_best. destruct (compo e) as [c|], (compo e') as [c'|]; cbn in F9; try contradiction; [|reflexivity]. cbn [of_option rbind]. rewrite (HCbest _ _ F9). destruct (cbest C' c') as [[s|]|x]; cbn; auto.
Qed.
Lemma best_both e e' : same e e' -> alike_res (paired relite) (best e) (best e').
Proof. intros HS. pose proof (best_units e e' HS) as H. unfold rescaled_best in H. destruct (best e) as [[b|]|x], (best e') as [[b'|]|x']; cbn in *; auto. Qed.
Lemma population_units e e' : same e e' -> population e = population e'.
Proof. intros HS. fields HS. unfold population, the_compo. destruct (compo e) as [c|], (compo e') as [c'|]; cbn in F9; try contradiction; [|reflexivity]. cbn. apply HCpop. exact F9. Qed.
Lemma catch_units m m' : T (fun _ _ => True) m m' -> T eq (catch m) (catch m').
Proof.
  intros H e e' HS. specialize (H e e' HS). unfold catch. destruct (m e) as [[x|x] e1], (m' e') as [[x'|x'] e2]; try contradiction; destruct H as [H1 H2]; [auto|]. subst x'. destruct (python_exn x); [|auto]. split; [|reflexivity].
  fields H1. constructor; [constructor|..]; cbn; auto.
Qed.
Section Data.
Variables (X X' : matrix) (y : targets).
Hypothesis HX : Forall2 point X X'.
Lemma discover_units n : T eq (discover_safely X y n) (discover_safely X' y n).
Proof.
  unfold discover_safely. apply catch_units. destruct (Nat.eqb n 0); [apply tan_raise|]. unfold discover. eapply tan_bind; [apply tan_get|]. intros e e' HS.
  eapply tan_bind; [apply tan_lift, best_both; exact HS|]. intros el el' Hel. eapply tan_bind; [apply tan_lift, both_res, (s_disc _ _ HS)|]. intros d d' Hd.
  rewrite <- (proj1 (re_seeds _ _ _ _ _ _ (s_est _ _ HS))), <- (re_step _ _ _ _ _ _ (s_est _ _ HS)). eapply tan_bind with (R := eq); [apply tan_lift; destruct (nth_error _ _); reflexivity|]. intros s s' <-.
  destruct (HDrun X X' y _ _ el el' n s d d' HX (re_pool _ _ _ _ _ _ (s_est _ _ HS)) Hel Hd) as (H1 & H2 & H3). destruct (drun D _ _ _ _ _ _ _) as [r [k d1]], (drun D' _ _ _ _ _ _ _) as [r' [k' d1']]. cbn [fst snd] in H1, H2, H3. subst k'.
  pose proof (s_compo _ _ HS) as Hc. pose proof (re_seeds _ _ _ _ _ _ (s_est _ _ HS)) as Hs. pose proof (re_pool _ _ _ _ _ _ (s_est _ _ HS)) as Hp.
  eapply tan_bind; [asg|]. intros _ _ _. eapply tan_bind; [asg|]. intros _ _ _. eapply tan_bind; [apply tan_lift; exact H1|]. intros new new' Hn. asg. apply Forall2_app; assumption.
Qed.
Lemma compose_units : T eq (compose_safely X y) (compose_safely X' y).
Proof.
  unfold compose_safely. apply catch_units. unfold compose_step. eapply tan_bind; [apply tan_get|]. intros e e' HS. eapply tan_bind; [apply tan_lift, both_res, (s_compo _ _ HS)|]. intros c c' Hc.
  rewrite <- (proj2 (re_seeds _ _ _ _ _ _ (s_est _ _ HS))), <- (re_step _ _ _ _ _ _ (s_est _ _ HS)), <- (s_max _ _ HS). eapply tan_bind with (R := eq); [apply tan_lift; destruct (nth_error _ _); reflexivity|]. intros s s' <-.
  destruct (HCrun X X' y (max_len e) _ _ s c c' HX (re_pool _ _ _ _ _ _ (s_est _ _ HS)) Hc) as (H1 & H2). destruct (crun C _ _ _ _ _ _) as [r c1], (crun C' _ _ _ _ _ _) as [r' c1']. cbn [fst snd] in H1, H2. subst r'. pose proof (s_disc _ _ HS) as Hd.
  eapply tan_bind; [asg|]. intros _ _ _. apply tan_lift. destruct r; cbn; auto.
Qed.
Lemma stopping_units p : T eq (check_early_stopping p) (check_early_stopping p).
Proof.
  unfold check_early_stopping. destruct (Z.ltb 0 (patience p)); [|apply tan_ret; reflexivity]. eapply tan_bind; [apply tan_get|]. intros e e' HS. eapply tan_bind; [apply tan_lift, best_both; exact HS|]. intros el el' Hel.
  eapply tan_bind; [apply tan_lift, both_res; exact Hel|]. intros b b' (_ & _ & _ & Hb). destruct (re_stop _ _ _ _ _ _ (s_est _ _ HS)) as [E1 E2]. cbv zeta. rewrite Hb, E1, E2. destruct (nlt _ _).
  - eapply tan_bind; [asg|]. intros _ _ _. apply tan_ret. reflexivity.
  - eapply tan_bind; [asg|]. intros _ _ _. apply tan_ret. reflexivity.
Qed.
Lemma loop_units p steps : T eq (main_loop p X y steps) (main_loop p X' y steps).
Proof.
  induction steps as [|i steps IH]; cbn [main_loop]; [apply tan_ret; reflexivity|]. eapply tan_bind; [asg|]. intros _ _ _. eapply tan_bind; [apply discover_units|]. intros f f' <-. destruct f; [apply tan_ret; reflexivity|].
  eapply tan_bind; [apply compose_units|]. intros f f' <-. destruct f; [apply tan_ret; reflexivity|]. eapply tan_bind; [apply tan_get|]. intros e e' HS. eapply tan_bind; [apply tan_lift, both_res, (s_logs _ _ HS)|]. intros l l' Hl.
  eapply tan_bind.
  - apply tan_lift. rewrite <- (re_step _ _ _ _ _ _ (s_est _ _ HS)), <- (population_units _ _ HS). apply (rl_iteration _ _ _ _ _ _ _ _ _ _ (HG X X' y HX)); [apply (re_pool _ _ _ _ _ _ (s_est _ _ HS))|apply best_units; exact HS|exact Hl].
  - intros l1 l1' Hl1. eapply tan_bind; [asg|]. intros _ _ _. eapply tan_bind; [apply stopping_units|]. intros s s' <-. destruct s; [apply tan_ret; reflexivity|exact IH].
Qed.
Lemma cleanup_units : T (fun _ _ => True) cleanup cleanup.
Proof.
  unfold cleanup. eapply tan_bind; [apply tan_get|]. intros e e' HS. eapply tan_bind with (R := fun m m' => rmodel_of (Some m) (Some m')).
  - apply tan_lift. pose proof (re_elitist _ _ _ _ _ _ (s_est _ _ HS)) as H. destruct (M_Fit.elitist e) as [m|], (M_Fit.elitist e') as [m'|]; cbn [of_option alike_res]; try reflexivity; [exact H|destruct m; contradiction|contradiction].
  - intros m m' Hm. eapply tan_bind with (R := fun _ _ => True).
    + destruct m as [|b], m' as [|b']; cbn in Hm; try contradiction; [asg|]. destruct Hm as (B1 & B2 & B3 & B4). rewrite <- B1, <- B3, <- B4. eapply tan_bind; [apply tan_lift, (sub_units a shifts L L'); exact B2|]. intros sub sub' Hs.
      eapply tan_bind; [asg|]. intros _ _ _. asg. rewrite (L_List.Forall2_len _ _ _ Hs). auto.
    + intros _ _ _. eapply tan_bind; [apply tan_get|]. intros e1 e1' HS1. pose proof (s_disc _ _ HS1) as H1. pose proof (s_compo _ _ HS1) as H2. eapply tan_bind; [apply tan_lift, both_res; exact H1|]. intros _ _ _. eapply tan_bind; [asg|]. intros _ _ _.
      eapply tan_bind; [apply tan_lift, both_res; exact H2|]. intros _ _ _. asg.
Qed.
Lemma fit_units p os clean : T (fun _ _ => True) (M_Fit.fit p os clean X y) (M_Fit.fit p os clean X' y).
Proof.
  unfold M_Fit.fit. eapply tan_bind with (R := fun _ _ => True).
  - unfold prepare. eapply tan_bind; [asg|]. intros _ _ _. eapply tan_bind; [asg|]. intros _ _ _. eapply tan_bind; [asg|]. intros _ _ _. eapply tan_bind; [asg|]. intros _ _ _.
    eapply tan_bind with (R := eq).
    { apply tan_lift. unfold check_X_y. rewrite (check_units a shifts X X' HX), ?(same_count a shifts _ _ HX), ?(same_rows a shifts _ _ HX). destruct (check_X X'); cbn [rbind]; [destruct (Nat.eqb _ _)|]; reflexivity. }
    intros _ _ _. eapply tan_bind with (R := eq); [apply tan_lift; destruct (check_random_state _); reflexivity|]. intros _ _ _. eapply tan_bind with (R := eq); [apply tan_lift; destruct (seed_sequence _ _); reflexivity|]. intros s s' <-. cbv zeta.
    eapply tan_bind; [asg|]. intros _ _ _. eapply tan_bind; [asg|]. intros _ _ _. eapply tan_bind; [apply tan_lift, HDnew; exact HX|]. intros d d' Hd. eapply tan_bind; [apply tan_lift, HCnew|]. intros c c' Hc.
    eapply tan_bind; [asg|]. intros _ _ _. eapply tan_bind; [asg|]. intros _ _ _. eapply tan_bind; [apply tan_lift, (rl_init _ _ _ _ _ _ _ _ _ _ (HG X X' y HX))|]. intros l l' Hl. asg.
  - intros _ _ _. eapply tan_bind with (R := eq); [destruct (Nat.ltb 0 (n_initial p)); [apply discover_units|apply tan_ret; reflexivity]|]. intros f f' <-. destruct f; [apply tan_ret; exact I|].
    eapply tan_bind; [apply loop_units|]. intros f f' <-. destruct f; [apply tan_ret; exact I|]. unfold finish. eapply tan_bind; [apply tan_get|]. intros e e' HS. eapply tan_bind; [apply tan_lift, best_both; exact HS|]. intros el el' Hel.
    eapply tan_bind; [apply tan_lift, both_res; exact Hel|]. intros b b' Hb. eapply tan_bind; [asg|]. intros _ _ _. eapply tan_bind; [asg|]. intros _ _ _. eapply tan_bind; [apply tan_get|]. intros e1 e1' HS1.
    eapply tan_bind; [apply tan_lift, both_res, (s_logs _ _ HS1)|]. intros l l' Hl. eapply tan_bind; [apply tan_lift, (rl_final _ _ _ _ _ _ _ _ _ _ (HG X X' y HX)); [apply (re_pool _ _ _ _ _ _ (s_est _ _ HS1))|exact Hb|exact Hl]|]. intros l1 l1' Hl1.
    eapply tan_bind; [asg|]. intros _ _ _. destruct clean; [apply cleanup_units|apply tan_ret; exact I].
Qed.
End Data.
End Fit.
