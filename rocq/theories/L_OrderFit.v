(* Two fits whose rules and measurements are related. *)
From Coq Require Import Lia.
From Verif Require Import PyNum PyList PyMon PyRng L_Num L_List M_Matching M_Rule M_RuleGen M_Mixing M_Discovery M_Solution M_Composition M_Fit M_Shipped L_Invariance S_Units L_Units L_Tandem S_Order L_OrderComp.

Section Fit.
Variables (L L' : learner) (rr : rule L -> rule L' -> Prop) (RA : satts -> satts -> Prop) (FM : mixing -> mixing -> Prop).
Notation re := (like_elite rr RA FM). Notation rm := (like_model rr RA FM).
Variables (X X' : matrix) (y y' : targets).
Variables (D : discovery L) (D' : discovery L') (C : composition L) (C' : composition L') (G : logger L) (G' : logger L').
Variables (RD : dst D -> dst D' -> Prop) (RC : cst C -> cst C' -> Prop) (RL : lst G -> lst G' -> Prop).
Definition ranked_solution (s s' : solution) : Prop := sbits s' = sbits s /\ FM (smix s) (smix s') /\ RA (smeasured s) (smeasured s').
Hypothesis Hcheck : check_X_y X y = check_X_y X' y'.
Hypothesis HDnew : alike_res RD (dnew D X) (dnew D' X').
Hypothesis HDrun : forall pool pool' el el' n s d d', Forall2 rr pool pool' -> paired re el el' -> RD d d' ->
  alike_res (Forall2 rr) (fst (drun D X y pool el n s d)) (fst (drun D' X' y' pool' el' n s d')) /\ fst (snd (drun D X y pool el n s d)) = fst (snd (drun D' X' y' pool' el' n s d')) /\
  RD (snd (snd (drun D X y pool el n s d))) (snd (snd (drun D' X' y' pool' el' n s d'))).
Hypothesis HCnew : alike_res RC (cnew C) (cnew C').
Hypothesis HCrun : forall m pool pool' s c c', Forall2 rr pool pool' -> RC c c' ->
  fst (crun C X y m pool s c) = fst (crun C' X' y' m pool' s c') /\ RC (snd (crun C X y m pool s c)) (snd (crun C' X' y' m pool' s c')).
Hypothesis HCbest : forall c c', RC c c' -> alike_res (paired ranked_solution) (cbest C c) (cbest C' c').
Hypothesis HCpop : forall c c', RC c c' -> alike_res (Forall2 (RA)) (cpopulation C c) (cpopulation C' c').
Hypothesis HG : like_logger rr RA FM X y X' y' G G' RL.

Record same (e : est D C G) (e' : est D' C' G') : Prop := {
  s_est : like_estimator rr RA FM e e';
  s_disc : paired RD (disc e) (disc e');
  s_compo : paired RC (compo e) (compo e');
  s_logs : paired RL (logs e) (logs e');
  s_max : max_len e = max_len e' }.
Notation T := (tandem same).
Lemma sub_like bits p p' : Forall2 rr p p' -> alike_res (Forall2 rr) (subpopulation L bits p) (subpopulation L' bits p').
Proof. intros H. unfold subpopulation. rewrite (L_List.Forall2_len _ _ _ H). destruct (Nat.eqb _ _); cbn; [apply compress_same; exact H|reflexivity]. Qed.
Lemma tan_assign f f' : (forall e e', same e e' -> same (f e) (f' e')) -> T (fun _ _ => True) (assign f) (assign f').
Proof. intros H e e' HS. cbn. auto. Qed.
Ltac fields HS := destruct HS as [[F1 F2 F3 F4 F5] F8 F9 F10 F11].
Ltac asg := apply tan_assign; let HS := fresh in let e1 := fresh in let e2 := fresh in intros e1 e2 HS; fields HS; constructor; [constructor|..]; cbn in *; auto; try (f_equal; intuition congruence); try (repeat split; intuition congruence).
Lemma best_ranked e e' : same e e' -> alike_res (paired re) (best e) (best e').
Proof.
  intros HS. fields HS. unfold best, the_compo. destruct (compo e) as [c|], (compo e') as [c'|]; cbn in F9; try contradiction; [|reflexivity]. cbn [of_option rbind]. specialize (HCbest _ _ F9).
  destruct (cbest C c) as [[s|]|x], (cbest C' c') as [[s'|]|x']; cbn in *; try contradiction; auto. destruct HCbest as (E1 & E2 & E3). unfold like_elite. cbn. auto.
Qed.
Lemma population_ranked e e' : same e e' -> alike_res (Forall2 (RA)) (population e) (population e').
Proof. intros HS. fields HS. unfold population, the_compo. destruct (compo e) as [c|], (compo e') as [c'|]; cbn in F9; try contradiction; [|reflexivity]. cbn. apply HCpop. exact F9. Qed.
Lemma catch_ranked m m' : T (fun _ _ => True) m m' -> T eq (catch m) (catch m').
Proof.
  intros H e e' HS. specialize (H e e' HS). unfold catch. destruct (m e) as [[x|x] e1], (m' e') as [[x'|x'] e2]; try contradiction; destruct H as [H1 H2]; [auto|]. subst x'. destruct (python_exn x); [|auto]. split; [|reflexivity].
  fields H1. constructor; [constructor|..]; cbn; auto.
Qed.
Lemma discover_ranked n : T eq (discover_safely X y n) (discover_safely X' y' n).
Proof.
  unfold discover_safely. apply catch_ranked. destruct (Nat.eqb n 0); [apply tan_raise|]. unfold discover. eapply tan_bind; [apply tan_get|]. intros e e' HS.
  eapply tan_bind; [apply tan_lift, best_ranked; exact HS|]. intros el el' Hel. eapply tan_bind; [apply tan_lift, both_res, (s_disc _ _ HS)|]. intros d d' Hd.
  rewrite (proj1 (rx_seeds _ _ _ _ _ (s_est _ _ HS))), (proj1 (rx_step _ _ _ _ _ (s_est _ _ HS))). eapply tan_bind with (R := eq); [apply tan_lift; destruct (nth_error _ _); reflexivity|]. intros s s' <-.
  destruct (HDrun _ _ el el' n s d d' (rx_pool _ _ _ _ _ (s_est _ _ HS)) Hel Hd) as (H3 & H4 & H5). destruct (drun D _ _ _ _ _ _ _) as [r [k d1]], (drun D' _ _ _ _ _ _ _) as [r' [k' d1']]. cbn [fst snd] in H3, H4, H5. subst k'.
  pose proof (s_compo _ _ HS) as Hc. pose proof (rx_seeds _ _ _ _ _ (s_est _ _ HS)) as Hs. pose proof (rx_pool _ _ _ _ _ (s_est _ _ HS)) as Hp.
  eapply tan_bind; [asg|]. intros _ _ _. eapply tan_bind; [asg|]. intros _ _ _. eapply tan_bind; [apply tan_lift; exact H3|]. intros new new' Hn. asg. apply Forall2_app; assumption.
Qed.
Lemma compose_ranked : T eq (compose_safely X y) (compose_safely X' y').
Proof.
  unfold compose_safely. apply catch_ranked. unfold compose_step. eapply tan_bind; [apply tan_get|]. intros e e' HS. eapply tan_bind; [apply tan_lift, both_res, (s_compo _ _ HS)|]. intros c c' Hc.
  rewrite (proj2 (rx_seeds _ _ _ _ _ (s_est _ _ HS))), (proj1 (rx_step _ _ _ _ _ (s_est _ _ HS))), <- (s_max _ _ HS). eapply tan_bind with (R := eq); [apply tan_lift; destruct (nth_error _ _); reflexivity|]. intros s s' <-.
  destruct (HCrun (max_len e) _ _ s c c' (rx_pool _ _ _ _ _ (s_est _ _ HS)) Hc) as (H1 & H2). destruct (crun C _ _ _ _ _ _) as [r c1], (crun C' _ _ _ _ _ _) as [r' c1']. cbn [fst snd] in H1, H2. subst r'. pose proof (s_disc _ _ HS) as Hd.
  eapply tan_bind; [asg|]. intros _ _ _. apply tan_lift. destruct r; cbn; auto.
Qed.
Lemma stop_ranked p : (patience p <= 0)%Z \/ stops_alike RA -> T eq (check_early_stopping p) (check_early_stopping p).
Proof.
  intros HP. unfold check_early_stopping. destruct (Z.ltb_spec 0 (patience p)) as [E|E]; [|apply tan_ret; reflexivity]. destruct HP as [HP|HP]; [lia|].
  eapply tan_bind; [apply tan_get|]. intros e e' HS. eapply tan_bind; [apply tan_lift, best_ranked; exact HS|]. intros el el' Hel. eapply tan_bind; [apply tan_lift, both_res; exact Hel|]. intros b b' Hb. cbv zeta.
  destruct (rx_step _ _ _ _ _ (s_est _ _ HS)) as (_ & Ec & Ep). rewrite Ec, Ep, (HP _ _ (Fin (delta p)) (previous e) (proj2 (proj2 (proj2 Hb)))). destruct (nlt _ _); (eapply tan_bind; [asg|]; intros _ _ _; apply tan_ret; reflexivity).
Qed.
Lemma loop_ranked p steps : (patience p <= 0)%Z \/ stops_alike RA -> T eq (main_loop p X y steps) (main_loop p X' y' steps).
Proof.
  intros HP. induction steps as [|i steps IH]; cbn [main_loop]; [apply tan_ret; reflexivity|]. eapply tan_bind; [asg|]. intros _ _ _. eapply tan_bind; [apply discover_ranked|]. intros f f' <-. destruct f; [apply tan_ret; reflexivity|].
  eapply tan_bind; [apply compose_ranked|]. intros f f' <-. destruct f; [apply tan_ret; reflexivity|]. eapply tan_bind; [apply tan_get|]. intros e e' HS. eapply tan_bind; [apply tan_lift, both_res, (s_logs _ _ HS)|]. intros l l' Hl.
  eapply tan_bind.
  - apply tan_lift. rewrite (proj1 (rx_step _ _ _ _ _ (s_est _ _ HS))). apply (rg_iteration _ _ _ _ _ _ _ _ _ _ HG); [apply (rx_pool _ _ _ _ _ (s_est _ _ HS))|apply population_ranked; exact HS|apply best_ranked; exact HS|exact Hl].
  - intros l1 l1' Hl1. eapply tan_bind; [asg|]. intros _ _ _. eapply tan_bind with (R := eq).
    + apply stop_ranked. exact HP.
    + intros s s' <-. destruct s; [apply tan_ret; reflexivity|exact IH].
Qed.
Lemma cleanup_ranked : T (fun _ _ => True) cleanup cleanup.
Proof.
  unfold cleanup. eapply tan_bind; [apply tan_get|]. intros e e' HS. eapply tan_bind with (R := rm).
  - apply tan_lift, both_res, (rx_elitist _ _ _ _ _ (s_est _ _ HS)).
  - intros m m' Hm. eapply tan_bind with (R := fun _ _ => True).
    + destruct m as [|b], m' as [|b']; cbn in Hm; try contradiction; [asg|]. destruct Hm as (B1 & B2 & B3 & B4). rewrite B1. eapply tan_bind; [apply tan_lift, sub_like; exact B3|]. intros sub sub' Hs.
      eapply tan_bind; [asg|]. intros _ _ _. asg. unfold like_elite. cbn. rewrite (L_List.Forall2_len _ _ _ Hs). auto.
    + intros _ _ _. eapply tan_bind; [apply tan_get|]. intros e1 e1' HS1. pose proof (s_disc _ _ HS1) as H1. pose proof (s_compo _ _ HS1) as H2. eapply tan_bind; [apply tan_lift, both_res; exact H1|]. intros _ _ _. eapply tan_bind; [asg|]. intros _ _ _.
      eapply tan_bind; [apply tan_lift, both_res; exact H2|]. intros _ _ _. asg.
Qed.
Lemma fit_ranked p os clean : (patience p <= 0)%Z \/ stops_alike RA -> T (fun _ _ => True) (M_Fit.fit p os clean X y) (M_Fit.fit p os clean X' y').
Proof.
  intros HP. unfold M_Fit.fit. eapply tan_bind with (R := fun _ _ => True).
  - unfold prepare. eapply tan_bind; [asg|]. intros _ _ _. eapply tan_bind; [asg|]. intros _ _ _. eapply tan_bind; [asg|]. intros _ _ _. eapply tan_bind; [asg|]. intros _ _ _.
    rewrite Hcheck. eapply tan_bind with (R := eq); [apply tan_value|]. intros _ _ _. eapply tan_bind with (R := eq); [apply tan_value|]. intros _ _ _. eapply tan_bind with (R := eq); [apply tan_value|]. intros s s' <-. cbv zeta.
    eapply tan_bind; [asg|]. intros _ _ _. eapply tan_bind; [asg|]. intros _ _ _. eapply tan_bind; [apply tan_lift, HDnew|]. intros d d' Hd. eapply tan_bind; [apply tan_lift, HCnew|]. intros c c' Hc.
    eapply tan_bind; [asg|]. intros _ _ _. eapply tan_bind; [asg|]. intros _ _ _. eapply tan_bind; [apply tan_lift, (rg_init _ _ _ _ _ _ _ _ _ _ HG)|]. intros l l' Hl. asg.
  - intros _ _ _. eapply tan_bind with (R := eq); [destruct (Nat.ltb 0 (n_initial p)); [apply discover_ranked|apply tan_ret; reflexivity]|]. intros f f' <-. destruct f; [apply tan_ret; exact I|].
    eapply tan_bind; [apply loop_ranked; exact HP|]. intros f f' <-. destruct f; [apply tan_ret; exact I|]. unfold finish. eapply tan_bind; [apply tan_get|]. intros e e' HS. eapply tan_bind; [apply tan_lift, best_ranked; exact HS|]. intros el el' Hel.
    eapply tan_bind; [apply tan_lift, both_res; exact Hel|]. intros b b' Hb. eapply tan_bind; [asg|]. intros _ _ _. eapply tan_bind; [asg|]. intros _ _ _. eapply tan_bind; [apply tan_get|]. intros e1 e1' HS1.
    eapply tan_bind; [apply tan_lift, both_res, (s_logs _ _ HS1)|]. intros l l' Hl. eapply tan_bind; [apply tan_lift, (rg_final _ _ _ _ _ _ _ _ _ _ HG); [apply (rx_pool _ _ _ _ _ (s_est _ _ HS1))|exact Hb|exact Hl]|]. intros l1 l1' Hl1.
    eapply tan_bind; [asg|]. intros _ _ _. destruct clean; [apply cleanup_ranked|apply tan_ret; exact I].
Qed.
End Fit.
