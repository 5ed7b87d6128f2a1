(* The logger during a call of fit. *)
From Coq Require Import String Lia.
From Verif Require Import PyNum PyList PyMon PyRng PyStat L_Num L_List M_Matching M_Rule M_Mixing M_Fit S_Fit L_Fit L_FitProps M_Logging S_Logging L_LogStats.

(* ----- one call of log_iteration ----- *)
Ltac not_stat := cbn; intros HK; repeat (destruct HK as [HK|HK]; [discriminate|]); destruct HK.
Ltac not_stat_step H := let HK := fresh "HK" in cbn; intros HK; repeat (destruct HK as [HK|HK]; [apply H; rewrite <- HK; reflexivity|]); destruct HK.
Lemma iteration_logged (L : learner) g X y step (pool : list (rule L)) pop b m m' :
  log_iteration g X y step pool pop b m = Ok m' ->
  exists pop0 b0 s, pop = Ok pop0 /\ b = Ok (Some b0) /\ elite_score g b0 X y = Ok s /\
    logged m' ("pool_size"%string, step) = Some (Fin (qofnat (length pool))) /\
    logged m' ("population_size"%string, step) = Some (Fin (qofnat (length pop0))) /\
    logged m' ("elitist_fitness"%string, step) = Some (sfitness (eatt b0)) /\
    logged m' ("elitist_error"%string, step) = Some (Fin (serror (eatt b0))) /\
    logged m' ("elitist_complexity"%string, step) = Some (Fin (qofnat (scomplexity (eatt b0)))) /\
    logged m' ("training_score"%string, step) = Some s /\
    forall k, snd k <> step -> logged m' k = logged m k.
Proof.
  unfold log_iteration. intros H. destruct (log_pool step pool m) as [m1|] eqn:E1; cbn [rbind] in H; [|discriminate]. destruct pop as [pop0|]; cbn [rbind] in H; [|discriminate].
  destruct (log_population step pop0 m1) as [m2|] eqn:E2; cbn [rbind] in H; [|discriminate]. destruct b as [[b0|]|]; cbn [rbind of_option] in H; try discriminate.
  unfold log_elitist in H. destruct (elite_score g b0 X y) as [s|] eqn:E3; cbn [rbind] in H; [|discriminate]. injection H as <-.
  assert (P1 : logged m1 ("pool_size"%string, step) = Some (Fin (qofnat (length pool))) /\ forall k, snd k <> step -> logged m1 k = logged m k).
  { unfold log_pool in E1. destruct pool as [|r pool].
    - injection E1 as <-. split; [apply logged_same|]. intros k Hk. apply logged_other. intros <-. apply Hk. reflexivity.
    - destruct (rmap _ (r :: pool)) as [fs|]; cbn [rbind] in E1; [|discriminate]. apply log_stats_values in E1. destruct E1 as (? & ? & ? & ? & ? & ? & ? & _ & _ & _ & _ & _ & _ & _ & _ & _ & _ & _ & _ & _ & _ & _ & HO). split.
      + rewrite HO by not_stat. apply logged_same.
      + intros k Hk. rewrite HO by (not_stat_step Hk). apply logged_other. intros <-. apply Hk. reflexivity. }
  assert (P2 : logged m2 ("pool_size"%string, step) = logged m1 ("pool_size"%string, step) /\ logged m2 ("population_size"%string, step) = Some (Fin (qofnat (length pop0))) /\ forall k, snd k <> step -> logged m2 k = logged m1 k).
  { unfold log_population in E2. destruct (log_stats step "population_fitness" _ _) as [n1|] eqn:F1; cbn [rbind] in E2; [|discriminate].
    destruct (log_stats step "population_error" _ n1) as [n2|] eqn:F2; cbn [rbind] in E2; [|discriminate].
    apply log_stats_values in F1. destruct F1 as (? & ? & ? & ? & ? & ? & ? & _ & _ & _ & _ & _ & _ & _ & _ & _ & _ & _ & _ & _ & _ & _ & H1).
    apply log_stats_values in F2. destruct F2 as (? & ? & ? & ? & ? & ? & ? & _ & _ & _ & _ & _ & _ & _ & _ & _ & _ & _ & _ & _ & _ & _ & H2).
    apply log_stats_values in E2. destruct E2 as (? & ? & ? & ? & ? & ? & ? & _ & _ & _ & _ & _ & _ & _ & _ & _ & _ & _ & _ & _ & _ & _ & H3).
    split; [|split].
    - rewrite H3 by not_stat. rewrite H2 by not_stat. rewrite H1 by not_stat. apply logged_other. discriminate.
    - rewrite H3 by not_stat. rewrite H2 by not_stat. rewrite H1 by not_stat. apply logged_same.
    - intros k Hk. rewrite H3 by (not_stat_step Hk). rewrite H2 by (not_stat_step Hk). rewrite H1 by (not_stat_step Hk). apply logged_other. intros <-. apply Hk. reflexivity. }
  destruct P1 as [P1a P1b], P2 as (P2a & P2b & P2c). exists pop0, b0, s. split; [reflexivity|]. split; [reflexivity|]. split; [exact E3|].
  split; [rewrite !logged_other by discriminate; congruence|]. split; [rewrite !logged_other by discriminate; exact P2b|].
  split; [rewrite !logged_other by discriminate; apply logged_same|]. split; [rewrite !logged_other by discriminate; apply logged_same|].
  split; [rewrite !logged_other by discriminate; apply logged_same|]. split; [apply logged_same|].
  intros k Hk. rewrite !logged_other by (intros <-; apply Hk; reflexivity). rewrite P2c, P1b by exact Hk. reflexivity.
Qed.

(* ----- the calls during a fit ----- *)
Section Calls.
Variable L : learner.
Variables (D : discovery L) (C : composition L) (G : logger L) (p : params) (X : matrix) (y : targets).
Notation RD := (recorded_d D). Notation RC := (recorded_c C). Notation est := (est RD RC G).
Variable l0 : lst G.
(* one log entry for each composition step so far *)
Definition intime (e : est) : Prop :=
  exists c l, compo e = Some c /\ logs e = Some l /\ logged_steps G X y 0 (snd c) l0 l.

Lemma logged_snoc k cs l l1 c l2 : logged_steps G X y k cs l l1 ->
  literation G X y (k + length cs) (c_pool c) (c_pops c) (let? s := c_best c in Ok (option_map (with_pool (c_pool c)) s)) l1 = Ok l2 ->
  logged_steps G X y k (cs ++ [c]) l l2.
Proof.
  induction 1 as [k l|k c' cs l la lb HA HB IH]; cbn [app length]; intros H.
  - rewrite Nat.add_0_r in H. econstructor; [exact H|constructor].
  - econstructor; [exact HA|]. apply IH. replace (S k + length cs)%nat with (k + S (length cs))%nat by lia. exact H.
Qed.
Lemma discover_intime n e e' : intime e -> discover_safely X y n e = (Ok false, e') -> intime e' /\ compo e' = compo e /\ step e' = step e.
Proof.
  intros (c & l & Hc & Hl & HS) H. unfold discover_safely, catch in H. destruct (Nat.eqb n 0) eqn:EN; [cbn in H; discriminate|].
  destruct (discover X y n e) as [[u|x] e1] eqn:ED; [|destruct (python_exn x); discriminate]. injection H as <-.
  unfold discover, bind, lift, get, assign, the_disc, best, the_compo in ED. rewrite Hc in ED. cbn [of_option rbind] in ED.
  destruct (cbest RC c) as [el|x] eqn:EB; [|discriminate]. cbn [rbind] in ED. destruct (disc e) as [d|]; [|discriminate]. cbn [of_option] in ED.
  destruct (nth_error (dseeds e) (step e)) as [s|]; [|discriminate]. cbn [of_option] in ED.
  destruct (drun RD X y (pool e) (option_map (with_pool (pool e)) el) n s d) as [r [k d']] eqn:ER.
  destruct r as [new|x]; [|discriminate]. injection ED as _ <-. split; [exists c, l; auto|]. split; [cbn; symmetry; exact Hc|reflexivity].
Qed.
Lemma compose_intime e e' : intime e -> compose_safely X y e = (Ok false, e') ->
  exists c c' cl l, compo e = Some c /\ compo e' = Some c' /\ snd c' = snd c ++ [cl] /\ logs e' = Some l /\ logged_steps G X y 0 (snd c) l0 l /\
    step e' = step e /\ pool e' = c_pool cl /\ population e' = c_pops cl /\ best e' = (let? s := c_best cl in Ok (option_map (with_pool (c_pool cl)) s)).
Proof.
  intros (c & l & Hc & Hl & HS) H. unfold compose_safely, catch in H.
  destruct (compose_step X y e) as [[u|x] e1] eqn:ED; [|destruct (python_exn x); discriminate]. injection H as <-.
  unfold compose_step, bind, lift, get, assign, the_compo in ED. rewrite Hc in ED. cbn [of_option] in ED.
  destruct (nth_error (cseeds e) (step e)) as [s|]; [|discriminate]. cbn [of_option] in ED. cbn [crun recorded_c] in ED.
  destruct (crun C X y (max_len e) (pool e) s (fst c)) as [r c'] eqn:ER. destruct r as [[]|x]; [|discriminate]. injection ED as _ <-.
  exists c, (c', snd c ++ [mkCcall (pool e) (max_len e) s (Ok tt) (cbest C c') (cpopulation C c')]), (mkCcall (pool e) (max_len e) s (Ok tt) (cbest C c') (cpopulation C c')), l.
  split; [exact Hc|]. split; [reflexivity|]. split; [reflexivity|]. split; [exact Hl|]. split; [exact HS|]. split; [reflexivity|]. split; [reflexivity|]. split; reflexivity.
Qed.
Lemma check_intime e b e' : intime e -> check_early_stopping p e = (Ok b, e') -> intime e' /\ compo e' = compo e.
Proof.
  intros H E. unfold check_early_stopping in E. destruct (Z.ltb 0 (patience p)); [|injection E as _ <-; auto].
  unfold bind, lift, get, assign in E. destruct (best e) as [el|x]; [|discriminate]. destruct (of_option AttributeError el) as [b0|x]; [|discriminate].
  destruct (nlt _ _); injection E as _ <-; auto.
Qed.
Lemma loop_intime : forall n k e e', intime e -> length (ccalls e) = k -> main_loop p X y (seq k n) e = (Ok false, e') -> intime e'.
Proof.
  induction n as [|n IH]; intros k e e' H HK E; cbn [seq main_loop] in E; [injection E as <-; exact H|].
  unfold bind at 1 in E. unfold assign at 1 in E. assert (H1 : intime (set_step k e)) by exact H. assert (HK1 : length (ccalls (set_step k e)) = k) by exact HK.
  assert (HSt : step (set_step k e) = k) by reflexivity. revert H1 HK1 HSt E. generalize (set_step k e). clear e H HK. intros e H HK HSt E.
  unfold bind at 1 in E. destruct (discover_safely X y (n_rules p) e) as [[[|]|x] e1] eqn:E1; try discriminate.
  apply discover_intime in E1 as (H1 & HC1 & HS1); [|exact H]. unfold bind at 1 in E. destruct (compose_safely X y e1) as [[[|]|x] e2] eqn:E2; try discriminate.
  apply compose_intime in E2; [|exact H1]. destruct E2 as (c & c' & cl & l & A1 & A2 & A3 & A4 & A5 & A6 & A7 & A8 & A9).
  unfold bind at 1, get in E. unfold bind at 1, lift at 1 in E. unfold the_logs in E. rewrite A4 in E. cbn [of_option] in E. unfold bind at 1, lift at 1 in E.
  destruct (literation G X y (step e2) (pool e2) (population e2) (best e2) l) as [l'|x] eqn:EL; [|discriminate].
  assert (HLc : length (snd c) = k). { unfold ccalls in HK. rewrite <- HC1, A1 in HK. exact HK. }
  rewrite A6, HS1, HSt, A7, A8, A9 in EL. rewrite <- HLc in EL.
  unfold bind at 1, assign at 1 in E. set (e3 := set_logs (Some l') e2) in *.
  assert (H3 : intime e3). { exists c', l'. split; [exact A2|]. split; [reflexivity|]. rewrite A3. apply (logged_snoc 0 (snd c) l0 l); [exact A5|exact EL]. }
  assert (HK3 : length (ccalls e3) = S k). { unfold ccalls. cbn. rewrite A2, A3, app_length, HLc. cbn. lia. }
  clearbody e3. unfold bind at 1 in E. destruct (check_early_stopping p e3) as [[b|x] e4] eqn:E4; [|discriminate]. apply check_intime in E4 as [H4 HC4]; [|exact H3].
  destruct b; [injection E as <-; exact H4|]. apply (IH (S k) e4 e' H4); [|exact E]. unfold ccalls in *. rewrite HC4. exact HK3.
Qed.
End Calls.

Lemma fit_logged (L : learner) (D : discovery L) (C : composition L) (G : logger L) p os X y (e e' : est (recorded_d D) (recorded_c C) G) :
  ready D C G p X y -> fit p os false X y e = (Ok tt, e') -> is_error e' = false ->
  exists l0 l1 l, linit G = Ok l0 /\ logged_steps G X y 0 (ccalls e') l0 l1 /\
    (exists b, elitist e' = Some (Learned b) /\ lfinal G X y (pool e') (Learned b) l1 = Ok l) /\ logs e' = Some l.
Proof.
  intros (HG & HSd & (d & Hd) & (c & Hc) & (l0 & Hl)) H HE. unfold fit in H. unfold bind at 1 in H. rewrite (prepare_ok L D C G p os X y e d c l0 HG HSd Hd Hc Hl) in H.
  set (e0 := started L D C G p (root_seed os (random_state p)) e d c l0) in *.
  assert (HP : intime L D C G X y l0 e0). { exists (c, []), l0. split; [reflexivity|]. split; [reflexivity|]. constructor. }
  assert (HZ : ccalls e0 = []) by reflexivity. assert (HE0 : is_error e0 = false) by reflexivity. clearbody e0. exists l0.
  assert (HA : forall e2, intime L D C G X y l0 e2 -> ccalls e2 = [] -> is_error e2 = false ->
    bind (main_loop p X y (seq 0 (n_iter p))) (fun failed => if failed then ret tt else finish false X y) e2 = (Ok tt, e') ->
    exists l1 l, linit G = Ok l0 /\ logged_steps G X y 0 (ccalls e') l0 l1 /\ (exists b, elitist e' = Some (Learned b) /\ lfinal G X y (pool e') (Learned b) l1 = Ok l) /\ logs e' = Some l).
  { intros e2 H2 HC2 HE2 E. unfold bind at 1 in E. pose proof (loop_err L _ _ G p X y (seq 0 (n_iter p)) e2) as HL.
    destruct (main_loop p X y (seq 0 (n_iter p)) e2) as [[[|]|x] e3] eqn:EL; [|clear HL|discriminate].
    - injection E as <-. rewrite HL in HE. discriminate.
    - apply (loop_intime L D C G p X y l0 (n_iter p) 0%nat) in EL; [|exact H2|rewrite HC2; reflexivity]. destruct EL as (c3 & l3 & Hc3 & Hl3 & HS3).
      unfold finish, bind, lift, get, assign, best, the_compo, the_logs in E.
      rewrite Hc3 in E. cbn [of_option rbind] in E. destruct (cbest (recorded_c C) c3) as [[s|]|x] eqn:EB; try discriminate. cbn in E.
      rewrite Hl3 in E. cbn in E. destruct (lfinal G X y (pool e3) _ l3) as [l'|x] eqn:EF; [|discriminate]. injection E as <-.
      exists l3, l'. split; [exact Hl|]. split; [unfold ccalls; cbn; rewrite Hc3; exact HS3|]. split; [eexists; split; [reflexivity|exact EF]|reflexivity]. }
  unfold bind at 1 in H. destruct (Nat.ltb 0 (n_initial p)) eqn:EI.
  - pose proof (discover_safely_err L _ _ G X y (n_initial p) e0) as HDE.
    destruct (discover_safely X y (n_initial p) e0) as [[[|]|x] e2] eqn:ED; [|clear EI|discriminate].
    + injection H as <-. rewrite HDE in HE. discriminate.
    + apply (discover_intime L D C G X y l0) in ED as (H2 & Hc2 & _); [|exact HP]. apply (HA e2); [exact H2|unfold ccalls in *; rewrite Hc2; exact HZ|rewrite HDE, HE0; reflexivity|exact H].
  - apply (HA e0); assumption.
Qed.

(* ----- the default logger over a whole fit ----- *)
Lemma default_keeps (L : learner) g X y : forall k cs (m m' : metrics), logged_steps (default_logger L g) X y k cs m m' ->
  forall key, (snd key < k)%nat -> logged m' key = logged m key.
Proof.
  intros k cs m m' H. induction H as [k l|k c cs l l1 l2 HA HB IH]; intros key HK; [reflexivity|]. rewrite IH by lia.
  apply iteration_logged in HA. destruct HA as (pop0 & b0 & s & _ & _ & _ & _ & _ & _ & _ & _ & _ & HO). apply HO. lia.
Qed.
Lemma default_steps (L : learner) g X y : forall k cs (m m' : metrics), logged_steps (default_logger L g) X y k cs m m' ->
  forall i c, nth_error cs i = Some c -> exists pop b s, c_pops c = Ok pop /\ c_best c = Ok (Some b) /\ elite_score g (with_pool (c_pool c) b) X y = Ok s /\
    logged m' ("pool_size"%string, (k + i)%nat) = Some (Fin (qofnat (length (c_pool c)))) /\
    logged m' ("population_size"%string, (k + i)%nat) = Some (Fin (qofnat (length pop))) /\
    logged m' ("elitist_fitness"%string, (k + i)%nat) = Some (sfitness (smeasured b)) /\
    logged m' ("elitist_error"%string, (k + i)%nat) = Some (Fin (serror (smeasured b))) /\
    logged m' ("elitist_complexity"%string, (k + i)%nat) = Some (Fin (qofnat (scomplexity (smeasured b)))) /\
    logged m' ("training_score"%string, (k + i)%nat) = Some s.
Proof.
  intros k cs m m' H. induction H as [k l|k c cs l l1 l2 HA HB IH]; intros i c0 HI; [destruct i; discriminate|].
  destruct i as [|i]; cbn in HI.
  - injection HI as <-. rewrite Nat.add_0_r. pose proof (default_keeps L g X y _ _ _ _ HB) as HO. apply iteration_logged in HA.
    destruct HA as (pop0 & b0 & s & H1 & H2 & H3 & H4 & H5 & H6 & H7 & H8 & H9 & _). destruct (c_best c) as [[b|]|]; cbn in H2; try discriminate. injection H2 as <-.
    exists pop0, b, s. split; [exact H1|]. split; [reflexivity|]. split; [exact H3|]. rewrite !HO by (cbn; lia). auto 10.
  - replace (k + S i)%nat with (S k + i)%nat by lia. apply IH. exact HI.
Qed.
Lemma fit_default_logged (L : learner) (D : discovery L) (C : composition L) g p os X y (e e' : est (recorded_d D) (recorded_c C) (default_logger L g)) :
  ready D C (default_logger L g) p X y -> fit p os false X y e = (Ok tt, e') -> is_error e' = false ->
  exists m : metrics, logs e' = Some m /\
    (forall i c, nth_error (ccalls e') i = Some c -> exists pop b s, c_pops c = Ok pop /\ c_best c = Ok (Some b) /\ elite_score g (with_pool (c_pool c) b) X y = Ok s /\
      logged m ("pool_size"%string, i) = Some (Fin (qofnat (length (c_pool c)))) /\
      logged m ("population_size"%string, i) = Some (Fin (qofnat (length pop))) /\
      logged m ("elitist_fitness"%string, i) = Some (sfitness (smeasured b)) /\
      logged m ("elitist_error"%string, i) = Some (Fin (serror (smeasured b))) /\
      logged m ("elitist_complexity"%string, i) = Some (Fin (qofnat (scomplexity (smeasured b)))) /\
      logged m ("training_score"%string, i) = Some s) /\
    (forall name i, (length (ccalls e') <= i)%nat -> logged m (name, i) = None).
Proof.
  intros HR H HE. destruct (fit_logged L D C _ p os X y e e' HR H HE) as (l0 & l1 & l & HI & HS & (b & _ & HF) & HL). cbn in HI, HF. injection HI as <-. injection HF as <-.
  exists l1. split; [exact HL|]. split; [exact (default_steps L g X y 0%nat _ _ _ HS)|].
  intros name i Hi. assert (HN : forall k cs (m m' : metrics), logged_steps (default_logger L g) X y k cs m m' -> forall key, (k + length cs <= snd key)%nat -> logged m' key = logged m key).
  { clear. intros k cs m m' H. induction H as [k l|k c cs l l1 l2 HA HB IH]; intros key HK; [reflexivity|]. cbn in HK. rewrite IH by lia. apply iteration_logged in HA.
    destruct HA as (pop0 & b0 & s & _ & _ & _ & _ & _ & _ & _ & _ & _ & HO). apply HO. lia. }
  rewrite (HN _ _ _ _ HS) by (cbn; lia). reflexivity.
Qed.
