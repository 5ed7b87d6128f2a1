(* Components that succeed and components that do not. *)
From Coq Require Import Lia.
From Verif Require Import PyNum PyList PyMon PyRng L_Num L_List L_Rng M_Matching S_Matching M_Rule S_Rule L_RuleProps M_RuleGen M_Mixing S_Mixing M_Discovery S_Discovery L_Discovery L_DiscoveryProps L_DiscoveryEx L_GenomeProps M_Novelty S_Novelty L_NoveltyEx
  M_Solution S_Solution M_Composition S_Composition L_Safe L_SafeFit L_Composition M_GenomeOps M_GA M_Saga M_Aco M_Abc M_Swarm S_Optimizers L_Shipped L_SagaProps L_SasProps
  M_Fit S_Fit L_Fit L_FitProps L_FitEx M_Shipped S_Shipped L_ShippedFit L_ShippedEx M_Logging M_Defaults L_PredictingEx S_Live L_LiveDisc L_LiveNs L_LiveComp L_LiveAco L_LiveSaga L_LiveFit L_History.

Section Alone.
Variables (L : learner) (X : matrix) (y : targets) (d : nat).
Hypothesis HT : table d X y.
Hypothesis HX : X <> [].
Lemma useful_pooled (D : denv L) r : dX D = X -> dy D = y -> useful X y r -> pooled L D d r.
Proof.
  intros EX EY (H1 & H2). unfold pooled. rewrite EX, EY. split; [exact H1|]. split; [|exact H2]. destruct H2 as (x & Hx & Hc).
  destruct HT as [HT1 _]. rewrite Forall_forall in HT1. rewrite <- (HT1 _ Hx). unfold covers in Hc. clear - Hc. induction Hc; cbn; congruence.
Qed.
Lemma es_discovers c (pool : list (rule L)) el mx n kids g : es_works c -> space_dim d (d_constraint (es_d c)) -> Forall (useful X y) pool -> one_bit_each el pool ->
  (asks (d_origin (es_d c)) -> (el <> None /\ mixing_works mx) \/ pool = []) ->
  exists out g', es_optimize c (mkDenv X y pool el mx) n kids g = (Ok out, g').
Proof.
  intros Hw Hs HP HE HA. apply (es_goes L (mkDenv X y pool el mx) d); auto. cbn. eapply Forall_impl; [|exact HP]. intros r Hr. apply useful_pooled; auto.
Qed.
Lemma rs_discovers c (pool : list (rule L)) el mx n g : rs_works c -> space_dim d (d_constraint (rs_d c)) -> Forall (useful X y) pool -> one_bit_each el pool ->
  (asks (d_origin (rs_d c)) -> (el <> None /\ mixing_works mx) \/ pool = []) ->
  exists out g', rs_optimize c (mkDenv X y pool el mx) n g = (Ok out, g').
Proof.
  intros Hw Hs HP HE HA. apply (rs_goes L (mkDenv X y pool el mx) d); auto. cbn. eapply Forall_impl; [|exact HP]. intros r Hr. apply useful_pooled; auto.
Qed.
(* a whole run of composition steps on a growing pool *)
Lemma composes f {K} (O : optimizer K) i cc mix m (steps : list (env L * rng)) s : working_composer f cc O i -> mixing_works mix -> one_fit steps ->
  Forall (fun Eg => exists pool : list (rule L), fst Eg = mkEnv pool X y mix (f m) /\ Forall (useful X y) pool) steps ->
  exists st s', compose O cc steps (fresh_comp O i) (mkH [] [] s) = (Ok st, s') /\ (steps <> [] -> exists r, M_Composition.elitist st s' = (Ok (Some r), s')).
Proof.
  intros HW HM H1 HF. destruct (works_runs f cc O i HW) as (Iok & lo & HO & HI & Hlo & HRn).
  enough (HG : forall steps k st h, one_fit steps -> Forall (fun Eg => exists pool : list (rule L), fst Eg = mkEnv pool X y mix (f m) /\ Forall (useful X y) pool) steps ->
    cinv Iok k h st -> (carchive cc = false -> carch st = []) -> match steps with (E, _) :: _ => (k <= length (M_Solution.epool E))%nat | [] => True end ->
    exists st' h', compose O cc steps st h = (Ok st', h') /\ (steps <> [] -> exists r, M_Composition.elitist st' h' = (Ok (Some r), h'))).
  { apply (HG steps 0%nat); auto; [apply fresh_cinv; exact HI|]. destruct steps as [|[E g] rest]; [exact I|lia]. }
  clear steps s H1 HF. induction steps as [|[E g] steps IH]; intros k st h H1 HF HC HA Hk; [exists st, h; split; [reflexivity|congruence]|].
  cbn [compose]. cbn [one_fit] in H1. destruct H1 as [Hx H1]. apply Forall_cons_iff in HF as [(pool & HE & HP) HF]. cbn [fst] in HE. subst E. cbn [M_Solution.epool] in Hk.
  assert (HMe : measurable (mkEnv pool X y mix (f m))).
  { intros bits g0 HL. apply (sol_fit_goes L mix (f m) bits pool X y d g0 HM HT HX HL). eapply Forall_impl; [|exact HP]. intros r Hr.
    exact (useful_pooled (mkDenv X y [] None mix) r eq_refl eq_refl Hr). }
  assert (HFi : fitted_rules (mkEnv pool X y mix (f m))) by (revert HP; apply Forall_impl; intros r ([_ (at_ & H & _)] & _); rewrite H; discriminate).
  pose proof (HRn L (mkEnv pool X y mix (f m)) m eq_refl HMe HFi) as HR.
  destruct (optimize_lives (mkEnv pool X y mix (f m)) O Iok (contract_at _ O Iok HO) HMe lo HR cc k g st h HC Hk HA Hlo) as (st1 & h1 & EO & HN).
  pose proof (optimize_step (mkEnv pool X y mix (f m)) O Iok (contract_at _ O Iok HO) cc k g st h HC Hk HA) as HS. rewrite EO in HS. destruct HS as (S1 & S2 & S3 & S4 & _).
  rewrite (bind_ok _ _ _ _ _ EO). destruct steps as [|[E2 g2] rest].
  - exists st1, h1. split; [reflexivity|]. intros _. destruct (elitist_lives (mkEnv pool X y mix (f m)) O st1 h1 HN S2 S3) as (r & Hr & _). eauto.
  - destruct (IH (length pool) st1 h1) as (st' & h' & Hc & Hel); auto.
    + destruct Hx as ((new & Hp) & _). cbn [M_Solution.epool] in *. rewrite Hp, app_length. lia.
    + exists st', h'. split; [exact Hc|]. intros _. apply Hel. discriminate.
Qed.
End Alone.

Lemma fit_succeeds L rngof (D : discovery L) k a o {K} (O : optimizer K) i cc mix f (G : logger L) p os clean X y d (e : est D (shipped_composition L rngof O i cc mix f) G) :
  working_discovery L rngof D k a o -> working_composer f cc O i -> mixing_works mix -> table d X y -> X <> [] -> d <> 0%nat -> usable a -> given_dim d k ->
  seedable (random_state p) -> working_logger L G -> (0 < n_iter p)%nat -> (0 < n_rules p)%nat -> (n_initial p = 0 \/ (step e < n_iter p /\ ~ asks o))%nat ->
  exists e' b, fit p os clean X y e = (Ok tt, e') /\ is_error e' = false /\ is_fitted e' = true /\ elitist e' = Some (Learned b) /\
    forall X' g, X' <> [] -> Forall (fun x => length x = d) X' -> exists z g', predict e' X' g = (Ok z, g') /\ length z = length X'.
Proof.
  intros HD HC HM HT HX Hd HU HG Hs HQ Hi Hr Hn.
  assert (Hgd : good_data X y). { destruct HT as [H1 H2]. split; [exists d; auto|exact H2]. }
  destruct (library_lives L rngof X y d HT HX D k a o O i cc mix f G p os clean e HD HC HM HU HG Hgd Hs HQ Hi Hr Hn) as (e' & b & H1 & H2 & H3 & H4 & H5 & H6 & H7).
  exists e', b. do 4 (split; [assumption|]). intros X' g HX' HL. assert (HGT : good_table X') by (exists d; auto). apply check_X_ok in HGT.
  unfold predict. rewrite H3. cbn [negb]. unfold bind at 1, lift at 1. rewrite HGT, H2, H4.
  apply (sol_predict_goes L (M_Fit.emix b) (ebits b) (M_Fit.epool b) X' d g); auto; [rewrite H6; exact HM|]. eapply Forall_impl; [|exact H5]. intros r Hr'.
  destruct (kept_pooled L X y d HT a r (mkDenv X y [] None mix) eq_refl eq_refl Hr') as (P1 & P2 & P3). eapply fitted_ready; eauto.
Qed.
Lemma default_es_works : es_works default_es.
Proof.
  constructor; [exact I|cbn; discriminate|discriminate|]. intros _. unfold default_es, es_delay, es_iter. split; [lia|]. change (146 < 100 * 100)%nat. apply Nat.lt_le_trans with (100 * 2)%nat; [lia|].
  apply Nat.mul_le_mono_l. lia.
Qed.
Lemma defaults_succeed (L : learner) rngof f g os clean X y d (e : est (default_discovery L rngof) (default_composition L rngof f) (default_logger L g)) :
  table d X y -> X <> [] -> d <> 0%nat ->
  exists e' b, fit default_params os clean X y e = (Ok tt, e') /\ is_error e' = false /\ is_fitted e' = true /\ elitist e' = Some (Learned b) /\
    forall X' g, X' <> [] -> Forall (fun x => length x = d) X' -> exists z g', predict e' X' g = (Ok z, g') /\ length z = length X'.
Proof.
  intros HT HX Hd. apply (fit_succeeds L rngof (default_discovery L rngof) default_constraint (Variance 1) (Matching true) (ga default_ga) tt default_ccfg default_mixing f (default_logger L g)); auto.
  - exact (Works_es L rngof default_es default_constraint default_es_works).
  - apply Works_ga; cbn; lia.
  - exact I.
  - intros H. apply qeq_iff in H. discriminate H.
  - exact I.
  - exact I.
  - apply Logs_default.
  - cbn. lia.
  - cbn. lia.
Qed.

(* settings the constructors accept *)
Definition D_ex : denv mean_learner := mkDenv dx dyy [] None (mkMixing KeepAll ExpAsIs 1).
Lemma zero_delay_fails : exists (c : escfg) (D : denv mean_learner) n kids g,
  es_new c = Ok c /\ init_works (d_init (es_d c)) (d_type (es_d c)) /\ rmutation_works (es_mut c) (d_type (es_d c)) /\ es_sel c <> RRoulette /\ es_operator c = EsAnd /\ es_delay c = 0%nat /\
  table 1 (dX D) (dy D) /\ dX D <> [] /\ space_dim 1 (d_constraint (es_d c)) /\ dpool D = [] /\ fst (es_optimize c D n kids g) = Raise IndexError.
Proof.
  exists (es_conf EsAnd 1 0 RFittest), D_ex, 1%nat, (fun _ => scripted [1;1;1;1]), (scripted []). split; [reflexivity|]. split; [exact I|]. split; [cbn; discriminate|]. split; [discriminate|].
  split; [reflexivity|]. split; [reflexivity|]. split; [exact dx_table|]. split; [discriminate|]. split; [reflexivity|]. split; [reflexivity|]. vm_compute. reflexivity.
Qed.
Lemma roulette_fails : exists (c : escfg) (D : denv mean_learner) n kids g,
  es_new c = Ok c /\ init_works (d_init (es_d c)) (d_type (es_d c)) /\ rmutation_works (es_mut c) (d_type (es_d c)) /\ es_operator c = EsPlus /\ es_sel c = RRoulette /\
  table 1 (dX D) (dy D) /\ dX D <> [] /\ space_dim 1 (d_constraint (es_d c)) /\ dpool D = [] /\ fst (es_optimize c D n kids g) = Raise IndexError.
Proof.
  exists (es_conf EsPlus 1 1 RRoulette), D_ex, 1%nat, (fun _ => scripted [-2;2;-2;2]), (scripted []). split; [reflexivity|]. split; [exact I|]. split; [cbn; discriminate|].
  split; [reflexivity|]. split; [reflexivity|]. split; [exact dx_table|]. split; [discriminate|]. split; [reflexivity|]. split; [reflexivity|]. vm_compute. reflexivity.
Qed.
(* novelty search on a representation nothing can cross *)
Definition ns_centres : nscfg := mkNs (mkDcfg CenterSpread MeanInit (Clip [(0, 2)]) (MaxError (Fin 1)) UniformSamples) 1 2 4 1 1 true 1 (Mut (MutNormal (Pair 1 1))) RFittest NBasic TBasic ANovel 1.
Lemma ns_fails : exists (c : nscfg) (pool : list (cell mean_learner)) n g,
  ns_new c = Ok c /\ init_works (d_init (ns_d c)) (d_type (ns_d c)) /\ rmutation_works (ns_mut c) (d_type (ns_d c)) /\ (0 < ns_mu c)%nat /\ type_ok (ns_type c) /\
  table 1 dx dyy /\ dx <> [] /\ space_dim 1 (d_constraint (ns_d c)) /\ pool = [] /\ fst (ns_optimize c dx dyy pool None mix1 n g) = Raise TypeError.
Proof.
  exists ns_centres, [], 1%nat, (scripted []). split; [reflexivity|]. split; [exact I|]. split; [cbn; split; discriminate|]. split; [cbn; lia|]. split; [exact I|]. split; [exact dx_table|].
  split; [discriminate|]. split; [reflexivity|]. split; [reflexivity|]. vm_compute. reflexivity.
Qed.
Lemma ns1_works : working_discovery ML tapes ns1 (GivenClip None) (MaxError (Fin 1)) UniformSamples.
Proof.
  apply (Works_ns ML tapes (mkNs (d1 UniformSamples) 2 2 4 1 1 true (1#2) (Mut (MutNormal (Scalar (1#4)))) RFittest NBasic TBasic ANovel 1)); [|intros m e; eexists; reflexivity].
  constructor; cbn; auto; try discriminate; lia.
Qed.
Lemma es1_works : working_discovery ML tapes es1 (GivenClip None) (MaxError (Fin 1)) (Matching true).
Proof. apply (Works_es ML tapes (mkEs (d1 (Matching true)) 2 2 EsPlus 2 (Mut (MutNormal (Scalar 1))) RFittest)). constructor; cbn; auto; try discriminate. Qed.
Lemma rs1_works o : working_discovery ML tapes (rs1 o) (GivenClip None) (MaxError (Fin 1)) o.
Proof. apply (Works_rs ML tapes (mkRs (d1 o) 2 RFittest)). constructor; cbn; [exact I|lia]. Qed.
Lemma ga_works cc : working_composer small_error cc ga_o tt.
Proof. apply (Works_ga small_error cc (mkG 2 4 (1#4) (SelTournament 2) Uniform (9#10) (1#100))); cbn; lia. Qed.
Lemma ex_useful : Forall (useful dx dyy) [on_data dx dyy 0 1; on_data dx dyy 0 2].
Proof.
  repeat constructor.
  - apply on_data_fitted. exact dx_table.
  - exists [0]. split; [left; reflexivity|]. repeat constructor; cbn; discriminate.
  - apply on_data_fitted. exact dx_table.
  - exists [0]. split; [left; reflexivity|]. repeat constructor; cbn; discriminate.
Qed.

(* composers that stop with an exception *)
Definition stops {T} (is : exn -> bool) (r : res T) : bool := match r with Raise e => is e | Ok _ => false end.
Lemma stops_with {T} (r : res T) is : stops is r = true -> exists e, r = Raise e /\ is e = true.
Proof. destruct r as [a|e]; [discriminate|]. intros H. exists e. auto. Qed.
Definition warm_cc : ccfg := mkCcfg ZeroInit true true.
Definition two_rules : list (rule mean_learner) := [on_data dx dyy 0 1; on_data dx dyy 0 2].
Definition at_once (f : nat -> Q -> nat -> nat -> num) : list (env mean_learner * rng) := [(mkEnv two_rules dx dyy mix1 (f 2%nat), scripted [])].
Definition empty_first (f : nat -> Q -> nat -> nat -> num) : list (env mean_learner * rng) := (mkEnv [] dx dyy mix1 (f 2%nat), scripted []) :: at_once f.
Definition same (x : num) : num := x.
Definition id_trig : trig := mkTrig same same 0.
Definition id_math : smath := mkSmath same same.
Definition s2_five : s2cfg := mkS2 2 2 1 (SelTournament 2) Uniform 0 1 0 1.
Definition no_good (m : nat) (e : Q) (k n : nat) : num := Fin 0.
Lemma at_once_ok f : one_fit (at_once f) /\ Forall (fun Eg => exists pool : list (rule mean_learner), fst Eg = mkEnv pool dx dyy mix1 (f 2%nat) /\ Forall (useful dx dyy) pool) (at_once f).
Proof. split; [split; [exact I|exact I]|]. constructor; [|constructor]. exists two_rules. split; [reflexivity|exact ex_useful]. Qed.
Lemma empty_first_ok f : one_fit (empty_first f) /\ Forall (fun Eg => exists pool : list (rule mean_learner), fst Eg = mkEnv pool dx dyy mix1 (f 2%nat) /\ Forall (useful dx dyy) pool) (empty_first f).
Proof.
  destruct (at_once_ok f) as [H1 H2]. split; [split; [split; [eexists; reflexivity|repeat split]|exact H1]|]. constructor; [exists []; auto|exact H2].
Qed.
Lemma saga2_fails : exists t c (f : nat -> Q -> nat -> nat -> num) cc X y mix m (steps : list (env mean_learner * rng)) g,
  Nat.even (s2_size c) = true /\ (0 < s2_size c)%nat /\ selection_works f (s2_sel c) /\ (n_elitists (s2_size c) (s2_ratio c) <= s2_size c)%nat /\ cwarm cc = true /\
  table 1 X y /\ X <> [] /\ mixing_works mix /\ one_fit steps /\
  Forall (fun Eg => exists pool : list (rule mean_learner), fst Eg = mkEnv pool X y mix (f m) /\ Forall (useful X y) pool) steps /\
  fst (compose (saga2 t c) cc steps (fresh_comp (saga2 t c) (s2_init c)) (mkH [] [] g)) = Raise IndexError.
Proof.
  exists id_trig, s2_five, small_error, warm_cc, dx, dyy, mix1, 2%nat, (empty_first small_error), (scripted []). split; [reflexivity|]. split; [cbn; lia|]. split; [cbn; lia|]. split; [vm_compute; lia|].
  split; [reflexivity|]. split; [exact dx_table|]. split; [discriminate|]. split; [exact I|]. split; [exact (proj1 (empty_first_ok small_error))|]. split; [exact (proj2 (empty_first_ok small_error))|]. match goal with |- ?x = _ => assert (HS : stops (fun e => match e with IndexError => true | _ => false end) x = true) by (vm_compute; reflexivity) end.
  apply stops_with in HS as (e & HE & H). rewrite HE. destruct e; try discriminate H. reflexivity.
Qed.
Lemma quantum_fails : exists M c (f : nat -> Q -> nat -> nat -> num) cc X y mix m (steps : list (env mean_learner * rng)) g,
  (0 < ps_iter c)%nat /\ (0 < ps_size c)%nat /\ table 1 X y /\ X <> [] /\ mixing_works mix /\ one_fit steps /\
  Forall (fun Eg => exists pool : list (rule mean_learner), fst Eg = mkEnv pool X y mix (f m) /\ Forall (useful X y) pool) steps /\
  fst (compose (swarm M c) cc steps (fresh_comp (swarm M c) tt) (mkH [] [] g)) = Raise ZeroDivisionError.
Proof.
  exists id_math, (mkP 1 2 0 1 (MBinaryQuantum (1#2) 1)), small_error, warm_cc, dx, dyy, mix1, 2%nat, (at_once small_error), (scripted []). split; [cbn; lia|]. split; [cbn; lia|].
  split; [exact dx_table|]. split; [discriminate|]. split; [exact I|]. split; [exact (proj1 (at_once_ok small_error))|]. split; [exact (proj2 (at_once_ok small_error))|]. match goal with |- ?x = _ => assert (HS : stops (fun e => match e with ZeroDivisionError => true | _ => false end) x = true) by (vm_compute; reflexivity) end.
  apply stops_with in HS as (e & HE & H). rewrite HE. destruct e; try discriminate H. reflexivity.
Qed.
Lemma bees_fail : exists M c (f : nat -> Q -> nat -> nat -> num) cc X y mix m (steps : list (env mean_learner * rng)) g,
  (0 < be_size c)%nat /\ food_fits (be_food c) /\ (forall m e k n, exists q, f m e k n = Fin q /\ 0 <= q) /\ table 1 X y /\ X <> [] /\ mixing_works mix /\ one_fit steps /\
  Forall (fun Eg => exists pool : list (rule mean_learner), fst Eg = mkEnv pool X y mix (f m) /\ Forall (useful X y) pool) steps /\
  fst (compose (bees M c) cc steps (fresh_comp (bees M c) tt) (mkH [] [] g)) = Raise ValueError.
Proof.
  exists id_math, (mkBee 1 2 3 FBitwise), no_good, warm_cc, dx, dyy, mix1, 2%nat, (at_once no_good), (scripted []). split; [cbn; lia|]. split; [exact I|]. split; [intros; exists 0; split; [reflexivity|discriminate]|].
  split; [exact dx_table|]. split; [discriminate|]. split; [exact I|]. split; [exact (proj1 (at_once_ok no_good))|]. split; [exact (proj2 (at_once_ok no_good))|]. match goal with |- ?x = _ => assert (HS : stops (fun e => match e with ValueError => true | _ => false end) x = true) by (vm_compute; reflexivity) end.
  apply stops_with in HS as (e & HE & H). rewrite HE. destruct e; try discriminate H. reflexivity.
Qed.
Definition some_good (m : nat) (e : Q) (k n : nat) : num := Fin 1.
Lemma all_work cc A b partial :
  working_composer some_good cc (saga1 (mkS1 4 4 (1#4) SelRoulette (NPoint 3) (5#1000) (15#1000) (1#1000) (5#100) (11#10) (6#10) (9#10) (11#10))) (mkRates (1#1000) (9#10)) /\
  working_composer some_good (mkCcfg ZeroInit false true) (saga2 id_trig s2_five) (s2_init s2_five) /\
  working_composer some_good cc (saga3 (mkS3 4 4 (17#100) SelLinearRank (9#10))) tt /\
  working_composer some_good cc (aco (Binary A b) (mkA 4 4 (1#10) 1 0 1 1 true)) None /\ working_composer some_good cc (aco (Complete A b partial) (mkA 4 4 (1#10) 1 0 1 1 true)) None /\
  working_composer some_good cc (bees id_math (mkBee 4 4 3 (FDimensionFlips (1#10)))) tt /\
  working_composer some_good cc (swarm id_math (mkP 4 4 0 1 MSigmoidQuantum)) tt /\ working_composer some_good cc (wolves id_math (mkW 4 4 3 WCrossover)) tt.
Proof.
  split; [constructor; cbn; try lia; try (intros H; apply qeq_iff in H; discriminate H); auto; intros; exists 1; split; [reflexivity|discriminate]|].
  split; [constructor; cbn; auto; try lia; vm_compute; lia|]. split; [constructor; cbn; auto; lia|]. split; [constructor; cbn; lia|]. split; [constructor; cbn; lia|].
  split; [constructor; [cbn; lia|split; discriminate|intros; exists 1; split; reflexivity]|]. split; [constructor; cbn; auto; lia|]. constructor; cbn; lia.
Qed.
(* every error is accepted, also that of a rule that matches nothing *)
Definition anything : dcfg := mkDcfg OrderedBound MeanInit (Clip []) (MaxError PInf) UniformInput.
Definition rs_all : discovery ML := rs_discovery ML tapes (mkRs anything 2 RFittest) (GivenClip None).
Definition gx : matrix := [[0]; [3]].
Definition gy : targets := [1; 2].
Lemma gx_table : table 1 gx gy.
Proof. split; [repeat constructor|reflexivity]. Qed.
Lemma unmatched_refuses : exists (L : learner) rngof c k K (O : optimizer K) i cc mix f (G : logger L) p X y e' X' g,
  rs_works c /\ d_accept (rs_d c) = MaxError PInf /\ working_composer f cc O i /\ mixing_works mix /\ table 1 X y /\ X <> [] /\ given_dim 1 k /\ seedable (random_state p) /\ working_logger L G /\
  (0 < n_iter p)%nat /\ (0 < n_rules p)%nat /\ n_initial p = 0%nat /\
  fit p 0 false X y (unfitted (rs_discovery L rngof c k) (shipped_composition L rngof O i cc mix f) G) = (Ok tt, e') /\ is_error e' = false /\ is_fitted e' = true /\
  X' <> [] /\ Forall (fun x => length x = 1%nat) X' /\ fst (predict e' X' g) = Raise NotFittedError.
Proof.
  exists ML, tapes, (mkRs anything 2 RFittest), (GivenClip None), plain, ga_o, tt, arch1, mix1, small_error, silent, par_n, gx, gy, (plain_end rs_all gx gy par_n), [[3#4]], flat.
  split; [constructor; cbn; [exact I|lia]|]. split; [reflexivity|]. split; [apply ga_works|]. split; [exact I|]. split; [exact gx_table|]. split; [discriminate|]. split; [exact I|]. split; [cbn; lia|].
  split; [apply Logs_quiet; exact silent_quiet|]. split; [cbn; lia|]. split; [cbn; lia|]. split; [reflexivity|]. split; [apply (plain_ended rs_all); vm_compute; reflexivity|].
  split; [vm_compute; reflexivity|]. split; [vm_compute; reflexivity|]. split; [discriminate|]. split; [repeat constructor|]. vm_compute. reflexivity.
Qed.
