(* The library's estimator with fitness on another scale. *)
From Coq Require Import Lia String.
From Verif Require Import PyNum PyList PyMon PyRng PyStat L_Num L_List M_Matching M_Rule M_RuleGen M_Mixing M_GenomeOps M_Discovery M_Solution M_Composition M_Fit M_Shipped M_Logging L_Invariance S_Units L_Units L_Tandem S_Order L_OrderRules L_OrderComp L_Scaling L_OrderFit L_OrderHist.

Section Ship.
Variables (h g : num -> num) (L : learner).
Hypothesis Hh : rising h.
Hypothesis Hworst : h NInf = NInf.
Hypothesis Hg : rising g.
Notation L' := (on_scale h L). Notation rr := (ranked_rule h L). Notation re := (ranked_elite h g L).
Variable rngof : stream -> rng.
Lemma elite_problem X y pool pool' el el' : Forall2 rr pool pool' -> paired re el el' -> ranked_problem h L (discovery_env X y pool el) (discovery_env X y pool' el').
Proof. intros HP He. destruct el as [b|], el' as [b'|]; cbn in He; try contradiction; [destruct He as (B1 & [B2 _] & B3 & B4)|]; constructor; cbn; auto; congruence. Qed.
Lemma elite_fair X y pool el el' : paired re el el' -> fair_mixing h (dmix (discovery_env (L := L) X y pool el)).
Proof. intros H. destruct el as [b|], el' as [b'|]; cbn in *; try contradiction; [apply H|exact I]. Qed.
Definition es_ok (c c' : escfg) : Prop := c = c' /\ by_rank h (es_sel c).
Definition rs_ok (c c' : rscfg) : Prop := c = c' /\ by_rank h (rs_sel c).
Lemma es_new_ranked c k X : by_rank h (es_sel c) -> alike_res es_ok (dnew (es_discovery L rngof c k) X) (dnew (es_discovery L' rngof c k) X).
Proof.
  intros HS. cbn [dnew es_discovery]. unfold es_new. assert (H : forall c', c' = c -> alike_res es_ok (let? k := init_bounds X k in Ok (mkEs (set_constraint k (es_d c')) (es_iter c') (es_lambda c') (es_operator c') (es_delay c') (es_mut c') (es_sel c')))
    (let? k := init_bounds X k in Ok (mkEs (set_constraint k (es_d c')) (es_iter c') (es_lambda c') (es_operator c') (es_delay c') (es_mut c') (es_sel c')))).
  { intros c' ->. destruct (init_bounds X k); cbn; [split; [reflexivity|exact HS]|reflexivity]. }
  destruct (es_operator c) eqn:EO; try (apply H; reflexivity). destruct (assert_ _); [apply H; reflexivity|reflexivity].
Qed.
Lemma es_run_ranked c k X y pool pool' el el' n s d d' : Forall2 rr pool pool' -> paired re el el' -> es_ok d d' ->
  let o := drun (es_discovery L rngof c k) X y pool el n s d in let o' := drun (es_discovery L' rngof c k) X y pool' el' n s d' in
  alike_res (Forall2 rr) (fst o) (fst o') /\ fst (snd o) = fst (snd o') /\ es_ok (snd (snd o)) (snd (snd o')).
Proof.
  intros HP He [<- HS]. pose proof (elite_problem X y pool pool' el el' HP He) as HD. pose proof (elite_fair X y pool el el' He) as HM. cbn. split; [|split; [|split; [reflexivity|exact HS]]].
  - pose proof (es_ranked h L Hh Hworst _ _ HD HM d n (fun i => rngof (child s (spawned s + i))) HS (rngof (sstream s))) as H. destruct (es_optimize d _ _ _ _) as [[o|x] q], (es_optimize d (discovery_env X y pool' el') _ _ _) as [[o'|x'] q']; try contradiction; apply H.
  - pose proof (initial_ranked h L Hh Hworst _ _ HD HM d n (rngof (sstream s))) as H. destruct (es_initial d _ _ _) as [[o|x] q], (es_initial d (discovery_env X y pool' el') _ _) as [[o'|x'] q']; try contradiction; cbn [fst]; [|reflexivity]. destruct H as [_ [|r r' l l' _ _]]; reflexivity.
Qed.
Lemma rs_new_ranked c k X : by_rank h (rs_sel c) -> alike_res rs_ok (dnew (rs_discovery L rngof c k) X) (dnew (rs_discovery L' rngof c k) X).
Proof. intros HS. cbn [dnew rs_discovery]. destruct (init_bounds X k); cbn; [split; [reflexivity|exact HS]|reflexivity]. Qed.
Lemma rs_run_ranked c k X y pool pool' el el' n s d d' : Forall2 rr pool pool' -> paired re el el' -> rs_ok d d' ->
  let o := drun (rs_discovery L rngof c k) X y pool el n s d in let o' := drun (rs_discovery L' rngof c k) X y pool' el' n s d' in
  alike_res (Forall2 rr) (fst o) (fst o') /\ fst (snd o) = fst (snd o') /\ rs_ok (snd (snd o)) (snd (snd o')).
Proof.
  intros HP He [<- HS]. pose proof (elite_problem X y pool pool' el el' HP He) as HD. pose proof (elite_fair X y pool el el' He) as HM. cbn. split; [|split; [reflexivity|split; [reflexivity|exact HS]]].
  pose proof (rs_ranked h L Hh Hworst _ _ HD HM d n HS (rngof (sstream s))) as H. destruct (rs_optimize d _ _ _) as [[o|x] q], (rs_optimize d (discovery_env X y pool' el') _ _) as [[o'|x'] q']; try contradiction; apply H.
Qed.

Lemma ranked_comparable : comparable (ranked_satts g).
Proof. intros a a' b b' [-> _] [-> _]. apply Hg. Qed.
Definition same_data (X : matrix) (y : targets) (X' : matrix) (y' : targets) : Prop := X = X' /\ y = y'.

Section Composition.
Context {K : skind}.
Variables (O : optimizer K) (i : ostate O) (cc : ccfg) (mix : mixing) (f : nat -> Q -> nat -> nat -> num).
Hypothesis HO : suits g O.
Hypothesis Hmix : fair_mixing h mix.
Definition f' (m : nat) (e : Q) (c n : nat) : num := g (f m e c n).
Notation C := (shipped_composition L rngof O i cc mix f). Notation C' := (shipped_composition L' rngof O i cc mix f').
Variables (G : logger L) (G' : logger L') (RL : lst G -> lst G' -> Prop).
Hypothesis HG : ranked_logger h g L G G' RL.
Lemma history_same (D : discovery L) (D' : discovery L') (RD : dst D -> dst D' -> Prop) :
  (forall X, alike_res RD (dnew D X) (dnew D' X)) ->
  (forall X y pool pool' el el' n s d d', Forall2 rr pool pool' -> paired re el el' -> RD d d' ->
    alike_res (Forall2 rr) (fst (drun D X y pool el n s d)) (fst (drun D' X y pool' el' n s d')) /\ fst (snd (drun D X y pool el n s d)) = fst (snd (drun D' X y pool' el' n s d')) /\
    RD (snd (snd (drun D X y pool el n s d))) (snd (snd (drun D' X y pool' el' n s d')))) ->
  forall calls, Forall never_stops calls -> ranked_estimator h g L (after D C G calls) (after D' C' G' calls) /\ paired RL (logs (after D C G calls)) (logs (after D' C' G' calls)).
Proof.
  intros H1 H2 calls HC. apply (history L L' rr (ranked_satts g) (same_fair h) ranked_comparable rngof O i cc mix mix f f' (ranked_task (ranked_satts g)) eq (fun _ _ H => H) eq_refl (fun _ _ H => f_equal (osize O) H) (suits_follow O L L' g Hg HO) (conj eq_refl Hmix) same_data) with (RD := RD).
  - intros X y X' y' [<- <-]. reflexivity.
  - intros X y X' y' m pool pool' [<- <-] HP. constructor; [exact (L_List.Forall2_len _ _ _ HP)|]. intros bits. apply (sol_fit_ranked h L Hh g mix (f m) bits pool pool' X y Hmix HP).
  - intros X y X' y' [<- <-]. apply HG.
  - intros X y X' y' [<- <-]. apply H1.
  - intros X y X' y' pool pool' el el' n s d d' [<- <-]. apply H2.
  - induction HC as [|k calls Hk HC IH]; constructor; [|exact IH]. repeat split. left. exact Hk.
Qed.
Lemma es_history c k calls : by_rank h (es_sel c) -> Forall never_stops calls ->
  ranked_estimator h g L (after (es_discovery L rngof c k) C G calls) (after (es_discovery L' rngof c k) C' G' calls) /\
  paired RL (logs (after (es_discovery L rngof c k) C G calls)) (logs (after (es_discovery L' rngof c k) C' G' calls)).
Proof.
  intros HS HC. apply (history_same (es_discovery L rngof c k) (es_discovery L' rngof c k) es_ok); [intros X; apply es_new_ranked; exact HS| |exact HC]. intros X y pool pool' el el' n s d d' HP He HD. apply es_run_ranked; assumption.
Qed.
Lemma rs_history c k calls : by_rank h (rs_sel c) -> Forall never_stops calls ->
  ranked_estimator h g L (after (rs_discovery L rngof c k) C G calls) (after (rs_discovery L' rngof c k) C' G' calls) /\
  paired RL (logs (after (rs_discovery L rngof c k) C G calls)) (logs (after (rs_discovery L' rngof c k) C' G' calls)).
Proof.
  intros HS HC. apply (history_same (rs_discovery L rngof c k) (rs_discovery L' rngof c k) rs_ok); [intros X; apply rs_new_ranked; exact HS| |exact HC]. intros X y pool pool' el el' n s d d' HP He HD. apply rs_run_ranked; assumption.
Qed.
End Composition.

Lemma predict_same {D C G D' C' G'} (e : est (L := L) D C G) (e' : est (L := L') D' C' G') X q : ranked_estimator h g L e e' -> M_Fit.predict e X q = M_Fit.predict e' X q.
Proof.
  intros [F1 [F2 F3] F4 F5 F6]. unfold M_Fit.predict. rewrite F3. destruct (negb _); [reflexivity|]. unfold bind, lift. destruct (check_X X); [|reflexivity]. rewrite F2. destruct (is_error e); [reflexivity|].
  destruct (M_Fit.elitist e) as [[|b]|], (M_Fit.elitist e') as [[|b']|]; cbn in F4; try contradiction; try reflexivity. destruct F4 as (B1 & [B2 B5] & B3 & B4). rewrite B1, B2. apply (predict_ranked h L Hh); assumption.
Qed.
Lemma score_ranked q b b' X y : re b b' -> elite_score q b X y = elite_score q b' X y.
Proof. intros (B1 & [B2 B5] & B3 & B4). unfold elite_score. rewrite B1, B2, (predict_ranked h L Hh (M_Fit.emix b) (ebits b) _ _ X false q B5 B3). reflexivity. Qed.

(* ----- the default logger ----- *)
Lemma metric_same m m' k v v' : same_metrics m m' -> (of_fitness (fst k) = false -> v' = v) -> same_metrics (log_metric m k v) (log_metric m' k v').
Proof.
  intros HM HV. unfold same_metrics in *. induction HM as [|[k1 w] [k2 w'] m m' [H1 H2] HM IH]; cbn [log_metric].
  - constructor; [|constructor]. cbn. auto.
  - cbn [fst snd] in H1, H2. subst k2. destruct (key_eqb k1 k) eqn:E.
    + constructor; [|exact HM]. cbn. split; [reflexivity|]. unfold key_eqb in E. apply andb_prop in E. destruct E as [E _]. apply String.eqb_eq in E. rewrite E. exact HV.
    + constructor; [cbn; auto|exact IH].
Qed.
Lemma stats_same n name vs vs' m m' : same_metrics m m' -> length vs = length vs' -> (forall s, of_fitness (name ++ s) = false -> vs' = vs) -> alike_res same_metrics (log_stats n name vs m) (log_stats n name vs' m').
Proof.
  intros HM HL HV. unfold log_stats. destruct vs as [|v vs], vs' as [|v' vs']; cbn in HL; try discriminate; [reflexivity|]. set (l := v :: vs) in *. set (l' := v' :: vs') in *.
  change (pymin_num l) with (Ok (match pymax (fun a b => nlt b a) l with Some x => x | None => NaN end)). change (pymin_num l') with (Ok (match pymax (fun a b => nlt b a) l' with Some x => x | None => NaN end)).
  change (pymax_num l) with (Ok (match pymax nlt l with Some x => x | None => NaN end)). change (pymax_num l') with (Ok (match pymax nlt l' with Some x => x | None => NaN end)).
  change (pymean l) with (Ok (nmean l)). change (pymean l') with (Ok (nmean l')). cbn [rbind].
  assert (HP : forall p, exists w w', percentile_mu l p = Ok w /\ percentile_mu l' p = Ok w' /\ (l' = l -> w' = w)).
  { intros p. unfold l, l', percentile_mu. destruct (existsb is_nan (v :: vs)) eqn:E1, (existsb is_nan (v' :: vs')) eqn:E2; do 2 eexists; (split; [reflexivity|split; [reflexivity|]]); intros E; inversion E; subst; congruence. }
  destruct (HP 10) as (w1 & w1' & -> & -> & E1), (HP 25) as (w2 & w2' & -> & -> & E2), (HP 75) as (w3 & w3' & -> & -> & E3), (HP 90) as (w4 & w4' & -> & -> & E4). cbn [rbind alike_res].
  repeat (apply metric_same; [|cbn [fst]; intros E; pose proof (HV _ E) as EV; auto; rewrite EV; reflexivity]). exact HM.
Qed.
Lemma default_ranked q : ranked_logger h g L (default_logger L q) (default_logger L' q) same_metrics.
Proof.
  intros X y. constructor.
  - constructor.
  - intros i pool pool' pop pop' b b' l l' HP HQ HB HL. cbn [literation default_logger]. unfold log_iteration.
    assert (H1 : alike_res same_metrics (log_pool i pool l) (log_pool i pool' l')).
    { unfold log_pool. assert (HM : same_metrics (log_metric l ("pool_size"%string, i) (Fin (qofnat (Datatypes.length pool)))) (log_metric l' ("pool_size"%string, i) (Fin (qofnat (Datatypes.length pool'))))) by (apply metric_same; [exact HL|rewrite (L_List.Forall2_len _ _ _ HP); reflexivity]).
      assert (HF : alike_res (Forall2 (fun a a' => a' = h a)) (rmap (fun r => let? a := get_att L r in Ok (M_Rule.fitness a)) pool) (rmap (fun r => let? a := get_att L' r in Ok (M_Rule.fitness a)) pool')).
      { apply (alike_rmap rr); [|exact HP]. intros r r' [_ _ Ha]. unfold get_att. destruct (att r), (att r'); cbn in *; try contradiction; [|reflexivity]. apply (ra_fitness _ _ _ Ha). }
      destruct HP; [exact HM|]. destruct (rmap _ (x :: l0)) as [fs|e], (rmap _ (y0 :: l'0)) as [fs'|e']; cbn in HF; try contradiction; cbn [rbind]; [|exact HF]. apply stats_same; [exact HM|exact (L_List.Forall2_len _ _ _ HF)|intros [|ch s] E; cbn in E; discriminate E]. }
    destruct (log_pool i pool l) as [m|e], (log_pool i pool' l') as [m'|e']; cbn in H1; try contradiction; cbn [rbind]; [|exact H1]. destruct pop as [pop|e], pop' as [pop'|e']; cbn in HQ; try contradiction; cbn [rbind]; [|exact HQ].
    assert (H2 : alike_res same_metrics (log_population i pop m) (log_population i pop' m')).
    { unfold log_population. pose proof (L_List.Forall2_len _ _ _ HQ) as HLen. assert (EE : map serror pop' = map serror pop /\ map scomplexity pop' = map scomplexity pop).
      { clear HLen. induction HQ as [|a a' pop pop' [_ (A1 & A2 & _)] HQ [IH1 IH2]]; [auto|]. cbn. rewrite A1, A2, IH1, IH2. auto. }
      assert (E1 : map (fun a => Fin (serror a)) pop' = map (fun a => Fin (serror a)) pop) by (rewrite <- !(map_map serror Fin), (proj1 EE); reflexivity).
      assert (E2 : map (fun a => Fin (qofnat (scomplexity a))) pop' = map (fun a => Fin (qofnat (scomplexity a))) pop) by (rewrite <- !(map_map scomplexity (fun n => Fin (qofnat n))), (proj2 EE); reflexivity).
      rewrite E1, E2. clear E1 E2 EE.
      match goal with |- alike_res _ (rbind ?a _) (rbind ?b _) => assert (H3 : alike_res same_metrics a b) by (apply stats_same; [apply metric_same; [exact H1|rewrite HLen; reflexivity]|rewrite !map_length; exact HLen|intros [|ch s] E; cbn in E; discriminate E]); destruct a as [m1|e], b as [m1'|e']; cbn in H3; try contradiction; cbn [rbind]; [|exact H3] end.
      match goal with |- alike_res _ (rbind ?a _) (rbind ?b _) => assert (H4 : alike_res same_metrics a b) by (apply stats_same; [exact H3|reflexivity|reflexivity]); destruct a as [m2|e], b as [m2'|e']; cbn in H4; try contradiction; cbn [rbind]; [|exact H4] end.
      apply stats_same; [exact H4|reflexivity|reflexivity]. }
    destruct (log_population i pop m) as [m1|e], (log_population i pop' m') as [m1'|e']; cbn in H2; try contradiction; cbn [rbind]; [|exact H2].
    destruct b as [[b|]|e], b' as [[b'|]|e']; cbn in HB; try contradiction; try reflexivity; [|exact HB]. cbn [rbind of_option]. unfold log_elitist. rewrite (score_ranked q b b' X y HB). destruct HB as (_ & _ & _ & [B1 (B2 & B3 & _)]). rewrite B2, B3. destruct (elite_score q b' X y); [|reflexivity]. cbn [rbind alike_res].
    repeat (apply metric_same; [|cbn; intros; try discriminate; reflexivity]). exact H2.
  - intros pool pool' m m' l l' _ _ HL. exact HL.
Qed.
End Ship.
