(* The library's estimator with another experience_weight. *)
From Coq Require Import Lia String.
From Verif Require Import PyNum PyList PyMon PyRng PyStat L_Num L_List M_Matching M_Rule M_RuleGen M_Mixing M_GenomeOps M_Discovery M_Novelty M_Solution M_Composition M_Fit M_Shipped M_Logging L_Invariance S_Units L_Units L_Tandem S_Order L_OrderComp L_OrderFit L_OrderHist L_OrderShip S_Repeat L_Repeat S_Weight L_Weight L_WeightNs.
From Coq Require Import Lqa.

(* ----- equal numbers ----- *)
Lemma neg_same a b : same_num a b -> same_num (nneg a) (nneg b).
Proof. destruct a, b; cbn; try contradiction; auto. intros ->. reflexivity. Qed.
Lemma add_same a b c d : same_num a b -> same_num c d -> same_num (nadd a c) (nadd b d).
Proof. destruct a, b; cbn; try contradiction; intros H1; destruct c, d; cbn; try contradiction; intros H2; auto. rewrite H1, H2. reflexivity. Qed.
Lemma sub_same a b c d : same_num a b -> same_num c d -> same_num (nsub a c) (nsub b d).
Proof. intros H1 H2. unfold nsub. apply add_same; [exact H1|apply neg_same; exact H2]. Qed.
Lemma mul_same a b c d : same_num a b -> same_num c d -> same_num (nmul a c) (nmul b d).
Proof.
  assert (HS : forall p q i, p == q -> same_num (nsgn_mul p i) (nsgn_mul q i)).
  { intros p q i H. unfold nsgn_mul. rewrite (qeq_same p q 0 0 H (Qeq_refl 0)), (qlt_same 0 0 p q (Qeq_refl 0) H). destruct (qeq q 0); [exact I|]. destruct (qlt 0 q); apply same_num_refl. }
  destruct a, b; cbn; try contradiction; intros H1; destruct c, d; cbn; try contradiction; intros H2; auto. rewrite H1, H2. reflexivity.
Qed.
Lemma div_same a b c d : same_num a b -> same_num c d -> same_num (ndiv a c) (ndiv b d).
Proof.
  destruct a, b; cbn; try contradiction; intros H1; destruct c, d; cbn; try contradiction; intros H2; try exact I; try reflexivity.
  - rewrite (qeq_same _ _ 0 0 H2 (Qeq_refl 0)), (qeq_same _ _ 0 0 H1 (Qeq_refl 0)), (qlt_same 0 0 _ _ (Qeq_refl 0) H1). destruct (qeq _ 0); [destruct (qeq _ 0); [exact I|]; destruct (qlt 0 _); exact I|]. cbn. rewrite H1, H2. reflexivity.
  - rewrite (qlt_same _ _ 0 0 H2 (Qeq_refl 0)). destruct (qlt _ 0); exact I.
  - rewrite (qlt_same _ _ 0 0 H2 (Qeq_refl 0)). destruct (qlt _ 0); exact I.
Qed.
Lemma sum_same l l' : Forall2 same_num l l' -> same_num (nsum l) (nsum l').
Proof. unfold nsum. assert (H : forall a b, same_num a b -> Forall2 same_num l l' -> same_num (fold_left nadd l a) (fold_left nadd l' b)); [|intros HL; apply H; [apply same_num_refl|exact HL]]. intros a b Hab HL. revert a b Hab. induction HL as [|x x' l l' Hx HL IH]; intros a b Hab; cbn [fold_left]; [exact Hab|]. apply IH. apply add_same; assumption. Qed.
Lemma mean_same l l' : Forall2 same_num l l' -> same_num (nmean l) (nmean l').
Proof. intros H. unfold nmean, nlen. rewrite (L_List.Forall2_len _ _ _ H). apply div_same; [apply sum_same; exact H|apply same_num_refl]. Qed.
Lemma nan_same l l' : Forall2 same_num l l' -> existsb is_nan l = existsb is_nan l'.
Proof. induction 1 as [|x x' l l' Hx H IH]; cbn; [reflexivity|]. rewrite IH. destruct x, x'; cbn in Hx; try contradiction; reflexivity. Qed.
Lemma sorted_same l l' : Forall2 same_num l l' -> Forall2 same_num (PyList.sort nlt l) (PyList.sort nlt l').
Proof. intros H. apply sort_same; [|exact H]. intros a b a' b' Ha Hb. apply nlt_same; assumption. Qed.
Lemma nth_num i l l' : Forall2 same_num l l' -> same_num (nth i l NaN) (nth i l' NaN).
Proof. intros H. apply nth_same; [exact H|exact I]. Qed.
Lemma median_same l l' : Forall2 same_num l l' -> same_num (nmedian l) (nmedian l').
Proof.
  intros H. unfold nmedian. rewrite (nan_same _ _ H). destruct (existsb is_nan l'); [exact I|]. cbv zeta. pose proof (sorted_same _ _ H) as HS. rewrite (L_List.Forall2_len _ _ _ H). destruct (Nat.odd _); [apply nth_num; exact HS|].
  destruct l as [|x l], l' as [|x' l']; try (exfalso; inversion H; fail); [exact I|]. apply div_same; [|apply same_num_refl]. apply add_same; apply nth_num; exact HS.
Qed.
Lemma lerp_same a b c d t : same_num a b -> same_num c d -> same_num (lerp a c t) (lerp b d t).
Proof.
  intros H1 H2. unfold lerp. cbv zeta. pose proof (sub_same _ _ _ _ H2 H1) as H3. destruct (qle _ _); [apply sub_same; [exact H2|]|apply add_same; [exact H1|]]; apply mul_same; try exact H3; apply same_num_refl.
Qed.
Lemma percentile_same l l' p : Forall2 same_num l l' -> alike_res same_num (percentile_mu l p) (percentile_mu l' p).
Proof.
  intros H. pose proof (nan_same _ _ H) as HN. pose proof (sorted_same _ _ H) as HS. pose proof (L_List.Forall2_len _ _ _ H) as HL. unfold percentile_mu. destruct l as [|x l], l' as [|x' l']; try (exfalso; inversion H; fail); [reflexivity|].
  rewrite HN. destruct (existsb is_nan (x' :: l')); [exact I|]. cbv zeta. rewrite HL. cbn [alike_res]. destruct (qle _ _); [apply nth_num; exact HS|]. destruct (qlt _ 0); [apply nth_num; exact HS|]. apply lerp_same; apply nth_num; exact HS.
Qed.
Lemma r2_same y p p' : Forall2 Qeq p p' -> alike_res same_num (r2_score y p) (r2_score y p').
Proof.
  intros H. unfold r2_score. rewrite <- (L_List.Forall2_len _ _ _ H). destruct (negb _); [reflexivity|]. destruct (Nat.ltb _ 2); [exact I|]. cbv zeta. cbn [alike_res same_num].
  assert (EN : qsum (map2 (fun a b => (a - b) * (a - b)) y p) == qsum (map2 (fun a b => (a - b) * (a - b)) y p')) by (apply qsum_same, map2_same; [intros a b c d -> ->; reflexivity|apply Forall2_Qeq_refl|exact H]).
  rewrite (qeq_same _ _ 0 0 EN (Qeq_refl 0)). destruct (qeq _ 0); [reflexivity|]. destruct (qeq _ 0); [reflexivity|]. rewrite EN. reflexivity.
Qed.

(* ----- the default logger ----- *)
Lemma put_same m m' k v v' : same_values m m' -> same_num v v' -> same_values (log_metric m k v) (log_metric m' k v').
Proof.
  intros HM HV. unfold same_values in *. induction HM as [|[k1 w] [k2 w'] m m' [H1 H2] HM IH]; cbn [log_metric]; [constructor; [cbn; auto|constructor]|].
  cbn [fst snd] in H1, H2. subst k2. destruct (key_eqb k1 k); constructor; auto; cbn; auto.
Qed.
Lemma log_same n name vs vs' m m' : same_values m m' -> Forall2 same_num vs vs' -> alike_res same_values (log_stats n name vs m) (log_stats n name vs' m').
Proof.
  intros HM HV. unfold log_stats. cbv zeta. destruct vs as [|v vs], vs' as [|v' vs']; try (exfalso; inversion HV; fail); [reflexivity|]. set (l := v :: vs) in *. set (l' := v' :: vs') in *.
  assert (H1 : alike_res same_num (pymin_num l) (pymin_num l')) by (unfold pymin_num; apply both_res, pymax_related; [intros a b a' b' Ha Hb; apply nlt_same; assumption|exact HV]).
  assert (H2 : alike_res same_num (pymax_num l) (pymax_num l')) by (unfold pymax_num; apply both_res, pymax_related; [intros a b a' b' Ha Hb; apply nlt_same; assumption|exact HV]).
  change (pymean l) with (Ok (nmean l)). change (pymean l') with (Ok (nmean l')).
  pose proof (mean_same _ _ HV) as H3. pose proof (median_same _ _ HV) as H4. pose proof (percentile_same _ _ 10 HV) as H5. pose proof (percentile_same _ _ 25 HV) as H6. pose proof (percentile_same _ _ 75 HV) as H7. pose proof (percentile_same _ _ 90 HV) as H8.
  destruct (pymin_num l), (pymin_num l'); cbn [alike_res] in H1; try contradiction; cbn [rbind]; [|exact H1]. destruct (pymax_num l), (pymax_num l'); cbn [alike_res] in H2; try contradiction; cbn [rbind]; [|exact H2].
  destruct (percentile_mu l 10), (percentile_mu l' 10); cbn [alike_res] in H5; try contradiction; cbn [rbind]; [|exact H5]. destruct (percentile_mu l 25), (percentile_mu l' 25); cbn [alike_res] in H6; try contradiction; cbn [rbind]; [|exact H6].
  destruct (percentile_mu l 75), (percentile_mu l' 75); cbn [alike_res] in H7; try contradiction; cbn [rbind]; [|exact H7]. destruct (percentile_mu l 90), (percentile_mu l' 90); cbn [alike_res] in H8; try contradiction; cbn [rbind]; [|exact H8].
  cbn [alike_res]. repeat (apply put_same; [|assumption]). exact HM.
Qed.

Section Ship.
Variable L : learner.
Notation rr := (@same_measured L). Notation RA := same_measures. Notation re := (like_elite rr RA reweighted).
Lemma score_weight q b b' X y : re b b' -> alike_res same_num (elite_score q b X y) (elite_score q b' X y).
Proof.
  intros (B1 & B2 & B3 & B4). apply all_measured in B3. destruct B3 as [B3 B5]. unfold elite_score. rewrite B1, B3. pose proof (predict_weight L _ _ (ebits b) _ X false B2 B5 q) as H.
  destruct (sol_predict L (M_Fit.emix b) _ _ _ _ q) as [[p|e] q1], (sol_predict L (M_Fit.emix b') _ _ _ _ q) as [[p'|e'] q2]; try contradiction; destruct H as [_ H]; cbn [fst rbind]; [apply r2_same; exact H|exact H].
Qed.
Lemma default_weight q X y : like_logger rr RA reweighted X y X y (default_logger L q) (default_logger L q) same_values.
Proof.
  constructor; [constructor| |intros pool pool' m m' l l' _ _ HL; exact HL].
  intros i pool pool' pop pop' b b' l l' HP HQ HB HL. cbn [literation default_logger]. unfold log_iteration. apply all_measured in HP. destruct HP as [-> HP].
  assert (H1 : alike_res same_values (log_pool i pool l) (log_pool i pool l')).
  { unfold log_pool. cbv zeta. assert (HM : same_values (log_metric l ("pool_size"%string, i) (Fin (qofnat (Datatypes.length pool)))) (log_metric l' ("pool_size"%string, i) (Fin (qofnat (Datatypes.length pool))))) by (apply put_same; [exact HL|apply same_num_refl]).
    destruct pool as [|r pool]; [exact HM|]. destruct (rmap _ (r :: pool)) as [fs|e]; cbn [rbind]; [|reflexivity]. apply log_same; [exact HM|]. clear. induction fs; constructor; auto. apply same_num_refl. }
  destruct (log_pool i pool l) as [m|e], (log_pool i pool l') as [m'|e']; cbn [alike_res] in H1; try contradiction; cbn [rbind]; [|exact H1]. destruct pop as [pop|e], pop' as [pop'|e']; cbn [alike_res] in HQ; try contradiction; cbn [rbind]; [|exact HQ].
  assert (H2 : alike_res same_values (log_population i pop m) (log_population i pop' m')).
  { unfold log_population. cbv zeta. pose proof (L_List.Forall2_len _ _ _ HQ) as HLen. rewrite HLen.
    match goal with |- alike_res _ (rbind ?a _) (rbind ?b _) => assert (H3 : alike_res same_values a b) end.
    { apply log_same; [apply put_same; [exact H1|apply same_num_refl]|]. apply (Forall2_map RA); [intros a a' Ha; apply (sm_fitness _ _ Ha)|exact HQ]. }
    destruct (log_stats i "population_fitness" (map sfitness pop) _) as [m1|e], (log_stats i "population_fitness" (map sfitness pop') _) as [m1'|e']; cbn [alike_res] in H3; try contradiction; cbn [rbind]; [|exact H3].
    match goal with |- alike_res _ (rbind ?a _) (rbind ?b _) => assert (H4 : alike_res same_values a b) end.
    { apply log_same; [exact H3|]. apply (Forall2_map RA); [intros a a' Ha; cbn; symmetry; apply (sm_error _ _ Ha)|exact HQ]. }
    destruct (log_stats i "population_error" _ m1) as [m2|e], (log_stats i "population_error" _ m1') as [m2'|e']; cbn [alike_res] in H4; try contradiction; cbn [rbind]; [|exact H4].
    apply log_same; [exact H4|]. apply (Forall2_map RA); [intros a a' Ha; cbn; rewrite (proj1 (sm_size _ _ Ha)); reflexivity|exact HQ]. }
  destruct (log_population i pop m) as [m1|e], (log_population i pop' m') as [m1'|e']; cbn [alike_res] in H2; try contradiction; cbn [rbind]; [|exact H2].
  destruct b as [[b|]|e], b' as [[b'|]|e']; cbn in HB; try contradiction; try reflexivity; [|exact HB]. cbn [rbind of_option]. unfold log_elitist. cbv zeta. pose proof (score_weight q b b' X y HB) as HS. destruct HB as (_ & _ & _ & HB).
  destruct (elite_score q b X y), (elite_score q b' X y); cbn [alike_res] in HS; try contradiction; cbn [rbind]; [|exact HS]. cbn [alike_res].
  repeat (apply put_same; [|try exact HS; try apply (sm_fitness _ _ HB); try (cbn; rewrite ?(sm_error _ _ HB), ?(proj1 (sm_size _ _ HB)); reflexivity)]). exact H2.
Qed.

(* ----- fits ----- *)
Lemma measures_comparable : comparable RA.
Proof. intros a a' b b' Ha Hb. symmetry. apply nlt_same; [apply (sm_fitness _ _ Ha)|apply (sm_fitness _ _ Hb)]. Qed.
Lemma measures_stop : stops_alike RA.
Proof. intros a a' d p Ha. symmetry. apply nlt_same; [apply same_num_refl|]. apply sub_same; [apply (sm_fitness _ _ Ha)|apply same_num_refl]. Qed.
Variable rngof : stream -> rng.
Lemma elite_weight X y pool el el' : Forall measured pool -> paired re el el' -> reweighted_problem (discovery_env X y pool el) (discovery_env X y pool el').
Proof. intros HP He. destruct el as [b|], el' as [b'|]; cbn in He; try contradiction; [destruct He as (B1 & B2 & B3 & B4)|]; constructor; cbn; auto; congruence. Qed.
Section Composition.
Context {K : skind}.
Variables (O : optimizer K) (i : ostate O) (cc : ccfg) (mix mix' : mixing) (f : nat -> Q -> nat -> nat -> num).
Hypothesis HO : values_only O.
Hypothesis Hmix : reweighted mix mix'.
Hypothesis Hf : forall m, by_value (f m).
Notation C := (shipped_composition L rngof O i cc mix f). Notation C' := (shipped_composition L rngof O i cc mix' f).
Variables (G G' : logger L) (RL : lst G -> lst G' -> Prop).
Hypothesis HG : forall X y, like_logger rr RA reweighted X y X y G G' RL.
Lemma history_weight (D : discovery L) (RD : dst D -> dst D -> Prop) :
  (forall X, alike_res RD (dnew D X) (dnew D X)) ->
  (forall X y pool el el' n s d d', Forall measured pool -> paired re el el' -> RD d d' ->
    alike_res (Forall2 rr) (fst (drun D X y pool el n s d)) (fst (drun D X y pool el' n s d')) /\ fst (snd (drun D X y pool el n s d)) = fst (snd (drun D X y pool el' n s d')) /\
    RD (snd (snd (drun D X y pool el n s d))) (snd (snd (drun D X y pool el' n s d')))) ->
  forall calls, like_estimator rr RA reweighted (after D C G calls) (after D C' G' calls) /\ paired RL (logs (after D C G calls)) (logs (after D C' G' calls)).
Proof.
  intros H1 H2 calls. destruct HO as (RS & S1 & S2 & S3).
  apply (history L L rr RA reweighted measures_comparable rngof O i cc mix mix' f f same_task RS (fun E E' => @st_measured L E E') (S1 i) S2 (S3 L) Hmix same_data) with (RD := RD).
  - intros X y X' y' [<- <-]. reflexivity.
  - intros X y X' y' m pool pool' [<- <-] HP. apply all_measured in HP. destruct HP as [-> HP]. constructor; [reflexivity|]. constructor; [reflexivity|]. intros bits. apply (measure_weight L mix mix' (f m) bits pool X y Hmix (Hf m) HP).
  - intros X y X' y' [<- <-]. apply HG.
  - intros X y X' y' [<- <-]. apply H1.
  - intros X y X' y' pool pool' el el' n s d d' [<- <-] HP. apply all_measured in HP. destruct HP as [-> HP]. apply H2. exact HP.
  - induction calls as [|k calls IH]; constructor; [|exact IH]. repeat split. right. exact measures_stop.
Qed.
Notation es := (es_discovery L rngof). Notation rs := (rs_discovery L rngof). Notation ns := (ns_discovery L rngof).
Definition outcome D := forall calls, like_estimator rr RA reweighted (after D C G calls) (after D C' G' calls) /\ paired RL (logs (after D C G calls)) (logs (after D C' G' calls)).
Lemma res_same {A} (r : res A) : alike_res eq r r.
Proof. destruct r; reflexivity. Qed.
Lemma es_fits c k : outcome (es c k).
Proof.
  unfold outcome. apply (history_weight (es c k) eq); [intros X; apply res_same|]. intros X y pool el el' n s d d' HP He <-. pose proof (elite_weight X y pool el el' HP He) as HD. cbn. split; [|split; [|reflexivity]].
  - pose proof (es_weight L _ _ HD d n (fun i => rngof (child s (spawned s + i))) (rngof (sstream s))) as H. destruct (es_optimize d _ _ _ _) as [[o|x] q], (es_optimize d (discovery_env X y pool el') _ _ _) as [[o'|x'] q']; try contradiction; apply H.
  - assert (H : alike (Forall2 rr) (es_initial d (discovery_env X y pool el) n) (es_initial d (discovery_env X y pool el') n)) by (unfold es_initial; eapply alike_bind; [apply (origins_weight L _ _ HD)|]; intros xs xs' <-; apply news_weight; exact HD).
    specialize (H (rngof (sstream s))). destruct (es_initial d _ _ _) as [[o|x] q], (es_initial d (discovery_env X y pool el') _ _) as [[o'|x'] q']; try contradiction; cbn [fst]; [|reflexivity]. destruct H as [_ [|r r' l l' _ _]]; reflexivity.
Qed.
Lemma rs_fits c k : outcome (rs c k).
Proof.
  unfold outcome. apply (history_weight (rs c k) eq); [intros X; apply res_same|]. intros X y pool el el' n s d d' HP He <-. pose proof (elite_weight X y pool el el' HP He) as HD. cbn. split; [|split; reflexivity].
  pose proof (rs_weight L _ _ HD d n (rngof (sstream s))) as H. destruct (rs_optimize d _ _ _) as [[o|x] q], (rs_optimize d (discovery_env X y pool el') _ _) as [[o'|x'] q']; try contradiction; apply H.
Qed.
Definition ns_ok (d d' : nscfg * list (cell L)) : Prop := d' = d /\ Forall (fun x => measured (crule x)) (snd d).
Lemma ns_fits c k : outcome (ns c k).
Proof.
  unfold outcome. apply (history_weight (ns c k) ns_ok).
  - intros X. cbn [dnew ns_discovery]. destruct (ns_new c); cbn [rbind]; [|reflexivity]. destruct (init_bounds X k); cbn; [split; [reflexivity|constructor]|reflexivity].
  - intros X y pool el el' n s d d' HP He [-> HD]. cbn [drun ns_discovery]. cbv zeta.
    assert (HE : delite (discovery_env (L := L) X y [] el') = delite (discovery_env X y [] el)) by (destruct el as [b|], el' as [b'|]; cbn in He; try contradiction; cbn; [destruct He as (-> & _)|]; reflexivity).
    assert (HM : delite (discovery_env X y [] el) <> None -> reweighted (dmix (discovery_env X y [] el)) (dmix (discovery_env X y [] el'))) by (destruct el as [b|], el' as [b'|]; cbn in He; try contradiction; cbn; intros _; apply He).
    rewrite HE. pose proof (ns_weight L (fst d) X y (snd d) (delite (discovery_env X y [] el)) _ _ n HD HM (rngof (sstream s))) as H.
    destruct (ns_optimize (fst d) X y (snd d) _ (dmix (discovery_env X y [] el)) n _) as [[o|x] q], (ns_optimize (fst d) X y (snd d) _ (dmix (discovery_env X y [] el')) n _) as [[o'|x'] q']; try contradiction; destruct H as [_ H]; cbn.
    + split; [apply (Forall2_map (same_cell L)); [|exact H]; intros z z' [-> Hz]; split; auto|]. split; [reflexivity|]. assert (HF : o' = o /\ Forall (fun x => measured (crule x)) o) by (clear -H; induction H as [|z z' o o' [-> Hz] H [-> IH]]; split; auto). destruct HF as [-> HF]. split; [reflexivity|]. cbn. apply Forall_app. auto.
    + split; [exact H|]. split; [reflexivity|]. split; auto.
Qed.
End Composition.
Lemma predict_fitted {D C G D' C' G'} (e : est (L := L) D C G) (e' : est (L := L) D' C' G') X : like_estimator rr RA reweighted e e' -> alike (Forall2 Qeq) (M_Fit.predict e X) (M_Fit.predict e' X).
Proof.
  intros [F1 [F2 F3] F4 F5 F6]. unfold M_Fit.predict. rewrite F3. destruct (negb _); [apply alike_raise|]. eapply alike_bind with (R := eq); [apply alike_same|]. intros _ _ _. rewrite F2. destruct (is_error e); [apply alike_ret, Forall2_Qeq_refl|].
  destruct (M_Fit.elitist e) as [[|b]|], (M_Fit.elitist e') as [[|b']|]; cbn in F4; try contradiction; [apply alike_ret, Forall2_Qeq_refl| |apply alike_raise]. destruct F4 as (B1 & B2 & B3 & B4). apply all_measured in B3. destruct B3 as [-> B3]. rewrite B1. apply predict_weight; assumption.
Qed.
End Ship.
