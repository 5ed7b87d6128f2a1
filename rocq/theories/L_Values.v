(* The metaheuristics depend only on the values they are told. *)
From Coq Require Import Lia.
From Verif Require Import PyNum PyList PyMon PyRng PyStat L_Num L_List M_Matching M_Rule M_Mixing M_GenomeOps M_Discovery M_Solution M_Composition M_GA M_Saga M_Sas M_Abc M_Aco M_Logging L_Invariance S_Units L_Units L_Tandem S_Order L_OrderComp S_Repeat L_Repeat S_Weight L_Weight L_WeightShip.
Local Notation SN := S_Repeat.same_num.
Local Notation HP := (@ranked_heap same_measures _).

(* ----- equal numbers ----- *)
Lemma neqb_same a b c d : SN a b -> SN c d -> neqb a c = neqb b d.
Proof. destruct a, b; cbn; try contradiction; intros H1; destruct c, d; cbn; try contradiction; intros H2; try reflexivity. apply qeq_same; assumption. Qed.
Lemma is_nan_same a b : SN a b -> is_nan a = is_nan b.
Proof. destruct a, b; cbn; try contradiction; reflexivity. Qed.
Lemma fold_num (h : num -> num -> num) l l' : (forall a b c d, SN a b -> SN c d -> SN (h a c) (h b d)) -> Forall2 SN l l' -> forall a b, SN a b -> SN (fold_left h l a) (fold_left h l' b).
Proof. intros Hh H. induction H as [|x x' l l' Hx H IH]; intros a b Hab; cbn [fold_left]; [exact Hab|]. apply IH. apply Hh; assumption. Qed.
Lemma nmax_same l l' : Forall2 SN l l' -> alike_res SN (nmax l) (nmax l').
Proof.
  intros [|x x' l0 l0' Hx HL]; cbn; [reflexivity|]. apply fold_num; [|exact HL|exact Hx]. intros a b c d H1 H2. unfold nmax2. rewrite (is_nan_same _ _ H1), (is_nan_same _ _ H2), (nlt_same _ _ _ _ H1 H2). destruct (is_nan b); [exact H1|]. destruct (is_nan d); [exact H2|]. destruct (nlt b d); assumption.
Qed.
Lemma nmin_same l l' : Forall2 SN l l' -> alike_res SN (nmin l) (nmin l').
Proof.
  intros [|x x' l0 l0' Hx HL]; cbn; [reflexivity|]. apply fold_num; [|exact HL|exact Hx]. intros a b c d H1 H2. unfold nmin2. rewrite (is_nan_same _ _ H1), (is_nan_same _ _ H2), (nlt_same _ _ _ _ H2 H1). destruct (is_nan b); [exact H1|]. destruct (is_nan d); [exact H2|]. destruct (nlt d b); assumption.
Qed.
Lemma var_same l l' : Forall2 SN l l' -> SN (nvar l) (nvar l').
Proof. intros H. unfold nvar. cbv zeta. apply mean_same. apply (Forall2_map SN); [|exact H]. intros a b Hab. pose proof (mean_same _ _ H) as HM. apply mul_same; apply sub_same; assumption. Qed.
Lemma finites_same w w' : Forall2 SN w w' -> paired (Forall2 Qeq) (finites w) (finites w').
Proof. induction 1 as [|a b w w' H1 H2 IH]; cbn; [constructor|]. destruct a, b; cbn in H1; try contradiction; try exact I. destruct (finites w), (finites w'); cbn in IH; try contradiction; cbn; auto. Qed.
Lemma choices_num_same {A} (l : list A) n w w' : Forall2 SN w w' -> alike eq (choices_num l n w) (choices_num l n w').
Proof.
  intros H q. unfold choices_num. pose proof (finites_same _ _ H) as HF. destruct (finites w) as [ws|], (finites w') as [ws'|]; cbn in HF; try contradiction; [apply (choices_p_same l n ws ws' HF q)|]. split; reflexivity.
Qed.
Lemma filter_num (h h' : num -> bool) l l' : (forall a b, SN a b -> h a = h' b) -> Forall2 SN l l' -> Forall2 SN (filter h l) (filter h' l').
Proof. intros Hh. induction 1 as [|a b l l' H1 H2 IH]; cbn; [constructor|]. rewrite (Hh _ _ H1). destruct (h' b); [constructor; assumption|exact IH]. Qed.
Lemma distinct_same l l' : Forall2 SN l l' -> Forall2 SN (distinct l) (distinct l').
Proof.
  induction 1 as [|a b l l' H1 H2 IH]; cbn [distinct]; constructor; [exact H1|]. apply filter_num; [|exact IH]. intros c d H3. unfold PyStat.same_num. rewrite (neqb_same _ _ _ _ H1 H3), (is_nan_same _ _ H1), (is_nan_same _ _ H3). reflexivity.
Qed.
Lemma exists_num (h h' : num -> bool) l l' : (forall a b, SN a b -> h a = h' b) -> Forall2 SN l l' -> existsb h l = existsb h' l'.
Proof. intros Hh. induction 1 as [|a b l l' H1 H2 IH]; cbn; [reflexivity|]. rewrite (Hh _ _ H1), IH. reflexivity. Qed.
Lemma Forall2_num l : Forall2 SN l l.
Proof. induction l; constructor; auto. apply same_num_refl. Qed.

(* ----- the heap ----- *)
Local Notation scaledM := (L_OrderComp.scaled same_measures).
Lemma scaled_num v v' : scaledM v v' -> SN v v'.
Proof. intros (a & a' & H & -> & ->). apply (sm_fitness _ _ H). Qed.
Lemma val_fitness {K : skind} r : tandem HP SN (fitness (K := K) r) (fitness (K := K) r).
Proof. apply (tan_weak _ scaledM); [exact scaled_num|]. apply tan_fitness. Qed.
Lemma val_fitnesses {K : skind} rs : tandem HP (Forall2 SN) (fitnesses (K := K) rs) (fitnesses (K := K) rs).
Proof. unfold fitnesses. apply (tan_mmap _ eq); [|apply Forall2_eq]. intros r r' <-. apply val_fitness. Qed.
Lemma val_select {K : skind} k pop n : tandem HP eq (select (K := K) k pop n) (select (K := K) k pop n).
Proof.
  destruct k as [| | |k]; try (apply (tan_select _ measures_comparable); exact I). cbn [select]. eapply tan_bind; [apply val_fitnesses|]. intros fs fs' HF. unfold roulette_weights. cbv zeta.
  pose proof (sum_same _ _ HF) as HS. rewrite (neqb_same _ _ _ _ HS (same_num_refl (Fin 0))). destruct (neqb (nsum fs') (Fin 0)); [apply tan_rnd|]. apply tan_rnd_alike, choices_num_same. apply (Forall2_map SN); [|exact HF]. intros a b Hab. apply div_same; assumption.
Qed.
Lemma map2_agree {A B C} (h h' : A -> B -> C) : (forall a b, h a b = h' a b) -> forall l m, map2 h l m = map2 h' l m.
Proof. intros H. induction l as [|a l IH]; intros [|b m]; cbn; try reflexivity. rewrite H, IH. reflexivity. Qed.
Lemma val_flips {K : skind} v v' r : SN v v' -> tandem HP eq (bit_flips (K := K) v r) (bit_flips (K := K) v' r).
Proof.
  intros H. unfold bit_flips. eapply tan_bind; [apply tan_genome|]. intros b b' <-. eapply tan_bind; [apply tan_rnd1|]. intros us us' <-. replace (flip_bits v' us b) with (flip_bits v us b); [apply tan_clone_with|].
  apply map2_agree. intros u x. rewrite (nlt_same (Fin u) (Fin u) v v' (same_num_refl _) H). reflexivity.
Qed.
Lemma val_cross {K : skind} both x v v' a b : SN v v' -> tandem HP eq (crossover (K := K) both x v a b) (crossover (K := K) both x v' a b).
Proof.
  intros H. pose proof (tan_cross same_measures (K := K) both x v a b) as HC. unfold crossover in *. intros s s' Hs. specialize (HC s s' Hs). revert HC. unfold bind. destruct (rnd1 random s) as [[u|e] s1], (rnd1 random s') as [[u'|e'] s1']; try (intros X; exact X). all: rewrite <- (nlt_same (Fin u') (Fin u') v v' (same_num_refl _) H); intros X; exact X.
Qed.
Lemma val_offspring {K} (cross cross' : nat -> nat -> HSt K nat) parents : (forall a b, tandem HP eq (cross a b) (cross' a b)) -> tandem HP eq (offspring cross parents) (offspring cross' parents).
Proof.
  intros H. unfold offspring. eapply (tan_bind _ eq eq); [|intros cs cs' <-; apply tan_ret; reflexivity]. apply tan_each. intros p. eapply (tan_bind _ eq eq); [apply H|]. intros c c' <-. eapply (tan_bind _ eq eq); [apply H|]. intros d d' <-. apply tan_ret. reflexivity.
Qed.
Definition with_state {S} (RS : S -> S -> Prop) (z z' : list nat * S) : Prop := fst z = fst z' /\ RS (snd z) (snd z').
Lemma val_iterate {K A} (Q : A -> A -> Prop) n (h h' : A -> HSt K A) : (forall x x', Q x x' -> tandem HP Q (h x) (h' x')) -> forall x x', Q x x' -> tandem HP Q (iterate n h x) (iterate n h' x').
Proof. intros H. induction n as [|n IH]; intros x x' Hx; cbn [iterate]; [apply tan_ret; exact Hx|]. eapply tan_bind; [apply H; exact Hx|]. intros z z' Hz. apply IH. exact Hz. Qed.

Section Task.
Variables (L : learner) (E E' : env L).
Hypothesis HT : same_task E E'.
Let HE : ranked_task same_measures E E' := st_measured _ _ HT.
Ltac tn :=
  cbv zeta;
  lazymatch goal with
  | |- tandem _ eq (bind _ _) _ => eapply (tan_bind _ eq eq); [tn|intros ? ? <-; tn]
  | |- tandem _ eq (mmap _ _) _ => apply tan_each; intros ?; tn
  | |- tandem _ eq (fit_all _ _) _ => apply (tan_fit_all same_measures L L E E' HE)
  | |- tandem _ eq (M_Solution.fit _ _) _ => apply (tan_fit same_measures L L E E' HE)
  | |- tandem _ eq (miter _ _) _ => apply tan_iter; intros ?; tn
  | |- tandem _ eq (iterate _ _ _) _ => apply tan_iterate; intros ?; tn
  | |- tandem _ eq (if ?b then _ else _) _ => destruct b; tn
  | |- tandem _ eq (match ?p with pair _ _ => _ end) _ => destruct p; tn
  | |- tandem _ eq (ret _) _ => apply tan_ret; reflexivity
  | |- tandem _ eq (raise _) _ => apply tan_raise
  | |- tandem _ eq (lift _) _ => apply tan_value
  | |- tandem _ eq (rnd _) _ => apply tan_rnd
  | |- tandem _ eq (rnd1 _) _ => apply tan_rnd1
  | |- tandem _ eq (genome _) _ => apply tan_genome
  | |- tandem _ eq (set_genome _ _) _ => apply tan_set_genome
  | |- tandem _ eq (get_ext _) _ => apply tan_ext
  | |- tandem _ eq (set_ext _ _) _ => apply tan_set_ext
  | |- tandem _ eq (clone _) _ => apply tan_clone
  | |- tandem _ eq (clone_with _ _) _ => apply tan_clone_with
  | |- tandem _ eq (init_call _ _) _ => apply tan_init
  | |- tandem _ eq (crossover _ _ _ _ _) _ => apply tan_cross
  | |- tandem _ eq (bit_flips _ _) _ => apply tan_flips
  | |- tandem _ eq (offspring _ _) _ => apply tan_offspring; intros ? ?; tn
  | |- tandem _ eq (fittest _) _ => apply (tan_fittest _ measures_comparable)
  | |- tandem _ eq (by_fitness_desc _) _ => apply (tan_ranked _ measures_comparable)
  | |- tandem _ eq (select _ _ _) _ => apply val_select
  | |- _ => idtac
  end.
Lemma ga_values c ini pop st : tandem HP eq (ga_run (K := plain) c L E ini pop st) (ga_run c L E' ini pop st).
Proof. unfold ga_run. tn. unfold ga_step. tn. Qed.
Lemma saga3_values c ini pop st : tandem HP eq (s3_run c L E ini pop st) (s3_run c L E' ini pop st).
Proof. unfold s3_run. tn. unfold saga_generation. tn; unfold saga_cross, saga_flips; tn. Qed.
Lemma adjust_same c fs fs' r : Forall2 SN fs fs' -> s1_adjust c fs r = s1_adjust c fs' r.
Proof.
  intros H. unfold s1_adjust, gdm. pose proof (nmax_same _ _ H) as HM. destruct (nmax fs), (nmax fs'); cbn [alike_res] in HM; try contradiction; cbn [rbind]; [|subst; reflexivity].
  pose proof (div_same _ _ _ _ (mean_same _ _ H) HM) as HV. rewrite (nlt_same _ _ _ _ (same_num_refl (Fin (s1_vmax c))) HV), (nlt_same _ _ _ _ HV (same_num_refl (Fin (s1_vmin c)))). reflexivity.
Qed.
Lemma saga1_values c ini pop st : tandem HP eq (s1_run (K := plain) c L E ini pop st) (s1_run c L E' ini pop st).
Proof.
  unfold s1_run. tn. unfold s1_step. match goal with |- tandem _ _ (match ?z with pair _ _ => _ end) _ => destruct z as [p r] end. eapply tan_bind; [apply val_fitnesses|]. intros fs fs' HF. rewrite (adjust_same c _ _ r HF). tn. unfold saga_generation. tn.
Qed.
Lemma ageing_values n pop : tandem HP eq (ageing n pop) (ageing n pop).
Proof.
  unfold ageing. eapply tan_bind; [apply val_fitnesses|]. intros fs fs' HF. cbv zeta. eapply (tan_bind _ eq eq); [tn|]. intros rk rk' <-. eapply (tan_bind _ eq eq); [tn|]. intros lw lw' <-. eapply tan_bind; [apply val_fitness|]. intros t t' Ht.
  eapply (tan_bind _ eq eq); [|intros _ _ _; tn]. apply tan_iter. intros r. eapply (tan_bind _ eq eq); [tn|]. intros age age' <-. eapply tan_bind; [apply val_fitness|]. intros v v' Hv.
  replace (ageing_by (nmedian fs') t' (Nat.leb (n * 5) (length pop)) v') with (ageing_by (nmedian fs) t (Nat.leb (n * 5) (length pop)) v); [tn|].
  unfold ageing_by. rewrite (nlt_same _ _ _ _ (median_same _ _ HF) Hv), (nlt_same _ _ _ _ Hv Ht). reflexivity.
Qed.
Lemma sas_values c ini pop st : tandem HP eq (sas_run c L E ini pop st) (sas_run c L E' ini pop st).
Proof. unfold sas_run. tn. unfold sas_step. tn. apply ageing_values. Qed.
Lemma greedy_values news : forall fs, tandem HP eq (greedy_update news fs) (greedy_update news fs).
Proof.
  induction news as [|n news IH]; intros [|f fs]; cbn [greedy_update]; try (apply tan_ret; reflexivity). eapply tan_bind; [apply val_fitness|]. intros a a' Ha. eapply tan_bind; [apply val_fitness|]. intros b b' Hb. cbv zeta. rewrite (nlt_same _ _ _ _ Hb Ha).
  eapply (tan_bind _ eq eq); [apply IH|]. intros z z' <-. tn.
Qed.
Lemma phase_values M c fs others : tandem HP eq (bee_phase M c E fs others) (bee_phase M c E' fs others).
Proof.
  unfold bee_phase. eapply (tan_bind _ eq eq); [|intros z z' <-; apply greedy_values]. tn. unfold food_call. tn. unfold food_bits. destruct (be_food c); tn. unfold sigmoid_binarize. tn.
Qed.
Lemma bees_values M c ini pop st : tandem HP eq (bee_run M c L E ini pop st) (bee_run M c L E' ini pop st).
Proof.
  unfold bee_run. tn. unfold bee_step. eapply (tan_bind _ eq eq); [tn|]. intros o o' <-. eapply (tan_bind _ eq eq); [apply phase_values|]. intros fs fs' <-. eapply tan_bind; [apply val_fitnesses|]. intros w w' HW. cbv zeta.
  eapply (tan_bind _ eq eq); [apply tan_rnd_alike, choices_num_same|].
  - apply (Forall2_map SN); [|exact HW]. intros a b Hab. apply div_same; [exact Hab|apply sum_same; exact HW].
  - intros o1 o1' <-. eapply (tan_bind _ eq eq); [apply phase_values|]. intros f1 f1' <-. tn. unfold scout. rewrite (st_pool _ _ HT). tn.
Qed.
(* ----- saga2 ----- *)
Definition same_rates (r r' : rates2) : Prop := SN (cur_cmin r) (cur_cmin r') /\ SN (cur_mmax r) (cur_mmax r').
Definition same_stats (z z' : fstats) : Prop := SN (f_mean z) (f_mean z') /\ SN (f_min z) (f_min z') /\ SN (f_max z) (f_max z').
Lemma stats_same fs fs' : Forall2 SN fs fs' -> alike_res same_stats (stats fs) (stats fs').
Proof.
  intros H. unfold stats. pose proof (nmin_same _ _ H) as H1. pose proof (nmax_same _ _ H) as H2. destruct (nmin fs), (nmin fs'); cbn [alike_res] in H1; try contradiction; cbn [rbind]; [|exact H1]. destruct (nmax fs), (nmax fs'); cbn [alike_res] in H2; try contradiction; cbn [rbind]; [|exact H2].
  repeat split; cbn; [apply mean_same; exact H|exact H1|exact H2].
Qed.
Lemma if_num (b b' : bool) x x' y y' : b = b' -> SN x x' -> SN y y' -> SN (if b then x else y) (if b' then x' else y').
Proof. intros <- H1 H2. destruct b; assumption. Qed.
Ltac num := repeat first [assumption | apply same_num_refl | apply if_num | apply nle_same | apply nlt_same | apply neqb_same | apply sub_same | apply add_same | apply mul_same | apply div_same | apply neg_same].
Lemma xrate_same lo lo' hi z z' a a' b b' : SN lo lo' -> same_stats z z' -> SN a a' -> SN b b' -> SN (s2_xrate lo hi z a b) (s2_xrate lo' hi z' a' b').
Proof.
  intros H1 (Z1 & Z2 & Z3) H2 H3. unfold s2_xrate. cbv zeta. apply if_num; [f_equal; num|num|]. apply if_num; num.
Qed.
Lemma mrate_same lo hi hi' z z' v v' : SN hi hi' -> same_stats z z' -> SN v v' -> SN (s2_mrate lo hi z v) (s2_mrate lo hi' z' v').
Proof. intros H1 (Z1 & Z2 & Z3) H2. unfold s2_mrate. num. Qed.
Lemma dot_same new new' : Forall2 SN new new' -> forall old old', Forall2 SN old old' -> alike_res SN (dot old new) (dot old' new').
Proof.
  induction 1 as [|b b' new new' Hb HN IH]; intros old old' HO; [destruct HO; cbn; reflexivity|]. cbn [dot]. destruct HO as [|a a' old old' Ha HO]; cbn; [reflexivity|]. specialize (IH _ _ HO). destruct (dot old new), (dot old' new'); cbn [alike_res] in IH; try contradiction; cbn [rbind alike_res]; [|exact IH]. num.
Qed.
Section Trig.
Variable t : trig.
Hypothesis Hsqrt : of_value (t_sqrt t).
Hypothesis Hcos : of_value (t_cos t).
Lemma norm_same fs fs' : Forall2 SN fs fs' -> SN (norm t fs) (norm t fs').
Proof. intros H. unfold norm. apply Hsqrt. apply add_same; [|apply same_num_refl]. apply sum_same. apply (Forall2_map SN); [|exact H]. intros a b Hab. num. Qed.
Lemma similarity_same old old' new new' : Forall2 SN old old' -> Forall2 SN new new' -> alike_res SN (similarity t old new) (similarity t old' new').
Proof.
  intros H1 H2. unfold similarity. pose proof (dot_same _ _ H2 _ _ H1) as HD. destruct (dot old new), (dot old' new'); cbn [alike_res] in HD; try contradiction; cbn [rbind]; [|exact HD]. cbv zeta.
  rewrite (L_List.Forall2_len _ _ _ (distinct_same _ _ (Forall2_app H2 H1))). destruct (Nat.eqb _ 0); cbn [alike_res]; [apply same_num_refl|].
  apply mul_same; [apply div_same; [exact HD|]; apply add_same; apply norm_same; assumption|].
  assert (HF : Forall2 SN (filter (fun x => existsb (neqb x) (distinct old)) (distinct new)) (filter (fun x => existsb (neqb x) (distinct old')) (distinct new'))).
  { apply filter_num; [|apply distinct_same; exact H2]. intros x x' Hx. apply exists_num; [|apply distinct_same; exact H1]. intros w w' Hw. apply neqb_same; assumption. }
  rewrite (L_List.Forall2_len _ _ _ HF). apply same_num_refl.
Qed.
Definition same_pair (p p' : num * num) : Prop := SN (fst p) (fst p') /\ SN (snd p) (snd p').
Lemma diversity_same v v' w w' z z' fs fs' : SN v v' -> SN w w' -> same_stats z z' -> Forall2 SN fs fs' ->
  SN (fst (diversity t v w z fs)) (fst (diversity t v' w' z' fs')) /\ same_pair (snd (diversity t v w z fs)) (snd (diversity t v' w' z' fs')).
Proof.
  intros H1 H2 (Z1 & Z2 & Z3) H3. pose proof (var_same _ _ H3) as HV. unfold diversity. cbv zeta. cbn [fst snd]. split; [|split; cbn [fst snd]; num]. apply mul_same; [num|]. apply if_num; [num|num|]. apply Hcos. num.
Qed.
Lemma rates_same c q q' : SN q q' -> same_rates (s2_rates c q) (s2_rates c q').
Proof. intros H. unfold s2_rates. split; cbn [cur_cmin cur_mmax]; num. Qed.
Lemma breed_values {K} c z z' r r' pop : same_stats z z' -> same_rates r r' -> tandem HP eq (s2_breed (K := K) c E z r pop) (s2_breed (K := K) c E' z' r' pop).
Proof.
  intros HZ [HR1 HR2]. unfold s2_breed. eapply (tan_bind _ eq eq); [tn|]. intros rk rk' <-. cbv zeta. eapply (tan_bind _ eq eq); [tn|]. intros ps ps' <-. eapply (tan_bind _ eq eq).
  - apply val_offspring. intros a b. eapply tan_bind; [apply val_fitness|]. intros u u' Hu. eapply tan_bind; [apply val_fitness|]. intros w w' Hw. apply val_cross. apply xrate_same; assumption.
  - intros kids kids' <-. eapply (tan_bind _ eq eq); [tn|]. intros _ _ _. eapply (tan_bind _ eq eq); [|intros m m' <-; tn]. apply tan_each. intros q. eapply tan_bind; [apply val_fitness|]. intros u u' Hu. apply val_flips. apply mrate_same; assumption.
Qed.
Record same_s2 (z z' : s2state) : Prop := {
  ss_same : z_iter z = z_iter z' /\ z_pop z = z_pop z';
  ss_stats : same_stats (z_stats z) (z_stats z');
  ss_vars : SN (z_vmin z) (z_vmin z') /\ SN (z_vmax z) (z_vmax z');
  ss_rates : same_rates (z_rates z) (z_rates z') }.
Lemma s2_step_values {K} c z z' : same_s2 z z' -> tandem HP same_s2 (s2_step (K := K) t c E z) (s2_step (K := K) t c E' z').
Proof.
  intros [[S1 S2] S3 [S4 S5] S6]. unfold s2_step. rewrite <- S1, <- S2. eapply (tan_bind _ eq _); [apply breed_values; assumption|]. intros p p' <-. eapply tan_bind; [apply val_fitnesses|]. intros fs fs' HF. eapply tan_bind; [apply tan_lift, stats_same; exact HF|]. intros st st' Hst.
  destruct (Nat.eqb (z_iter z) 0); [apply tan_ret; constructor; cbn; [split; reflexivity|exact Hst|split; assumption|exact S6]|]. destruct (diversity_same _ _ _ _ _ _ _ _ S4 S5 Hst HF) as [HD HV]. destruct (diversity t (z_vmin z) (z_vmax z) st fs) as [d [lo hi]], (diversity t (z_vmin z') (z_vmax z') st' fs') as [d' [lo' hi']]. cbn [fst snd] in HD, HV. destruct HV as [HV1 HV2]. cbn [fst snd] in HV1, HV2.
  eapply tan_bind; [apply val_fitnesses|]. intros old old' HO. eapply tan_bind; [apply tan_lift, similarity_same; eassumption|]. intros sim sim' HS. apply tan_ret. constructor; cbn [z_iter z_pop z_stats z_vmin z_vmax z_rates]; [split; reflexivity|exact Hst|split; assumption|]. apply rates_same. num.
Qed.
Lemma saga2_values {K} c ini pop r r' : same_rates r r' -> tandem HP (with_state same_rates) (s2_run (K := K) t c L E ini pop r) (s2_run (K := K) t c L E' ini pop r').
Proof.
  intros HR. unfold s2_run. eapply (tan_bind _ eq _); [tn|]. intros _ _ _. eapply (tan_bind _ eq _); [tn|]. intros p p' <-. eapply tan_bind; [apply val_fitnesses|]. intros fs fs' HF. cbv zeta. eapply tan_bind; [apply tan_lift, stats_same; exact HF|]. intros st st' Hst. pose proof (var_same _ _ HF) as HV.
  eapply tan_bind; [apply val_iterate; [intros z z' Hz; apply s2_step_values; exact Hz|]; constructor; cbn; auto|]. intros z z' [[S1 S2] S3 S4 S5]. apply tan_ret. split; cbn; assumption.
Qed.
End Trig.

(* ----- ants ----- *)
Section Ants.
Variables (A : amath) (b : bparams).
Hypothesis Hpow : forall v v' a, SN v v' -> SN (m_pow A v a) (m_pow A v' a).
Lemma normalized_same w w' : same_pair w w' -> SN (normalized w) (normalized w').
Proof. intros [H1 H2]. unfold normalized. num. Qed.
Lemma weigh_same p p' e e' : same_pair p p' -> same_pair e e' -> same_pair (weigh A b p e) (weigh A b p' e').
Proof. intros [H1 H2] [H3 H4]. unfold weigh. split; cbn [fst snd]; apply mul_same; apply Hpow; assumption. Qed.
Lemma pair_refl p : same_pair p p.
Proof. split; apply same_num_refl. Qed.
Lemma pairs_refl l : Forall2 same_pair l l.
Proof. induction l; constructor; auto. apply pair_refl. Qed.
Lemma num_map2 {B} (h h' : num * num -> B -> num) : (forall p p' e, same_pair p p' -> SN (h p e) (h' p' e)) -> forall p p', Forall2 same_pair p p' -> forall es, Forall2 SN (map2 h p es) (map2 h' p' es).
Proof. intros H. induction 1 as [|x x' p p' Hx HP IH]; intros [|e es]; cbn; constructor; auto. Qed.
Lemma pair_map2 {B} (h h' : num * num -> B -> num * num) : (forall p p' e, same_pair p p' -> same_pair (h p e) (h' p' e)) -> forall p p', Forall2 same_pair p p' -> forall es, Forall2 same_pair (map2 h p es) (map2 h' p' es).
Proof. intros H. induction 1 as [|x x' p p' Hx HP IH]; intros [|e es]; cbn; constructor; auto. Qed.
Lemma bits_same us : forall w w', Forall2 SN w w' -> map2 (fun u v => nle (Fin u) v) us w = map2 (fun u v => nle (Fin u) v) us w'.
Proof. induction us as [|u us IH]; intros w w' [|x x' w0 w0' Hx HW]; cbn [map2]; try reflexivity. rewrite (IH _ _ HW), (nle_same (Fin u) (Fin u) _ _ (same_num_refl _) Hx). reflexivity. Qed.
Lemma bin_build_values p p' (pool : list (rule L)) : Forall2 same_pair p p' -> tandem HP eq (bin_build A b L p pool) (bin_build A b L p' pool).
Proof.
  intros H. unfold bin_build. eapply (tan_bind _ eq eq); [tn|]. intros eta eta' <-. rewrite (L_List.Forall2_len _ _ _ H). destruct (negb _); [apply tan_raise|]. cbv zeta. eapply (tan_bind _ eq eq); [tn|]. intros us us' <-. apply tan_ret. apply bits_same. apply num_map2; [|exact H].
  intros q q' e Hq. apply normalized_same, weigh_same; [exact Hq|apply pair_refl].
Qed.
(* a builder whose pheromones enter only by their values *)
Record steady (B : builder) (RP : ph B -> ph B -> Prop) : Prop := {
  sd_refl : forall p, RP p p;
  sd_pad : forall o o' n, paired RP o o' -> alike_res RP (ph_pad B o n) (ph_pad B o' n);
  sd_map : forall h p p', of_value h -> RP p p' -> RP (ph_map B h p) (ph_map B h p');
  sd_build : forall p p' (pool : list (rule L)), RP p p' -> tandem HP eq (ph_build B L p pool) (ph_build B L p' pool);
  sd_update : forall p p' bits d d', RP p p' -> SN d d' -> RP (ph_update B p bits d) (ph_update B p' bits d') }.
Lemma binary_steady : steady (Binary A b) (Forall2 same_pair).
Proof.
  constructor; cbn [ph ph_pad ph_map ph_build ph_update Binary].
  - exact pairs_refl.
  - intros o o' n H. unfold bin_pad. assert (HR : Forall2 same_pair (match o with Some r => r | None => [] end) (match o' with Some r => r | None => [] end)) by (destruct o, o'; cbn in H; try contradiction; [exact H|constructor]).
    cbv zeta. rewrite (L_List.Forall2_len _ _ _ HR). destruct (Nat.ltb _ _); cbn [alike_res]; [reflexivity|]. apply Forall2_app; [exact HR|apply pairs_refl].
  - intros h p p' Hh H. apply (Forall2_map same_pair); [|exact H]. intros q q' [H1 H2]. split; cbn [fst snd]; apply Hh; assumption.
  - intros p p' pool H. apply bin_build_values. exact H.
  - intros p p' bits d d' H Hd. unfold bin_update. apply pair_map2; [|exact H]. intros q q' e [H1 H2]. split; cbn [fst snd]; num.
Qed.
(* the complete graph *)
Notation RM := (Forall2 (Forall2 same_pair)).
Lemma rows_refl p : RM p p.
Proof. induction p; constructor; auto. apply pairs_refl. Qed.
Lemma repeat_related {X} (Q : X -> X -> Prop) x n : Q x x -> Forall2 Q (repeat x n) (repeat x n).
Proof. intros H. induction n; constructor; auto. Qed.
Lemma nth_related {X} (Q : X -> X -> Prop) l l' : Forall2 Q l l' -> forall i, alike_res Q (of_option IndexError (nth_error l i)) (of_option IndexError (nth_error l' i)).
Proof. induction 1 as [|x x' l l' Hx H IH]; intros [|i]; cbn [nth_error of_option alike_res]; auto. Qed.
Lemma entry_same p p' i j : RM p p' -> alike_res same_pair (entry p i j) (entry p' i j).
Proof.
  intros H. unfold entry. pose proof (nth_related _ _ _ H i) as HR. destruct (of_option IndexError (nth_error p i)), (of_option IndexError (nth_error p' i)); cbn [alike_res] in HR; try contradiction; cbn [rbind]; [|exact HR]. apply nth_related. exact HR.
Qed.
Lemma rmap_related {X Y} (Q : Y -> Y -> Prop) (h h' : X -> res Y) l : (forall x, alike_res Q (h x) (h' x)) -> alike_res (Forall2 Q) (rmap h l) (rmap h' l).
Proof.
  intros H. induction l as [|x l IH]; cbn [rmap]; [constructor|]. specialize (H x). destruct (h x), (h' x); cbn [alike_res] in H; try contradiction; cbn [rbind]; [|exact H]. destruct (rmap h l), (rmap h' l); cbn [alike_res] in IH; try contradiction; cbn [rbind alike_res]; [constructor; assumption|exact IH].
Qed.
Lemma pair_sum_same l l' : Forall2 same_pair l l' -> same_pair (pair_sum l) (pair_sum l').
Proof. intros H. unfold pair_sum. split; cbn [fst snd]; apply sum_same; apply (Forall2_map same_pair); try exact H; intros q q' [H1 H2]; assumption. Qed.
Lemma prob_same part p p' (pool : list (rule L)) eta route j : RM p p' -> alike_res SN (com_prob A b part p pool eta route j) (com_prob A b part p' pool eta route j).
Proof.
  intros H. unfold com_prob. destruct (of_option IndexError (nth_error pool j)) as [rj|]; cbn [rbind]; [|reflexivity]. destruct (of_option IndexError (nth_error eta j)) as [fj|]; cbn [rbind]; [|reflexivity]. cbv zeta. destruct (rmap _ _) as [ov|]; cbn [rbind]; [|reflexivity].
  rewrite <- (L_List.Forall2_len _ _ _ H).
  match goal with |- alike_res _ (rbind (rmap ?h ?l) _) (rbind (rmap ?h' _) _) => pose proof (rmap_related same_pair h h' l (fun i => entry_same p p' i j H)) as HM; destruct (rmap h l) as [ts|], (rmap h' l) as [ts'|]; cbn [alike_res] in HM; try contradiction; cbn [rbind]; [|exact HM] end.
  cbn [alike_res]. apply normalized_same, weigh_same; [apply pair_sum_same; exact HM|apply pair_refl].
Qed.
Lemma route_values part p p' (pool : list (rule L)) eta order : RM p p' -> forall route, tandem HP eq (com_route (com_visit A b part p pool eta) order route) (com_route (com_visit A b part p' pool eta) order route).
Proof.
  intros H. induction order as [|j order IH]; intros route; cbn [com_route]; [apply tan_ret; reflexivity|]. eapply (tan_bind _ eq eq); [|intros r r' <-; apply IH]. unfold com_visit. eapply tan_bind; [apply tan_lift, prob_same; exact H|]. intros w w' HW. eapply (tan_bind _ eq eq); [tn|]. intros u u' <-. rewrite (nle_same (Fin u) (Fin u) _ _ (same_num_refl _) HW). apply tan_ret. reflexivity.
Qed.
Lemma mapi_related {X Y Y'} (Q : X -> X -> Prop) (Q' : Y -> Y' -> Prop) (h : nat -> X -> Y) (h' : nat -> X -> Y') : (forall i x x', Q x x' -> Q' (h i x) (h' i x')) -> forall l l', Forall2 Q l l' -> Forall2 Q' (mapi h l) (mapi h' l').
Proof. intros H l l' HL. unfold mapi. generalize 0%nat. induction HL as [|x x' l l' Hx HL IH]; intros i; cbn [mapi_from]; constructor; auto. Qed.
Lemma bump_same sel d d' p p' ij : SN d d' -> RM p p' -> RM (bump sel d p ij) (bump sel d' p' ij).
Proof.
  intros Hd. unfold bump. apply mapi_related. intros i r r' Hr. destruct (Nat.eqb i _); [|exact Hr]. revert r r' Hr. apply mapi_related. intros j q q' Hq. destruct (Nat.eqb j _); [|exact Hq]. destruct Hq as [H1 H2]. destruct sel; split; cbn [fst snd]; num.
Qed.
Lemma fold_related {X Y} (Q : X -> X -> Prop) (h h' : X -> Y -> X) : (forall x x' y, Q x x' -> Q (h x y) (h' x' y)) -> forall l x x', Q x x' -> Q (fold_left h l x) (fold_left h' l x').
Proof. intros H. induction l as [|y l IH]; intros x x' Hx; cbn; [exact Hx|]. apply IH, H, Hx. Qed.
Lemma update_same p p' bits d d' : RM p p' -> SN d d' -> RM (com_update p bits d) (com_update p' bits d').
Proof.
  intros H Hd. unfold com_update, bumps. cbv zeta. apply fold_related; [intros x x' y Hx; repeat apply bump_same; assumption|]. repeat (apply fold_related; [intros x x' y Hx; apply bump_same; assumption|]). destruct (Nat.ltb _ _); [apply fold_related; [intros x x' y Hx; apply bump_same; assumption|]|]; exact H.
Qed.
Lemma com_pad_same tau o o' n : paired RM o o' -> alike_res RM (com_pad tau o n) (com_pad tau o' n).
Proof.
  intros H. assert (HP : forall p p' : cmatrix, RM p p' -> alike_res RM (com_pad tau (Some p) n) (com_pad tau (Some p') n)).
  { intros p p' HR. unfold com_pad. cbv zeta. pose proof (L_List.Forall2_len _ _ _ HR) as HL. unfold cmatrix in *. rewrite HL. destruct (Nat.ltb _ _); cbn [alike_res]; [reflexivity|]. apply Forall2_app; [|apply rows_refl]. apply (Forall2_map (Forall2 same_pair)); [|exact HR]. intros q q' Hq. apply Forall2_app; [exact Hq|apply pairs_refl]. }
  destruct o as [p|], o' as [p'|]; cbn in H; try contradiction; [apply HP; exact H|apply (HP [] []); constructor].
Qed.
Lemma complete_steady part : steady (Complete A b part) RM.
Proof.
  constructor; cbn [ph ph_pad ph_map ph_build ph_update Complete].
  - exact rows_refl.
  - intros o o' n H. apply com_pad_same. exact H.
  - intros h p p' Hh H. apply (Forall2_map (Forall2 same_pair)); [|exact H]. intros r r' Hr. apply (Forall2_map same_pair); [|exact Hr]. intros q q' [H1 H2]. split; cbn [fst snd]; apply Hh; assumption.
  - intros p p' pool H. unfold com_build. eapply (tan_bind _ eq eq); [tn|]. intros eta eta' <-. eapply (tan_bind _ eq eq); [tn|]. intros od od' <-. eapply (tan_bind _ eq eq); [apply route_values; exact H|]. intros r r' <-. tn.
  - intros p p' bits d d'. apply update_same.
Qed.
End Ants.
Section Colony.
Variables (B : builder) (RP : ph B -> ph B -> Prop) (c : acfg).
Hypothesis HB : steady B RP.
Lemma clip_value lo hi : of_value (nclip lo hi).
Proof. intros v v' H. unfold nclip. cbv zeta. num. Qed.
Lemma aco_step_values z z' : with_state RP z z' -> tandem HP (with_state RP) (aco_step B c E z) (aco_step B c E' z').
Proof.
  intros [Hp HR]. destruct z as [pop p], z' as [pop' p']. cbn [fst snd] in Hp, HR. subst pop'. unfold aco_step. eapply (tan_bind _ eq _).
  - apply tan_iter. intros r. rewrite (st_pool _ _ HT). eapply (tan_bind _ eq eq); [apply (sd_build _ _ HB); exact HR|]. intros bits bits' <-. tn.
  - intros _ _ _. eapply (tan_bind _ eq _); [tn|]. intros _ _ _. cbv zeta. eapply (tan_bind _ eq _); [tn|]. intros rk rk' <-. eapply tan_bind with (R := Forall2 (fun m m' : list bool * num => fst m = fst m' /\ SN (snd m) (snd m'))).
    + apply (tan_mmap _ eq); [|apply Forall2_eq]. intros r r' <-. eapply (tan_bind _ eq _); [tn|]. intros bits bits' <-. eapply tan_bind; [apply val_fitness|]. intros v v' Hv. apply tan_ret. split; cbn [fst snd]; [reflexivity|num].
    + intros ms ms' HM. apply tan_ret. split; cbn [fst snd]; [reflexivity|]. apply (sd_map _ _ HB); [apply clip_value|].
      assert (H0 : RP (ph_map B (nmul (Fin (1 - a_evap c))) p) (ph_map B (nmul (Fin (1 - a_evap c))) p')) by (apply (sd_map _ _ HB); [intros v v' Hv; num|exact HR]).
      revert H0. generalize (ph_map B (nmul (Fin (1 - a_evap c))) p), (ph_map B (nmul (Fin (1 - a_evap c))) p'). induction HM as [|m m' ms ms' [H1 H2] HM IH]; intros x x' Hx; cbn [fold_left]; [exact Hx|]. apply IH. rewrite <- H1. apply (sd_update _ _ HB); assumption.
Qed.
Lemma aco_values ini pop i i' : paired RP i i' -> tandem HP (with_state (paired RP)) (aco_run B c L E ini pop i) (aco_run B c L E' ini pop i').
Proof.
  intros HI. unfold aco_run. rewrite (st_pool _ _ HT). eapply tan_bind; [apply tan_lift, (sd_pad _ _ HB); destruct (a_warm c); [exact HI|exact I]|]. intros p p' Hp. eapply (tan_bind _ eq _); [tn|]. intros q q' <-.
  eapply tan_bind; [apply val_iterate; [intros z z' Hz; apply aco_step_values; exact Hz|split; [reflexivity|exact Hp]]|]. intros z z' [H1 H2]. apply tan_ret. split; cbn [fst snd]; [exact H1|exact H2].
Qed.
End Colony.
End Task.

(* ----- every metaheuristic ----- *)
Lemma plain_values {K} (O : optimizer K) : (forall L (E E' : env L) ini pop i, same_task E E' -> tandem HP eq (orun O L E ini pop i) (orun O L E' ini pop i)) -> values_only O.
Proof. intros H. exists eq. split; [reflexivity|]. split; [intros i i' <-; reflexivity|]. intros L E E' ini pop i i' HT <-. apply (tan_weak _ eq); [intros z z' <-; split; reflexivity|]. apply H. exact HT. Qed.
Lemma ranks_values {K} (O : optimizer K) : ranks_only O -> values_only O.
Proof. intros H. apply plain_values. intros L E E' ini pop i HT. apply (H same_measures L L E E' measures_comparable (st_measured _ _ HT)). Qed.
Lemma ga_values_only c : values_only (ga c).
Proof. apply plain_values. intros L E E' ini pop i HT. apply (ga_values L E E' HT). Qed.
Lemma saga1_values_only c : values_only (saga1 c).
Proof. apply plain_values. intros L E E' ini pop i HT. apply (saga1_values L E E' HT). Qed.
Lemma saga2_values_only t c : of_value (t_sqrt t) -> of_value (t_cos t) -> values_only (saga2 t c).
Proof.
  intros H1 H2. exists same_rates. split; [intros r; split; apply same_num_refl|]. split; [reflexivity|]. intros L E E' ini pop i i' HT HR. apply (saga2_values L E E' HT t H1 H2 c ini pop i i' HR).
Qed.
Lemma saga3_values_only c : values_only (saga3 c).
Proof. apply plain_values. intros L E E' ini pop i HT. apply (saga3_values L E E' HT). Qed.
Lemma sas_values_only c : values_only (sas c).
Proof. apply plain_values. intros L E E' ini pop i HT. apply (sas_values L E E' HT). Qed.
Lemma bees_values_only M c : values_only (bees M c).
Proof. apply plain_values. intros L E E' ini pop i HT. apply (bees_values L E E' HT). Qed.
Lemma steady_values_only B RP c : (forall L, steady L B RP) -> values_only (aco B c).
Proof.
  intros HB. exists (paired RP). split; [intros [p|]; cbn; [apply (sd_refl _ _ _ (HB L_RuleProps.mean_learner))|exact I]|]. split; [reflexivity|]. intros L E E' ini pop i i' HT HI. apply (aco_values L E E' HT B RP c (HB L) ini pop i i' HI).
Qed.
Lemma aco_values_only A b c part : (forall a, of_value (fun v => m_pow A v a)) -> values_only (aco (Binary A b) c) /\ values_only (aco (Complete A b part) c).
Proof.
  intros H1. split; [apply (steady_values_only (Binary A b) (Forall2 same_pair)); intros L; apply binary_steady|apply (steady_values_only (Complete A b part) (Forall2 (Forall2 same_pair))); intros L; apply complete_steady]; intros v v' a Hv; apply (H1 a); exact Hv.
Qed.
