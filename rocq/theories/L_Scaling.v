(* Solution composition with all fitness values multiplied by a positive number. *)
From Coq Require Import Lia.
From Verif Require Import PyNum PyList PyMon PyRng PyStat L_Num L_List M_Matching M_Rule M_Mixing M_GenomeOps M_Solution M_Composition M_GA M_Saga M_Sas M_Abc L_Invariance S_Units L_Units L_Tandem S_Order L_Ratio L_OrderComp.
From Coq Require Import Lqa.
Local Notation SN := S_Invariance.same_num.

Lemma proportional_comparable g : proportional g -> comparable (ranked_satts g).
Proof. intros Hg a a' b b' [-> _] [-> _]. apply (proportional_rising g Hg). Qed.

Section Scale.
Variables (g : num -> num) (k : Q).
Hypothesis Hk : 0 < k.
Hypothesis Hg : forall v, g v = nmul (Fin k) v.
Local Notation R := (ranked_satts g).
Local Notation HP := (@ranked_heap R _).
Let HR : comparable R := proportional_comparable g (ex_intro _ k (conj Hk Hg)).
Local Notation BK := (by_k k).
Lemma sc_fitness {K : skind} r : tandem HP BK (fitness (K := K) r) (fitness (K := K) r).
Proof. apply (tan_weak _ (L_OrderComp.scaled R)); [|apply tan_fitness]. intros v v' (a & a' & [H _] & -> & ->). rewrite H, Hg. apply by_k_mul. exact Hk. Qed.
Lemma sc_fitnesses {K : skind} rs : tandem HP (Forall2 BK) (fitnesses (K := K) rs) (fitnesses (K := K) rs).
Proof. unfold fitnesses. apply (tan_mmap _ eq); [|apply Forall2_eq]. intros r r' <-. apply sc_fitness. Qed.
Lemma alike_refs {X} (m m' : St rng (list X)) : alike (Forall2 eq) m m' -> alike eq m m'.
Proof. intros H q. specialize (H q). destruct (m q) as [[o|e] q1], (m' q) as [[o'|e'] q2]; try contradiction; destruct H as [H1 H2]; (split; [exact H1|]); [apply L_Units.eq_Forall2; exact H2|exact H2]. Qed.
Lemma sc_wheel {K : skind} {X} (pop : list X) n ws ws' : Forall2 BK ws ws' -> tandem (@ranked_heap R K) eq (rnd (choices_num pop n (map (fun f => ndiv f (nsum ws)) ws))) (rnd (choices_num pop n (map (fun f => ndiv f (nsum ws')) ws'))).
Proof. intros H. apply tan_rnd_alike. apply alike_refs. apply choices_num_alike; [apply Forall2_eq|]. apply (shares k Hk). exact H. Qed.
Lemma sc_select {K : skind} s pop n : tandem HP eq (select (K := K) s pop n) (select (K := K) s pop n).
Proof.
  destruct s as [| | |d]; try (apply (tan_select _ HR); exact I). cbn [select]. eapply tan_bind; [apply sc_fitnesses|]. intros fs fs' HF. unfold roulette_weights. cbv zeta.
  rewrite (by_k_nought k Hk _ _ (by_k_sum k _ _ HF)). destruct (neqb (nsum fs) (Fin 0)); [apply tan_rnd|apply sc_wheel; exact HF].
Qed.
Lemma sc_nan l l' : Forall2 BK l l' -> existsb is_nan l = existsb is_nan l'.
Proof. induction 1 as [|a a' l l' H HL IH]; cbn; [reflexivity|]. rewrite IH. destruct a, a'; cbn in H; try contradiction; reflexivity. Qed.
Lemma sc_max l l' : Forall2 BK l l' -> alike_res BK (nmax l) (nmax l').
Proof.
  intros [|x x' l0 l0' Hx HL]; cbn [nmax]; [reflexivity|]. cbn [alike_res]. revert x x' Hx. induction HL as [|y y' m m' Hy HL IH]; intros x x' Hx; cbn [fold_left]; [exact Hx|]. apply IH. unfold nmax2. rewrite (by_k_lt k Hk _ _ _ _ Hx Hy).
  destruct x, x'; cbn in Hx |- *; try contradiction; destruct y, y'; cbn in Hy |- *; try contradiction; auto; match goal with |- context[if ?b then _ else _] => destruct b end; cbn; auto.
Qed.
Lemma sc_mean l l' : l <> [] -> Forall2 BK l l' -> BK (nmean l) (nmean l').
Proof.
  intros HN H. unfold nmean, nlen. rewrite <- (L_List.Forall2_len _ _ _ H). apply (by_k_part k); [|apply (by_k_sum k); exact H]. destruct l as [|x l]; [congruence|]. unfold qofnat. cbn [length]. rewrite Nat2Z.inj_succ. unfold Qlt. cbn. lia.
Qed.
Lemma sc_median l l' : Forall2 BK l l' -> BK (nmedian l) (nmedian l').
Proof.
  intros H. unfold nmedian. rewrite (sc_nan _ _ H). destruct (existsb is_nan l'); [exact I|]. cbv zeta. assert (HS : Forall2 BK (PyList.sort nlt l) (PyList.sort nlt l')) by (apply sort_same; [|exact H]; intros a b a' b' Ha Hb; symmetry; apply (by_k_lt k Hk); assumption).
  rewrite (L_List.Forall2_len _ _ _ H). destruct (Nat.odd _); [apply nth_either; [exact HS|exact I]|]. destruct H as [|x x' l l' Hx HL]; [exact I|]. apply (by_k_part k); [lra|]. apply (by_k_add k); apply nth_either; try exact HS; exact I.
Qed.
Section Task.
Variables (L L' : learner) (E : env L) (E' : env L').
Hypothesis HE : ranked_task R E E'.
Ltac tn :=
  cbv zeta;
  lazymatch goal with
  | |- tandem _ eq (bind _ _) _ => eapply (tan_bind _ eq eq); [tn|intros ? ? <-; tn]
  | |- tandem _ eq (mmap _ _) _ => apply tan_each; intros ?; tn
  | |- tandem _ eq (fit_all _ _) _ => apply (tan_fit_all R L L' E E' HE)
  | |- tandem _ eq (M_Solution.fit _ _) _ => apply (tan_fit R L L' E E' HE)
  | |- tandem _ eq (miter _ _) _ => apply tan_iter; intros ?; tn
  | |- tandem _ eq (iterate _ _ _) _ => apply tan_iterate; intros ?; tn
  | |- tandem _ eq (if ?b then _ else _) _ => destruct b; tn
  | |- tandem _ eq (ret _) _ => apply tan_ret; reflexivity
  | |- tandem _ eq (raise _) _ => apply tan_raise
  | |- tandem _ eq (lift _) _ => apply tan_value
  | |- tandem _ eq (rnd _) _ => apply tan_rnd
  | |- tandem _ eq (rnd1 _) _ => apply tan_rnd1
  | |- tandem _ eq (genome _) _ => apply tan_genome
  | |- tandem _ eq (get_ext _) _ => apply tan_ext
  | |- tandem _ eq (set_ext _ _) _ => apply tan_set_ext
  | |- tandem _ eq (clone _) _ => apply tan_clone
  | |- tandem _ eq (clone_with _ _) _ => apply tan_clone_with
  | |- tandem _ eq (init_call _ _) _ => apply tan_init
  | |- tandem _ eq (crossover _ _ _ _ _) _ => apply tan_cross
  | |- tandem _ eq (bit_flips _ _) _ => apply tan_flips
  | |- tandem _ eq (offspring _ _) _ => apply tan_offspring; intros ? ?; tn
  | |- tandem _ eq (fittest _) _ => apply (tan_fittest _ HR)
  | |- tandem _ eq (by_fitness_desc _) _ => apply (tan_ranked _ HR)
  | |- tandem _ eq (select _ _ _) _ => apply sc_select
  | |- _ => idtac
  end.
Lemma ga_scaled c ini pop st : tandem HP eq (ga_run (K := plain) c L E ini pop st) (ga_run c L' E' ini pop st).
Proof. unfold ga_run. tn. unfold ga_step. tn. Qed.
Lemma saga3_scaled c ini pop st : tandem HP eq (s3_run c L E ini pop st) (s3_run c L' E' ini pop st).
Proof. unfold s3_run. tn. unfold saga_generation. tn; unfold saga_cross, saga_flips; tn. Qed.
Lemma adjust_scaled c fs fs' r : Forall2 BK fs fs' -> s1_adjust c fs r = s1_adjust c fs' r.
Proof.
  intros H. unfold s1_adjust, gdm. pose proof (sc_max _ _ H) as HM. destruct fs as [|x fs]; [inversion H; subst; reflexivity|]. assert (HN : x :: fs <> []) by discriminate. pose proof (sc_mean _ _ HN H) as HA. revert HM HA. generalize (nmean (x :: fs)), (nmean fs').
  destruct (nmax (x :: fs)), (nmax fs'); intros m m' HM HA; cbn [alike_res] in HM; try contradiction; cbn [rbind]; [|subst; reflexivity].
  pose proof (by_k_ratio k Hk _ _ _ _ HA HM) as HV. rewrite (nlt_same (Fin (s1_vmax c)) _ (Fin (s1_vmax c)) _ (Qeq_refl _) HV), (nlt_same _ (Fin (s1_vmin c)) _ (Fin (s1_vmin c)) HV (Qeq_refl _)). reflexivity.
Qed.
Lemma saga1_scaled c ini pop st : tandem HP eq (s1_run (K := plain) c L E ini pop st) (s1_run c L' E' ini pop st).
Proof.
  unfold s1_run. tn. unfold s1_step. match goal with |- tandem _ _ (match ?z with pair _ _ => _ end) _ => destruct z as [p r] end. eapply tan_bind; [apply sc_fitnesses|]. intros fs fs' HF. rewrite (adjust_scaled c _ _ r HF). tn. unfold saga_generation. tn.
Qed.
Lemma ageing_scaled n pop : tandem HP eq (ageing n pop) (ageing n pop).
Proof.
  unfold ageing. eapply tan_bind; [apply sc_fitnesses|]. intros fs fs' HF. cbv zeta. eapply (tan_bind _ eq eq); [tn|]. intros rk rk' <-. eapply (tan_bind _ eq eq); [tn|]. intros lw lw' <-. eapply tan_bind; [apply sc_fitness|]. intros t t' Ht.
  eapply (tan_bind _ eq eq); [|intros _ _ _; tn]. apply tan_iter. intros r. eapply (tan_bind _ eq eq); [tn|]. intros age age' <-. eapply tan_bind; [apply sc_fitness|]. intros v v' Hv.
  replace (ageing_by (nmedian fs') t' (Nat.leb (n * 5) (length pop)) v') with (ageing_by (nmedian fs) t (Nat.leb (n * 5) (length pop)) v); [tn|].
  unfold ageing_by. rewrite (by_k_lt k Hk _ _ _ _ (sc_median _ _ HF) Hv), (by_k_lt k Hk _ _ _ _ Hv Ht). reflexivity.
Qed.
Lemma sas_scaled c ini pop st : tandem HP eq (sas_run c L E ini pop st) (sas_run c L' E' ini pop st).
Proof. unfold sas_run. tn. unfold sas_step. tn. apply ageing_scaled. Qed.
Lemma greedy_scaled news : forall fs, tandem HP eq (greedy_update news fs) (greedy_update news fs).
Proof.
  induction news as [|n news IH]; intros [|f fs]; cbn [greedy_update]; try (apply tan_ret; reflexivity). eapply tan_bind; [apply sc_fitness|]. intros a a' Ha. eapply tan_bind; [apply sc_fitness|]. intros b b' Hb. cbv zeta. rewrite (by_k_lt k Hk _ _ _ _ Hb Ha).
  eapply (tan_bind _ eq eq); [apply IH|]. intros z z' <-. tn.
Qed.
Lemma phase_scaled M c fs others : tandem HP eq (bee_phase M c E fs others) (bee_phase M c E' fs others).
Proof.
  unfold bee_phase. eapply (tan_bind _ eq eq); [|intros z z' <-; apply greedy_scaled]. tn. unfold food_call. tn. unfold food_bits. destruct (be_food c); tn. unfold sigmoid_binarize. tn.
Qed.
Lemma bees_scaled M c ini pop st : tandem HP eq (bee_run M c L E ini pop st) (bee_run M c L' E' ini pop st).
Proof.
  unfold bee_run. tn. unfold bee_step. eapply (tan_bind _ eq eq); [tn|]. intros o o' <-. eapply (tan_bind _ eq eq); [apply phase_scaled|]. intros fs fs' <-. eapply tan_bind; [apply sc_fitnesses|]. intros w w' HW. cbv zeta.
  eapply (tan_bind _ eq eq); [apply sc_wheel; exact HW|]. intros o1 o1' <-. eapply (tan_bind _ eq eq); [apply phase_scaled|]. intros f1 f1' <-. tn. unfold scout. rewrite (rt_size _ _ _ HE). tn.
Qed.
End Task.
End Scale.

Lemma ga_scales_only c : scales_only (ga c).
Proof. intros g L L' E E' (k & Hk & Hg) HE ini pop st. apply (ga_scaled g k Hk Hg L L' E E' HE). Qed.
Lemma saga1_scales_only c : scales_only (saga1 c).
Proof. intros g L L' E E' (k & Hk & Hg) HE ini pop st. apply (saga1_scaled g k Hk Hg L L' E E' HE). Qed.
Lemma saga3_scales_only c : scales_only (saga3 c).
Proof. intros g L L' E E' (k & Hk & Hg) HE ini pop st. apply (saga3_scaled g k Hk Hg L L' E E' HE). Qed.
Lemma sas_scales_only c : scales_only (sas c).
Proof. intros g L L' E E' (k & Hk & Hg) HE ini pop st. apply (sas_scaled g k Hk Hg L L' E E' HE). Qed.
Lemma bees_scales_only M c : scales_only (bees M c).
Proof. intros g L L' E E' (k & Hk & Hg) HE ini pop st. apply (bees_scaled g k Hk Hg L L' E E' HE). Qed.
Lemma suits_follow {K} (O : optimizer K) L L' g : rising g -> suits g O -> forall (E : env L) (E' : env L') ini pop i i', ranked_task (ranked_satts g) E E' -> i = i' ->
  tandem (ranked_heap (ranked_satts g)) (fun z z' => fst z = fst z' /\ snd z = snd z') (orun O L E ini pop i) (orun O L' E' ini pop i').
Proof.
  intros Hg [HO|[HS HO]] E E' ini pop i i' HE <-.
  - apply (ranks_follow O L L' (ranked_satts g)); auto. intros a a' b b' [-> _] [-> _]. apply Hg.
  - apply (tan_weak _ eq); [intros z z' <-; split; reflexivity|]. apply (HO g L L' E E' HS HE).
Qed.
Lemma optimize_suits {K} g L L' (E : env L) (E' : env L') (O : optimizer K) c q st : rising g -> ranked_task (ranked_satts g) E E' -> suits g O ->
  tandem (ranked_heap (ranked_satts g)) eq (optimize O c E q st) (optimize O c E' q st).
Proof.
  intros Hg HE HO. apply (tan_weak _ (like_comp eq)); [|apply tan_optimize_like].
  - intros [p a i] [p' a' i'] (H1 & H2 & H3). cbn in *. congruence.
  - intros a a' b b' [-> _] [-> _]. apply Hg.
  - exact HE.
  - intros i i' <-. reflexivity.
  - intros ini pop i i' H. apply (suits_follow O L L' g Hg HO); assumption.
  - repeat split.
Qed.
