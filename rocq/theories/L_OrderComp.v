(* Solution composition in two runs whose measurements are related. *)
From Coq Require Import Lia.
From Verif Require Import PyNum PyList PyMon PyRng PyStat L_List L_Invariance M_Matching M_Rule M_Mixing M_Solution M_Composition M_GenomeOps M_GA M_Saga M_Abc M_Swarm S_Units L_Units L_UnitsDisc L_Tandem S_Order.

Lemma pymax_related {A B} (R : A -> B -> Prop) (lt : A -> A -> bool) (lt' : B -> B -> bool) l l' : (forall a b a' b', R a a' -> R b b' -> lt a b = lt' a' b') -> Forall2 R l l' -> paired R (pymax lt l) (pymax lt' l').
Proof.
  intros H [|x x' l0 l0' Hx HL]; cbn; [exact I|]. revert x x' Hx. induction HL as [|z z' l0 l0' Hz HL IH]; intros x x' Hx; cbn [fold_left]; [exact Hx|]. apply IH. unfold max_step. rewrite (H _ _ _ _ Hx Hz). destruct (lt' x' z'); assumption.
Qed.
Lemma combine_related {A B C} (R : A -> B -> Prop) l l' : Forall2 R l l' -> forall (m : list C), Forall2 (fun p p' => R (fst p) (fst p') /\ snd p = snd p') (combine l m) (combine l' m).
Proof. induction 1 as [|x x' l l' Hx HL IH]; intros [|c m]; cbn; constructor; auto. Qed.
Lemma update_related {A B} (R : A -> B -> Prop) l l' : Forall2 R l l' -> forall i x x', R x x' -> Forall2 R (update l i x) (update l' i x').
Proof. induction 1 as [|z z' l l' Hz HL IH]; intros [|i] x x' Hx; cbn; constructor; auto. Qed.
Lemma snds_same {A B C} (R : A -> B -> Prop) (l : list (A * C)) (l' : list (B * C)) : Forall2 (fun p p' => R (fst p) (fst p') /\ snd p = snd p') l l' -> map snd l = map snd l'.
Proof. apply map_same. intros p p' [_ H]. exact H. Qed.

Section Heap.
Variable R : satts -> satts -> Prop.
Hypothesis HR : comparable R.
Context {K : skind}.
Notation T := (tandem (ranked_heap (K := K) R)).
Definition scaled (v v' : num) : Prop := exists a a', R a a' /\ v = sfitness a /\ v' = sfitness a'.
Ltac heap H := let H1 := fresh in let H2 := fresh in let H3 := fresh in destruct H as [[H1 H2] H3].
Lemma tan_arr bits : T eq (alloc_arr bits) (alloc_arr bits).
Proof. intros s s' H. heap H. unfold alloc_arr. rewrite H0, H1. split; [constructor; cbn; auto|reflexivity]. Qed.
Lemma tan_new_sol o o' : ranked_sol R o o' -> T eq (alloc_sol o) (alloc_sol o').
Proof. intros Ho s s' H. heap H. unfold alloc_sol. rewrite H0, H1, (L_List.Forall2_len _ _ _ H2). split; [constructor; cbn; auto; apply Forall2_app; auto|reflexivity]. Qed.
Lemma tan_sol r : T (ranked_sol R) (get_sol r) (get_sol r).
Proof. intros s s' H. pose proof (nth_error_units _ _ _ r (rh_sols _ _ _ H)) as HN. unfold get_sol. destruct (nth_error (sols s) r), (nth_error (sols s') r); try contradiction; cbn; auto. Qed.
Lemma tan_put_sol r o o' : ranked_sol R o o' -> T eq (put_sol r o) (put_sol r o').
Proof. intros Ho s s' H. heap H. unfold put_sol. rewrite H0, H1. split; [constructor; cbn; auto; apply update_related; auto|reflexivity]. Qed.
Lemma tan_get_arr a : T eq (get_arr a) (get_arr a).
Proof. intros s s' H. unfold get_arr. rewrite (proj1 (rh_same _ _ _ H)). destruct (nth_error _ _); cbn; auto. Qed.
Lemma tan_put_arr a bits : T eq (put_arr a bits) (put_arr a bits).
Proof. intros s s' H. heap H. unfold put_arr. rewrite H0, H1. split; [constructor; cbn; auto|reflexivity]. Qed.
Lemma tan_rnd_alike {A B} (Q : A -> B -> Prop) (f : rng -> res A * rng) (f' : rng -> res B * rng) : alike Q f f' -> T Q (rnd f) (rnd f').
Proof. intros HA s s' H. heap H. unfold rnd. rewrite H0, H1. specialize (HA (hrng s)). destruct (f _) as [[x|e] q], (f' _) as [[x'|e'] q']; try contradiction; destruct HA as [-> HA]; (split; [constructor; cbn; auto|exact HA]). Qed.
Lemma tan_rnd {A} (f : rng -> res A * rng) : T eq (rnd f) (rnd f).
Proof. apply tan_rnd_alike, (alike_same (S := rng) f). Qed.
Lemma tan_rnd1 {A} (f : rng -> A * rng) : T eq (rnd1 f) (rnd1 f).
Proof. apply tan_rnd. Qed.
Lemma tan_set_rng q : T eq (set_rng q) (set_rng q).
Proof. intros s s' H. heap H. unfold set_rng. rewrite H0. split; [constructor; cbn; auto|reflexivity]. Qed.
Lemma tan_genome r : T eq (genome r) (genome r).
Proof. unfold genome. eapply tan_bind; [apply tan_sol|]. intros o o' [[-> _] _]. apply tan_get_arr. Qed.
Lemma tan_set_genome r bits : T eq (set_genome r bits) (set_genome r bits).
Proof. unfold set_genome. eapply tan_bind; [apply tan_sol|]. intros o o' [[E1 E2] Ho]. eapply tan_bind; [apply tan_arr|]. intros a a' <-. apply tan_put_sol. constructor; cbn; auto. Qed.
Lemma tan_write_genome r f : T eq (write_genome r f) (write_genome r f).
Proof. unfold write_genome. eapply tan_bind; [apply tan_sol|]. intros o o' [[-> E2] Ho]. eapply tan_bind; [apply tan_get_arr|]. intros a a' <-. apply tan_put_arr. Qed.
Lemma tan_satt r : T R (get_satt r) (get_satt r).
Proof. unfold get_satt. eapply tan_bind; [apply tan_sol|]. intros o o' [_ Ho]. apply tan_lift, both_res. exact Ho. Qed.
Lemma tan_fitness r : T scaled (fitness r) (fitness r).
Proof. unfold fitness. eapply tan_bind; [apply tan_satt|]. intros a a' Ha. apply tan_ret. exists a, a'. auto. Qed.
Lemma tan_ext r : T eq (get_ext r) (get_ext r).
Proof. unfold get_ext. eapply tan_bind; [apply tan_sol|]. intros o o' [[_ E] _]. apply tan_ret. congruence. Qed.
Lemma tan_set_ext r x : T eq (set_ext r x) (set_ext r x).
Proof. unfold set_ext. eapply tan_bind; [apply tan_sol|]. intros o o' [[E1 E2] Ho]. apply tan_put_sol. constructor; cbn; auto. Qed.
Lemma tan_new bits : T eq (new_sol bits) (new_sol bits).
Proof. unfold new_sol. eapply tan_bind; [apply tan_arr|]. intros a a' <-. apply tan_new_sol. constructor; cbn; auto. Qed.
Lemma tan_clone r : T eq (clone r) (clone r).
Proof.
  unfold clone. eapply tan_bind; [apply tan_genome|]. intros b b' <-. eapply tan_bind; [apply tan_arr|]. intros a a' <-. eapply tan_bind; [apply tan_satt|]. intros t t' Ht. eapply tan_bind; [apply tan_ext|]. intros x x' <-. apply tan_new_sol. constructor; cbn; auto.
Qed.
Lemma tan_clone_with r bits : T eq (clone_with r bits) (clone_with r bits).
Proof. unfold clone_with. eapply tan_bind; [apply tan_ext|]. intros x x' <-. eapply tan_bind; [apply tan_arr|]. intros a a' <-. apply tan_new_sol. constructor; cbn; auto. Qed.
Lemma tan_keyed rs : T (Forall2 (fun p p' => scaled (fst p) (fst p') /\ snd p = snd p')) (keyed rs) (keyed rs).
Proof. unfold keyed. apply (tan_mmap _ eq); [|apply Forall2_eq]. intros r r' <-. eapply tan_bind; [apply tan_fitness|]. intros a a' Ha. apply tan_ret. auto. Qed.
Lemma lt_scaled {C} (p q : num * C) (p' q' : num * C) : (scaled (fst p) (fst p') /\ snd p = snd p') -> (scaled (fst q) (fst q') /\ snd q = snd q') -> nlt (fst p) (fst q) = nlt (fst p') (fst q').
Proof. intros [(a & a' & Ha & -> & ->) _] [(b & b' & Hb & -> & ->) _]. symmetry. apply HR; assumption. Qed.
Lemma lt_values v w v' w' : scaled v v' -> scaled w w' -> nlt v' w' = nlt v w.
Proof. intros (a & a' & Ha & -> & ->) (b & b' & Hb & -> & ->). apply HR; assumption. Qed.
Lemma tan_fittest rs : T eq (fittest rs) (fittest rs).
Proof.
  unfold fittest. eapply tan_bind; [apply tan_keyed|]. intros ks ks' HK. eapply tan_bind.
  - apply tan_lift, both_res. apply (pymax_related (fun p p' => scaled (fst p) (fst p') /\ snd p = snd p')); [|exact HK]. intros p q p' q'. apply lt_scaled.
  - intros p p' [_ E]. apply tan_ret. exact E.
Qed.
Lemma tan_ranked rs : T eq (by_fitness_desc rs) (by_fitness_desc rs).
Proof.
  unfold by_fitness_desc. eapply tan_bind; [apply tan_keyed|]. intros ks ks' HK. apply tan_ret. apply (snds_same scaled). unfold sort_desc. apply sort_same; [|exact HK]. intros p q p' q' Hp Hq. unfold key_lt. apply lt_scaled; assumption.
Qed.
Lemma tan_fitnesses rs : T (Forall2 scaled) (fitnesses rs) (fitnesses rs).
Proof. unfold fitnesses. apply (tan_mmap _ eq); [|apply Forall2_eq]. intros r r' <-. apply tan_fitness. Qed.
Lemma argsort_scaled fs fs' : Forall2 scaled fs fs' -> argsort nlt fs = argsort nlt fs'.
Proof.
  intros H. unfold argsort. rewrite (L_List.Forall2_len _ _ _ H). apply (snds_same scaled). apply sort_same; [intros p q p' q'; apply lt_scaled|]. apply combine_related. exact H.
Qed.
Lemma tan_times {A} n (m m' : HSt K A) : T eq m m' -> T eq (times n m) (times n m').
Proof. intros H. induction n as [|n IH]; cbn [times]; [apply tan_ret; reflexivity|]. eapply tan_bind; [exact H|]. intros z z' <-. eapply tan_bind; [exact IH|]. intros zs zs' <-. apply tan_ret. reflexivity. Qed.
Lemma tan_iterate {A} n (f f' : A -> HSt K A) x : (forall x, T eq (f x) (f' x)) -> T eq (iterate n f x) (iterate n f' x).
Proof. intros H. revert x. induction n as [|n IH]; intros x; cbn [iterate]; [apply tan_ret; reflexivity|]. eapply tan_bind; [apply H|]. intros z z' <-. apply IH. Qed.
Lemma tan_select k pop n : ordinal k -> T eq (select k pop n) (select k pop n).
Proof.
  destruct k as [| | |k]; cbn [ordinal select]; intros H; [apply tan_rnd|contradiction| |].
  - eapply tan_bind; [apply tan_fitnesses|]. intros fs fs' HF. unfold rank_weights, ranks. rewrite (argsort_scaled fs fs' HF). apply tan_rnd.
  - apply tan_each. intros _. eapply tan_bind; [apply tan_rnd|]. intros d d' <-. apply tan_fittest.
Qed.
(* what does not read a fitness *)
Ltac tn :=
  cbv zeta;
  lazymatch goal with
  | |- tandem _ eq (bind _ _) _ => eapply (tan_bind _ eq eq); [tn|intros ? ? <-; tn]
  | |- tandem _ eq (mmap _ _) _ => apply tan_each; intros ?; tn
  | |- tandem _ eq (miter _ _) _ => apply tan_iter; intros ?; tn
  | |- tandem _ eq (times _ _) _ => apply tan_times; tn
  | |- tandem _ eq (iterate _ _ _) _ => apply tan_iterate; intros ?; tn
  | |- tandem _ eq (if ?b then _ else _) _ => destruct b; tn
  | |- tandem _ eq (ret _) _ => apply tan_ret; reflexivity
  | |- tandem _ eq (raise _) _ => apply tan_raise
  | |- tandem _ eq (lift _) _ => apply tan_value
  | |- tandem _ eq (rnd _) _ => apply tan_rnd
  | |- tandem _ eq (rnd1 _) _ => apply tan_rnd1
  | |- tandem _ eq (genome _) _ => apply tan_genome
  | |- tandem _ eq (set_genome _ _) _ => apply tan_set_genome
  | |- tandem _ eq (write_genome _ _) _ => apply tan_write_genome
  | |- tandem _ eq (get_ext _) _ => apply tan_ext
  | |- tandem _ eq (set_ext _ _) _ => apply tan_set_ext
  | |- tandem _ eq (new_sol _) _ => apply tan_new
  | |- tandem _ eq (clone _) _ => apply tan_clone
  | |- tandem _ eq (clone_with _ _) _ => apply tan_clone_with
  | |- tandem _ eq (fittest _) _ => apply tan_fittest
  | |- tandem _ eq (by_fitness_desc _) _ => apply tan_ranked
  | |- _ => idtac
  end.
Lemma tan_random_bits n p : T eq (random_bits n p) (random_bits n p).
Proof. unfold random_bits. tn. Qed.
Lemma tan_init i n : T eq (init_call i n) (init_call i n).
Proof. destruct i; cbn [init_call]; tn. apply tan_random_bits. Qed.
Lemma tan_pad_zero n r : T eq (pad_zero n r) (pad_zero n r).
Proof. unfold pad_zero. tn. Qed.
Lemma tan_pad i n r : T eq (init_pad i n r) (init_pad i n r).
Proof. destruct i; cbn [init_pad]; tn; [apply tan_pad_zero|apply tan_random_bits]. Qed.
Lemma tan_single a b i : T eq (single_point a b i) (single_point a b i).
Proof. unfold single_point. tn. Qed.
Lemma tan_npoint both cuts : forall a b, T eq (npoint both cuts a b) (npoint both cuts a b).
Proof. induction cuts as [|i cuts IH]; intros a b; cbn [npoint]; tn; try apply tan_single. apply IH. Qed.
Lemma tan_cross both x rate a b : T eq (crossover both x rate a b) (crossover both x rate a b).
Proof. unfold crossover. tn. destruct x; cbn [recombine]; tn. apply tan_npoint. Qed.
Lemma tan_flips rate r : T eq (bit_flips rate r) (bit_flips rate r).
Proof. unfold bit_flips. tn. Qed.
Lemma tan_offspring (cross : nat -> nat -> HSt K nat) parents : (forall a b, T eq (cross a b) (cross a b)) -> T eq (offspring cross parents) (offspring cross parents).
Proof. intros H. unfold offspring. tn; apply H. Qed.

Section Task.
Variables (L L' : learner) (E : env L) (E' : env L').
Hypothesis HE : ranked_task R E E'.
Lemma tan_fit r : T eq (M_Solution.fit E r) (M_Solution.fit E' r).
Proof.
  unfold M_Solution.fit. eapply tan_bind; [apply tan_genome|]. intros b b' <-. eapply tan_bind; [apply tan_rnd_alike, (rt_measured _ _ _ HE)|]. intros a a' Ha. eapply tan_bind; [apply tan_sol|]. intros o o' [[E1 E2] Ho].
  eapply tan_bind; [apply tan_put_sol; constructor; cbn; auto|]. intros _ _ _. apply tan_ret. reflexivity.
Qed.
Lemma tan_fit_all rs : T eq (fit_all E rs) (fit_all E' rs).
Proof. apply tan_each. apply tan_fit. Qed.
Lemma tan_archive arch pop : T eq (archive_call arch pop) (archive_call arch pop).
Proof.
  unfold archive_call. eapply (tan_bind _ eq eq); [tn|intros b b' <-]. destruct arch as [|a rest]; [tn|]. eapply tan_bind; [apply tan_fitness|]. intros fa fa' Ha. eapply tan_bind; [apply tan_fitness|]. intros fb fb' Hb. rewrite (lt_values _ _ _ _ Ha Hb). tn.
Qed.
Lemma tan_elitist {O : optimizer K} (st : comp O) : T eq (elitist st) (elitist st).
Proof. unfold elitist. destruct (cpop st); tn. Qed.
(* the composition state: the same references; RS relates what the metaheuristic keeps for itself *)
Definition like_comp {O : optimizer K} (RS : ostate O -> ostate O -> Prop) (st st' : comp O) : Prop := cpop st = cpop st' /\ carch st = carch st' /\ RS (cint st) (cint st').
Lemma tan_optimize_like (O : optimizer K) (RS : ostate O -> ostate O -> Prop) c q st st' : (forall i i', RS i i' -> osize O i = osize O i') ->
  (forall ini pop i i', RS i i' -> T (fun z z' => fst z = fst z' /\ RS (snd z) (snd z')) (orun O L E ini pop i) (orun O L' E' ini pop i')) ->
  like_comp RS st st' -> T (like_comp RS) (optimize O c E q st) (optimize O c E' q st').
Proof.
  intros HS HO (H1 & H2 & H3). unfold optimize. cbv zeta. pose proof (rt_size _ _ _ HE) as HL. rewrite <- HL, <- H1, <- H2, <- (HS _ _ H3). eapply (tan_bind _ eq _); [apply tan_set_rng|]. intros _ _ _.
  eapply (tan_bind _ eq _); [unfold init_population; tn; [apply tan_init|apply tan_pad]|]. intros pop pop' <-.
  eapply (tan_bind _ eq _); [destruct (carchive c); tn; [apply tan_pad_zero|apply tan_fit_all]|]. intros _ _ _. eapply tan_bind with (R := fun z z' => fst z = fst z' /\ RS (snd z) (snd z')).
  - destruct (epool E), (epool E'); try discriminate HL; [|apply HO; exact H3]. eapply (tan_bind _ eq _); [apply tan_init|]. intros r r' <-. eapply (tan_bind _ eq _); [apply tan_fit|]. intros r1 r1' <-. apply tan_ret. split; [reflexivity|exact H3].
  - intros [p i] [p' i'] [Hp Hi]. cbn [fst snd] in Hp, Hi. subst p'. eapply (tan_bind _ eq _); [destruct (carchive c); tn; [apply tan_archive|apply tan_fit_all]|]. intros a a' <-. apply tan_ret. repeat split; assumption.
Qed.
Lemma tan_optimize (O : optimizer K) c q st : ranks_only O -> T eq (optimize O c E q st) (optimize O c E' q st).
Proof.
  intros HO. apply (tan_weak _ (like_comp eq)); [|apply tan_optimize_like].
  - intros [p a i] [p' a' i'] (H1 & H2 & H3). cbn in *. congruence.
  - intros i i' <-. reflexivity.
  - intros ini pop i i' <-. apply (tan_weak _ eq); [intros z z' <-; split; reflexivity|]. apply (HO R L L' E E' HR HE).
  - repeat split.
Qed.
End Task.
End Heap.

Section Optimizers.
Variables (R : satts -> satts -> Prop) (L L' : learner) (E : env L) (E' : env L').
Hypothesis HR : comparable R.
Hypothesis HE : ranked_task R E E'.
Ltac tn :=
  cbv zeta;
  lazymatch goal with
  | |- tandem _ eq (bind _ _) _ => eapply (tan_bind _ eq eq); [tn|intros ? ? <-; tn]
  | |- tandem _ eq (mmap _ _) _ => apply tan_each; intros ?; tn
  | |- tandem _ eq (fit_all _ _) _ => apply (tan_fit_all R L L' E E' HE)
  | |- tandem _ eq (M_Solution.fit _ _) _ => apply (tan_fit R L L' E E' HE)
  | |- tandem _ eq (miter _ _) _ => apply tan_iter; intros ?; tn
  | |- tandem _ eq (times _ _) _ => apply tan_times; tn
  | |- tandem _ eq (iterate _ _ _) _ => apply tan_iterate; intros ?; tn
  | |- tandem _ eq (if ?b then _ else _) _ => destruct b; tn
  | |- tandem _ eq (match ?p with pair _ _ => _ end) _ => destruct p; tn
  | |- tandem _ eq (ret _) _ => apply tan_ret; reflexivity
  | |- tandem _ eq (raise _) _ => apply tan_raise
  | |- tandem _ eq (lift _) _ => apply tan_value
  | |- tandem _ eq (rnd _) _ => apply tan_rnd
  | |- tandem _ eq (rnd1 _) _ => apply tan_rnd1
  | |- tandem _ eq (genome _) _ => apply tan_genome
  | |- tandem _ eq (set_genome _ _) _ => apply tan_set_genome
  | |- tandem _ eq (write_genome _ _) _ => apply tan_write_genome
  | |- tandem _ eq (get_ext _) _ => apply tan_ext
  | |- tandem _ eq (set_ext _ _) _ => apply tan_set_ext
  | |- tandem _ eq (new_sol _) _ => apply tan_new
  | |- tandem _ eq (clone _) _ => apply tan_clone
  | |- tandem _ eq (clone_with _ _) _ => apply tan_clone_with
  | |- tandem _ eq (init_call _ _) _ => apply tan_init
  | |- tandem _ eq (crossover _ _ _ _ _) _ => apply tan_cross
  | |- tandem _ eq (bit_flips _ _) _ => apply tan_flips
  | |- tandem _ eq (offspring _ _) _ => apply tan_offspring; intros ? ?; tn
  | |- tandem _ eq (fittest _) _ => apply (tan_fittest R HR)
  | |- tandem _ eq (by_fitness_desc _) _ => apply (tan_ranked R HR)
  | |- tandem _ eq (select _ _ _) _ => apply (tan_select R HR); assumption
  | |- _ => idtac
  end.
Lemma ga_ranks c ini pop st : ordinal (g_sel c) -> tandem (ranked_heap R) eq (ga_run (K := plain) c L E ini pop st) (ga_run c L' E' ini pop st).
Proof. intros HS. unfold ga_run. tn. unfold ga_step. tn. Qed.
Lemma rs_ranks n size ini pop st : tandem (ranked_heap R) eq (rs_run (K := plain) n size L E ini pop st) (rs_run n size L' E' ini pop st).
Proof. unfold rs_run. rewrite (rt_size _ _ _ HE). tn. Qed.
Lemma saga3_ranks c ini pop st : ordinal (s3_sel c) -> tandem (ranked_heap R) eq (s3_run c L E ini pop st) (s3_run c L' E' ini pop st).
Proof. intros HS. unfold s3_run. tn. unfold saga_generation. tn; unfold saga_cross, saga_flips; tn. Qed.
Lemma binarize_ranks M xs : tandem (ranked_heap R) eq (sigmoid_binarize M xs) (sigmoid_binarize M xs).
Proof. unfold sigmoid_binarize. tn. Qed.
Lemma wolves_ranks M c ini pop st : tandem (ranked_heap R) eq (wolf_run M c L E ini pop st) (wolf_run M c L' E' ini pop st).
Proof.
  unfold wolf_run. tn. unfold wolf_step. tn. unfold wolf_move. tn.
  - unfold wolf_crossover. tn. unfold binary_X. tn. apply binarize_ranks.
  - unfold wolf_sigmoid. tn; first [apply binarize_ranks|unfold wolf_X; tn].
Qed.
Lemma best_by_ranks key ps : tandem (ranked_heap R) eq (best_by key ps) (best_by key ps).
Proof.
  unfold best_by. eapply tan_bind with (R := Forall2 (fun p p' => scaled R (fst p) (fst p') /\ snd p = snd p')).
  - apply (tan_mmap _ eq); [|apply Forall2_eq]. intros r r' <-. eapply tan_bind; [apply tan_fitness|]. intros a a' Ha. apply tan_ret. auto.
  - intros ks ks' HK. eapply tan_bind.
    + apply tan_lift, both_res. apply (pymax_related (fun p p' => scaled R (fst p) (fst p') /\ snd p = snd p')); [|exact HK]. intros p q p' q'. apply (lt_scaled R HR).
    + intros p p' [_ Hp]. apply tan_ret. exact Hp.
Qed.
Lemma swarm_ranks M c ini pop st : tandem (ranked_heap R) eq (swarm_run M c L E ini pop st) (swarm_run M c L' E' ini pop st).
Proof.
  unfold swarm_run. tn.
  - unfold init_particle. tn. destruct (ps_move c); tn.
  - unfold swarm_step. tn.
    + unfold move, first_particle. destruct (ps_move c) as [b v w| |pl na]; tn; try apply best_by_ranks.
      * unfold classic_move. tn. apply binarize_ranks.
      * unfold quantum_move. tn. apply binarize_ranks.
      * unfold attractor, best_random. tn; apply best_by_ranks.
      * unfold binary_move. tn.
    + unfold update_best. eapply tan_bind; [apply tan_fitness|]. intros a a' Ha. eapply tan_bind; [apply tan_fitness|]. intros b b' Hb. rewrite (lt_values R HR _ _ _ _ Hb Ha). tn.
Qed.
End Optimizers.
Lemma ga_ranks_only c : ordinal (g_sel c) -> ranks_only (ga c). Proof. intros HS R L L' E E' HR HE ini pop st. apply (ga_ranks R L L' E E' HR HE c ini pop st HS). Qed.
Lemma rs_ranks_only n s : ranks_only (rs n s). Proof. intros R L L' E E' HR HE ini pop st. apply (rs_ranks R L L' E E' HR HE). Qed.
Lemma saga3_ranks_only c : ordinal (s3_sel c) -> ranks_only (saga3 c). Proof. intros HS R L L' E E' HR HE ini pop st. apply (saga3_ranks R L L' E E' HR HE c ini pop st HS). Qed.
Lemma wolves_ranks_only M c : ranks_only (wolves M c). Proof. intros R L L' E E' HR HE ini pop st. apply (wolves_ranks R L L' E E' HR HE). Qed.
Lemma swarm_ranks_only M c : ranks_only (swarm M c). Proof. intros R L L' E E' HR HE ini pop st. apply (swarm_ranks R L L' E E' HR HE). Qed.
Lemma ranks_follow {K} (O : optimizer K) L L' R : comparable R -> ranks_only O -> forall (E : env L) (E' : env L') ini pop i i', ranked_task R E E' -> i = i' ->
  tandem (ranked_heap R) (fun z z' => fst z = fst z' /\ snd z = snd z') (orun O L E ini pop i) (orun O L' E' ini pop i').
Proof. intros HR HO E E' ini pop i i' HE <-. apply (tan_weak _ eq); [intros z z' <-; split; reflexivity|]. apply (HO R L L' E E' HR HE). Qed.
