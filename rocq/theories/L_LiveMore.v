(* Bees and the first self-adapting algorithm: they always return. *)
From Coq Require Import Lia Permutation.
From Verif Require Import PyNum PyList PyMon PyRng PyStat L_Num L_List L_Rng L_Ranks M_Matching M_Rule M_Mixing L_Mixing M_Solution S_Solution
  L_Heap L_HeapProps M_Composition L_Safe L_SafeFit L_Composition M_GenomeOps S_GenomeOps L_GenomeOps L_GenomeProps L_Held M_GA L_GA M_Saga L_Saga M_Aco M_Abc L_Abc S_Live L_LiveComp L_LiveSwarm L_Filters.
From Coq Require Import Lqa.

Section More.
Context {K : skind} {L : learner}.
Variable E : env L.
Variable A : nat -> Prop.
Implicit Types s : hst K.
Hypothesis HM : measurable E.
Local Notation safe := (safe E A).
Local Notation good := (good E A).
Local Notation inv := (inv A).
Local Notation lives := (lives E A).
Local Notation grow := (grow E A).
Lemma lives_saga_generation size ratio sel cross mutate pop s : picky E sel -> inv s -> Forall (good s) pop -> Forall (honest E s) pop -> pop <> [] ->
  (forall a b s', inv s' -> good s' a -> good s' b -> safe true (cross a b) (fun c s1 => good s1 c /\ (c = a \/ ~ live s' c)) s') ->
  (forall a b s', inv s' -> good s' a -> good s' b -> returns (cross a b) s') ->
  (forall r s', inv s' -> good s' r -> safe true (mutate r) (fun c s1 => good s1 c /\ ~ live s' c) s') ->
  (forall r s', inv s' -> good s' r -> returns (mutate r) s') ->
  returns (saga_generation E size ratio sel cross mutate pop) s.
Proof.
  intros Hsel I HG HH HN HC HCr HMu HMr. enough (H : lives true (saga_generation E size ratio sel cross mutate pop) (fun _ _ => True) s) by apply H. unfold saga_generation.
  eapply lives_bind; [apply lives_ranked; auto|]. intros ranked s' _ (-> & HP). cbv beta zeta.
  eapply lives_bind; [apply lives_select; auto|]. intros parents s1 G1 [HLp HIp]. cbv beta. pose proof (grow_inv _ _ _ _ _ G1) as I1.
  assert (HGp : Forall (good s1) parents) by (eapply grow_goods; [exact G1|]; exact (Forall_incl _ _ _ HG HIp)).
  eapply lives_bind.
  { split; [|apply (lives_offspring E A true)]; auto.
    - apply (safe_offspring E A true cross parents s1 I1 HGp).
      intros a b s' G Ha Hb. apply HC; [apply (grow_inv _ _ _ _ _ G)| |]; eapply grow_good; try exact G; eapply Forall_In; eauto.
    - intros a b s' G Ha Hb. assert (Ha' : good s' a) by (eapply grow_good; [exact G|]; eapply Forall_In; eauto). assert (Hb' : good s' b) by (eapply grow_good; [exact G|]; eapply Forall_In; eauto).
      split; [eapply safe_post; [apply HC; auto; apply (grow_inv _ _ _ _ _ G)|]; intros c s2 _ H; apply H|apply HCr; auto; apply (grow_inv _ _ _ _ _ G)]. }
  intros children s2 G2 [HLc HGc]. cbv beta. pose proof (grow_inv _ _ _ _ _ G2) as I2.
  assert (HGc' : Forall (good s2) children) by (eapply Forall_impl; [|exact HGc]; intros r H; apply H).
  eapply lives_bind.
  { apply (lives_mmap E A true mutate (fun _ r s' => good s' r)); [exact I2| |].
    - intros x y t1 t2 G H. eapply grow_good; eauto.
    - intros x s' Hx G. assert (Hx' : good s' x) by (eapply grow_good; [exact G|]; eapply Forall_In; eauto).
      split; [eapply safe_post; [apply HMu; auto; apply (grow_inv _ _ _ _ _ G)|]; intros c s3 _ H; apply H|apply HMr; auto; apply (grow_inv _ _ _ _ _ G)]. }
  intros mutated s3 G3 HMut. cbv beta. eapply lives_post; [apply lives_fit_all; [exact HM|apply (grow_inv _ _ _ _ _ G3)|]|auto].
  apply Forall_app. split.
  - apply Forall_firstn. eapply grow_goods; [exact (grow_trans _ _ _ _ _ _ G1 (grow_trans _ _ _ _ _ _ G2 G3))|]. eapply Permutation_Forall; [symmetry; exact HP|exact HG].
  - clear - HMut. induction HMut; constructor; auto.
Qed.
Lemma crossover_returns both x rate s a b : inv s -> good s a -> good s b -> returns (crossover both x rate a b) s.
Proof. intros I HA HB. apply (lives_crossover E A true both x rate s a b I HA HB). Qed.
Lemma flips_returns rate s r : inv s -> good s r -> returns (bit_flips rate r) s.
Proof. intros I HG. apply (lives_flips E A true rate s r I HG). Qed.

(* ----- saga1 ----- *)
Lemma s1_adjust_total c fs r : ~ s1_cmult c == 0 -> ~ s1_mmult c == 0 -> fs <> [] -> exists r', s1_adjust c fs r = Ok r'.
Proof.
  intros H1 H2 HN. unfold s1_adjust, gdm, nmax, pydiv. destruct fs as [|f fs]; [congruence|]. cbn [rbind].
  destruct (nlt _ _); [|destruct (nlt _ _); [|eauto]].
  - destruct (qeq_spec (s1_cmult c) 0); [contradiction|]. cbn [rbind]. eauto.
  - destruct (qeq_spec (s1_mmult c) 0); [contradiction|]. cbn [rbind]. eauto.
Qed.
Lemma even_pos k : Nat.even k = true -> (0 < k)%nat -> (0 < 2 * (k / 2))%nat.
Proof. intros HE HP. destruct k as [|[|k]]; [lia|discriminate|]. change (S (S k)) with (2 + k)%nat. pose proof (Nat.div_add_l 1 2 k). replace (2 + k)%nat with (1 * 2 + k)%nat by lia. lia. Qed.
Lemma post_nonempty size ratio s pop pop' s' : Nat.even size = true -> (0 < size)%nat -> generation_post E A size ratio s pop pop' s' -> pop' <> [].
Proof. intros HE HP (_ & _ & el & new & -> & _ & HL & _) H. apply app_eq_nil in H as [_ ->]. pose proof (even_pos size HE HP). cbn [length] in HL. lia. Qed.
Lemma lives_s1_step c pop r s : Nat.even (s1_size c) = true -> (0 < s1_size c)%nat -> picky E (s1_sel c) -> ~ s1_cmult c == 0 -> ~ s1_mmult c == 0 ->
  inv s -> Forall (good s) pop -> Forall (honest E s) pop -> pop <> [] ->
  lives true (s1_step c E (pop, r)) (fun z s' => Forall (good s') (fst z) /\ Forall (honest E s') (fst z) /\ fst z <> []) s.
Proof.
  intros HE Hsz Hsel Hc Hm I HG HH HN. split.
  - eapply safe_post; [apply (safe_s1_step E A true c (fun _ => True)); auto|]. intros z s' _ (_ & HP). pose proof (post_nonempty _ _ _ _ _ _ HE Hsz HP) as HX.
    destruct HP as (H1 & H2 & _). auto.
  - cbn [s1_step]. destruct (honest_fits_list E s pop HH) as (fs & HF & _). unfold returns. rewrite (bind_ok _ _ _ _ _ (fitnesses_eq s pop fs HF)).
    destruct (s1_adjust_total c fs r Hc Hm) as (r' & Er); [intros ->; inversion HF; congruence|].
    rewrite (bind_ok _ _ s r' s) by (rewrite Er; reflexivity).
    destruct (lives_saga_generation (s1_size c) (s1_ratio c) (s1_sel c) (crossover false (s1_x c) (Fin (r_cross r'))) (bit_flips (Fin (r_mut r'))) pop s Hsel I HG HH HN) as (p' & s' & HE1).
    + intros a b t It Ha Hb. apply safe_crossover; auto.
    + intros a b t It Ha Hb. apply crossover_returns; auto.
    + intros q t It Hq. eapply safe_post; [apply safe_bit_flips; auto|]. intros c0 t2 _ (H1 & H2 & _). auto.
    + intros q t It Hq. apply flips_returns; auto.
    + rewrite (bind_ok _ _ _ _ _ HE1). eexists _, _. reflexivity.
Qed.
Lemma lives_s1_run c ini pop r s : Nat.even (s1_size c) = true -> (0 < s1_size c)%nat -> picky E (s1_sel c) -> ~ s1_cmult c == 0 -> ~ s1_mmult c == 0 ->
  inv s -> Forall (good s) pop -> pop <> [] ->
  lives true (s1_run c L E ini pop r) (fun z s' => fst z <> []) s.
Proof.
  intros HE Hsz Hsel Hc Hm I HG HN. unfold s1_run. rewrite HE.
  eapply lives_bind with (Q := fun _ s' => s' = s); [split; [apply (safe_lift E A true (Ok tt) (fun _ s' => s' = s)); auto|eexists _, _; reflexivity]|].
  intros u s' _ ->. eapply lives_bind; [apply lives_fit_all; auto|]. intros pop0 s0 G0 (-> & H1 & H2). cbv beta.
  eapply lives_post; [apply (lives_iterate E A true (s1_step c E) (fun z s' => Forall (good s') (fst z) /\ Forall (honest E s') (fst z) /\ fst z <> [])); [apply (grow_inv _ _ _ _ _ G0)|auto|]|].
  - intros [p q] s1 I1 (Hp1 & Hp2 & Hp3). apply lives_s1_step; auto.
  - intros z s' _ (_ & _ & H). exact H.
Qed.
End More.
Lemma saga1_runs {L} (E : env L) c : measurable E -> Nat.even (s1_size c) = true -> (0 < s1_size c)%nat -> picky E (s1_sel c) -> ~ s1_cmult c == 0 -> ~ s1_mmult c == 0 -> runs E (saga1 c).
Proof.
  intros HM H1 H2 H3 H4 H5. split; [intros i; exact H2|]. intros A ini s pop i I HG HN _. cbn [orun saga1].
  destruct (lives_ok _ _ _ _ _ _ (lives_s1_run E A HM c ini pop i s H1 H2 H3 H4 H5 I HG HN)) as (r & s' & E1 & _ & HQ). eauto.
Qed.

(* ----- bees ----- *)
Definition positive {L} (E : env L) : Prop := forall e k n, exists q, efit E e k n = Fin q /\ 0 < q.
Section Bees.
Context {L : learner}.
Variable E : env L.
Variable A : nat -> Prop.
Implicit Types s : hst plain.
Hypothesis HM : measurable E.
Hypothesis HPos : positive E.
Let n := length (epool E).
Local Notation safe := (safe E A).
Local Notation good := (good E A).
Local Notation inv := (inv A).
Local Notation held := (held E A).
Local Notation lives := (lives E A).
Local Notation grow := (grow E A).
Local Notation own := (own E A).
Lemma flips_fit m rate : 0 <= rate <= 1 -> (0 <= Qceiling (qofnat m * rate))%Z /\ (Z.to_nat (Qceiling (qofnat m * rate)) <= m)%nat.
Proof.
  intros [H0 H1]. assert (Hm : 0 <= qofnat m) by (unfold qofnat; change 0 with (inject_Z 0); rewrite <- Zle_Qle; lia).
  assert (Ha : 0 <= qofnat m * rate) by nra. assert (Hb : qofnat m * rate <= qofnat m) by nra. split.
  - apply Qceiling_resp_le in Ha. exact Ha.
  - apply Qceiling_resp_le in Hb. unfold qofnat in Hb at 2. rewrite Qceiling_Z in Hb. lia.
Qed.
Lemma food_bits_returns M f own other s : food_fits f -> returns (food_bits M f own other) s.
Proof.
  intros HF. destruct f as [| |rate]; cbn [food_bits].
  - apply returns_rnd1. intros qs g. apply binarize_returns.
  - apply returns_rnd1. intros qs g. eexists _, _. reflexivity.
  - cbv zeta. destruct (flips_fit (length own) rate HF) as [H1 H2]. destruct (Z.ltb_spec (Qceiling (qofnat (length own) * rate)) 0) as [Hz|_]; [lia|].
    destruct (sample_total (seq 0 (length own)) (Z.to_nat (Qceiling (qofnat (length own) * rate))) (hrng s)) as (r & g & Er); [rewrite seq_length; exact H2|].
    apply returns_bind; [eexists _, _; rewrite rnd_eq, Er; reflexivity|]. intros d s' _. eexists _, _. reflexivity.
Qed.
Lemma lives_food_call h M f own other s : food_fits f -> inv s -> held s own -> held s other -> lives h (food_call M f own other) (fun c s' => good s' c) s.
Proof.
  intros Hf I H1 H2. split; [eapply safe_post; [apply safe_food_call; auto|]; intros c s' _ H; apply H|].
  enough (H : lives h (food_call M f own other) (fun _ _ => True) s) by apply H. unfold food_call.
  assert (HGn : forall r, held s r -> lives h (genome r) (fun b s' => s' = s /\ length b = n) s).
  { intros r Hr. split; [eapply safe_post; [apply safe_genome_held; auto|]; intros b s' _ (Ha & Hb & _); auto|]. apply held_vw in Hr as (b & a & x & HV & _). eexists _, _. apply (genome_eq _ _ _ _ _ HV). }
  eapply lives_bind; [apply HGn; exact H1|]. intros bo s' _ (-> & Ho). eapply lives_bind; [apply HGn; exact H2|]. intros bt s' _ (-> & Ht). cbv beta.
  eapply lives_bind with (Q := fun b _ => length b = n); [split; [eapply safe_post; [apply safe_food_bits; auto|]; intros b s' _ H; apply H|apply food_bits_returns; exact Hf]|].
  intros bits s1 G1 Hb. cbv beta in *. pose proof (grow_held E A h s s1 own G1 H1) as H1'. split; [eapply safe_post; [apply safe_clone_with_held; [inv_of G1|exact H1'|exact Hb]|auto]|].
  apply held_vw in H1' as (b & a & x & HV & _). eexists _, _. apply (clone_with_eq _ _ _ _ _ _ HV).
Qed.
Lemma greedy_returns news : forall fs s, Forall (honest E s) news -> Forall (fun f => honest E s (src f)) fs -> exists fs', greedy_update news fs s = (Ok fs', s).
Proof.
  induction news as [|r news IH]; intros fs s HN HF; [exists fs; reflexivity|]. destruct fs as [|f fs]; [exists []; reflexivity|]. cbn [greedy_update].
  inversion HN as [|? ? HN1 HN2]; inversion HF as [|? ? HF1 HF2]; subst.
  assert (HV : forall x, honest E s x -> exists q, fitness x s = (Ok q, s)).
  { intros x (b & a & g & g' & HS & _). apply shows_vw in HS as (y & HV). exists (sfitness a). apply (fitness_eq _ _ _ _ _ HV). }
  destruct (HV _ HN1) as (q1 & E1). destruct (HV _ HF1) as (q2 & E2). destruct (IH fs s HN2 HF2) as (fs' & E3).
  rewrite (bind_ok _ _ _ _ _ E1), (bind_ok _ _ _ _ _ E2). cbv zeta. rewrite (bind_ok _ _ _ _ _ E3). eexists. reflexivity.
Qed.
Lemma bee_phase_returns M c fs others s : food_fits (be_food c) -> inv s -> Forall (own s) fs -> Forall (held s) others -> returns (bee_phase M c E fs others) s.
Proof.
  intros Hf I HF HO. unfold bee_phase.
  assert (HL : lives true (mmap (fun p => let* r := food_call M (be_food c) (src (fst p)) (snd p) in fit E r) (combine fs others)) (fun ys s' => Forall2 (fun _ y => honest E s' y) (combine fs others) ys) s).
  { apply (lives_mmap E A true _ (fun _ r s' => honest E s' r)); auto.
    - intros p r s1 s2 G H. eapply grow_honest; eauto.
    - intros [f o] s1 Hp G1. cbn [fst snd]. pose proof (in_combine_l _ _ _ _ Hp) as Hfi. pose proof (in_combine_r _ _ _ _ Hp) as Hoi.
      eapply lives_bind; [apply lives_food_call; [exact Hf|inv_of G1| |]; (eapply grow_held; [exact G1|])|].
      + rewrite Forall_forall in HF. left. apply (HF f Hfi).
      + rewrite Forall_forall in HO. apply (HO o Hoi).
      + intros r s2 G2 Hr. cbv beta. eapply lives_post; [apply lives_fit; [exact HM|inv_of G2|exact Hr]|]. intros r' s3 G3 (-> & _ & H). exact H. }
  destruct (lives_ok _ _ _ _ _ _ HL) as (news & s1 & E1 & G1 & HN). unfold returns. rewrite (bind_ok _ _ _ _ _ E1).
  destruct (greedy_returns news fs s1) as (fs' & E2).
  - clear - HN. induction HN; constructor; auto.
  - revert HF. apply Forall_impl. intros f [_ H]. eapply grow_honest; eauto.
  - exists fs', s1. exact E2.
Qed.
Lemma positive_list fs : Forall (fun f => exists e k j, f = efit E e k j) fs -> exists qs, fs = map Fin qs /\ Forall (fun q => 0 < q) qs.
Proof. induction 1 as [|f fs (e & k & j & ->) _ (qs & -> & H)]; [exists []; auto|]. destruct (HPos e k j) as (q & -> & Hq). exists (q :: qs). auto. Qed.
Lemma onlookers_return fs k s : fs <> [] -> Forall (own s) fs ->
  returns (let* ws := fitnesses (map src fs) in rnd (choices_num (map src fs) k (map (fun w => ndiv w (nsum ws)) ws))) s.
Proof.
  intros HN HF. assert (HH : Forall (honest E s) (map src fs)) by (rewrite Forall_map; revert HF; apply Forall_impl; intros f [_ H]; exact H).
  destruct (honest_fits_list E s _ HH) as (ws & HW & HE). destruct (positive_list ws HE) as (qs & -> & HQ).
  assert (HQ0 : Forall (fun q => 0 <= q) qs) by (revert HQ; apply Forall_impl; intros q; lra).
  assert (HS : 0 < qsum qs).
  { apply qsum_pos; [|exact HQ]. intros ->. inversion HW as [E0|]. destruct fs; [congruence|discriminate]. }
  destruct (select_roulette (map src fs) k s qs HW HQ0 HS) as (w & r & s' & HR & _). cbn [select] in HR.
  rewrite (bind_ok _ _ _ _ _ (fitnesses_eq s _ _ HW)) in HR. unfold returns. rewrite (bind_ok _ _ _ _ _ (fitnesses_eq s _ _ HW)).
  unfold roulette_weights in HR. destruct (nsum_fin qs 0) as (t & Et & Ht). unfold nsum in *. rewrite Et in HR. assert (Hn0 : neqb (Fin t) (Fin 0) = false) by (cbn; apply qeq_false; lra).
  rewrite Hn0 in HR. rewrite Et. exists r, s'. exact HR.
Qed.
Lemma owns_grow s s' fs : grow true s s' -> Forall (own s) fs -> Forall (own s') fs.
Proof. intros G. apply Forall_impl. intros f [H1 H2]. split; [eapply grow_good; eauto|eapply grow_honest; eauto]. Qed.
Lemma lives_bee_step M c ini fs s : food_fits (be_food c) -> inv s -> Forall (own s) fs -> fs <> [] ->
  lives true (bee_step M c E ini fs) (fun fs' s' => Forall (own s') fs' /\ fs' <> []) s.
Proof.
  intros Hf I HF HN. split.
  { eapply safe_post; [apply safe_bee_step; auto|]. intros fs' s' _ [H1 H2]. split; auto. intros ->. destruct fs; [congruence|discriminate]. }
  enough (H : lives true (bee_step M c E ini fs) (fun _ _ => True) s) by apply H. unfold bee_step.
  eapply lives_bind.
  { split; [apply safe_choices; auto|]. destruct (proj2 (choices_ok_iff (map src fs) (be_size c) (hrng s))) as (r & g' & E1); [left; destruct fs; [congruence|discriminate]|].
    eexists _, _. rewrite rnd_eq, E1. reflexivity. }
  intros o1 s1 G1 [HL1 HI1]. cbv beta. pose proof (owns_grow _ _ _ G1 HF) as HF1.
  eapply lives_bind; [split; [apply safe_bee_phase; [inv_of G1|apply owns_held; auto|eapply in_held; eauto]|apply bee_phase_returns; [exact Hf|inv_of G1|exact HF1|eapply in_held; eauto]]|].
  intros fs1 s2 G2 [HL2 HV2]. cbv beta. pose proof (phase_own _ _ _ _ _ _ _ G2 HF1 HL2 HV2) as HF2.
  assert (HN1 : fs1 <> []) by (intros ->; destruct fs; [congruence|discriminate]).
  destruct (onlookers_return fs1 (be_size c) s2 HN1 HF2) as (o2 & s2' & EO).
  destruct (fitnesses (map src fs1) s2) as [[ws|e] t] eqn:EW; [|rewrite (bind_raise _ _ _ _ _ EW) in EO; discriminate]. rewrite (bind_ok _ _ _ _ _ EW) in EO.
  eapply lives_bind with (Q := fun w s' => s' = s2 /\ w = ws).
  { pose proof (safe_fitnesses E A true s2 (map src fs1) (grow_inv _ _ _ _ _ G2) (owns_srcs _ _ _ _ HF2)) as HS. unfold L_Safe.safe in HS. split; [|eexists _, _; exact EW].
    unfold L_Safe.safe. rewrite EW in *. destruct HS as (G & H1 & _). auto. }
  intros ws' s' _ (-> & ->). cbv beta zeta.
  assert (t = s2). { pose proof (safe_fitnesses E A true s2 (map src fs1) (grow_inv _ _ _ _ _ G2) (owns_srcs _ _ _ _ HF2)) as HS. unfold L_Safe.safe in HS. rewrite EW in HS. apply HS. }
  subst t. eapply lives_bind; [split; [apply safe_choices_num; inv_of G2|exists o2, s2'; exact EO]|]. intros o2' s3 G3 [HLo HI2]. cbv beta.
  pose proof (owns_grow _ _ _ G3 HF2) as HF3.
  eapply lives_bind; [split; [apply safe_bee_phase; [inv_of G3|apply owns_held; auto|eapply in_held; eauto]|apply bee_phase_returns; [exact Hf|inv_of G3|exact HF3|eapply in_held; eauto]]|].
  intros fs2 s4 G4 _. cbv beta.
  eapply lives_post; [apply (lives_mmap E A true (scout c E ini) (fun _ _ _ => True)); [inv_of G4|auto|]|auto].
  intros f s5 _ G5. split; [eapply safe_post; [apply safe_scout; inv_of G5|auto]|]. unfold scout. destruct (Nat.leb (be_limit c) (trials f)); [|eexists _, _; reflexivity].
  enough (H : lives true (let* r := init_call ini (length (epool E)) in fit E r ;; ret (mkSrc r 0)) (fun _ _ => True) s5) by apply H.
  eapply lives_bind; [apply lives_init; inv_of G5|]. intros r s6 G6 Hr. cbv beta. eapply lives_bind; [apply lives_fit; [exact HM|inv_of G6|exact Hr]|]. intros r' s7 G7 _. apply lives_ret; [inv_of G7|exact Logic.I].
Qed.
Lemma lives_bee_run M c ini pop s : food_fits (be_food c) -> inv s -> Forall (good s) pop -> pop <> [] -> lives true (bee_run M c L E ini pop tt) (fun r s' => fst r <> []) s.
Proof.
  intros Hf I HG HN. unfold bee_run. eapply lives_bind; [apply lives_fit_all; auto|]. intros p s1 G1 (-> & H1 & H2). cbv beta. eapply lives_bind.
  - apply (lives_iterate E A true (bee_step M c E ini) (fun fs s' => Forall (own s') fs /\ fs <> [])); [inv_of G1| |].
    + split; [|destruct pop; [congruence|discriminate]]. apply Forall_map. apply Forall_forall. intros r Hr. rewrite Forall_forall in H1, H2. split; cbn; auto.
    + intros fs s2 I2 [Ha Hb]. apply lives_bee_step; auto.
  - intros fs s2 G2 [_ H]. apply lives_ret; [inv_of G2|]. cbn [fst]. destruct fs; [congruence|discriminate].
Qed.
End Bees.
Lemma bees_runs {L} (E : env L) M c : measurable E -> positive E -> (0 < be_size c)%nat -> food_fits (be_food c) -> runs E (bees M c).
Proof.
  intros HM H1 H2 H3. split; [intros i; exact H2|]. intros A ini s pop i I HG HN _. destruct i. cbn [orun bees].
  destruct (lives_ok _ _ _ _ _ _ (lives_bee_run E A HM H1 M c ini pop s H3 I HG HN)) as (r & s' & E1 & _ & HQ). eauto.
Qed.
