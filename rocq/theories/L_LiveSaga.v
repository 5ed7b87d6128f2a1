(* The second and third self-adapting algorithms: they always return. *)
From Coq Require Import Lia Permutation.
From Verif Require Import PyNum PyList PyMon PyRng PyStat L_Num L_List L_Rng L_Ranks M_Matching M_Rule M_Mixing L_Mixing M_Solution S_Solution
  L_Heap L_HeapProps M_Composition L_Safe L_SafeFit L_Composition M_GenomeOps S_GenomeOps L_GenomeOps L_GenomeProps L_Held M_GA L_GA M_Saga L_Saga M_Aco L_Aco M_Abc M_Swarm S_Optimizers L_Shipped S_Live L_LiveComp L_LiveAco L_LiveSwarm L_LiveMore.

Section Saga2.
Context {K : skind} {L : learner}.
Variable E : env L.
Variable A : nat -> Prop.
Implicit Types s : hst K.
Hypothesis HM : measurable E.
Local Notation safe := (safe E A).
Local Notation good := (good E A).
Local Notation inv := (inv A).
Local Notation lives := (lives E A).
Local Notation grow := (grow E A).
Lemma lives_fitness h s r : inv s -> good s r -> honest E s r -> lives h (fitness r) (fun _ s' => s' = s) s.
Proof.
  intros I HG Hr. split; [eapply safe_post; [apply safe_fitness; auto|]; intros c' s' _ H; apply H|].
  destruct Hr as (b & a & g1 & g2 & HS & _). apply shows_vw in HS as (x & HS). eexists _, _. apply (fitness_eq _ _ _ _ _ HS).
Qed.
Lemma lives_fitnesses h s rs : inv s -> Forall (good s) rs -> Forall (honest E s) rs -> lives h (fitnesses rs) (fun fs s' => s' = s /\ length fs = length rs) s.
Proof.
  intros I HG HH. destruct (honest_fits_list E s rs HH) as (fs & HF & _). split.
  - eapply safe_pure; [exact I|apply (fitnesses_eq s rs fs HF)|]. split; [reflexivity|]. clear - HF. induction HF; cbn; auto.
  - eexists _, _. apply (fitnesses_eq s rs fs HF).
Qed.
Lemma even_half k : Nat.even k = true -> (2 * (k / 2) = k)%nat.
Proof. intros H. apply Nat.even_spec in H as [q ->]. rewrite (Nat.mul_comm 2 q), Nat.div_mul by lia. lia. Qed.
Lemma Forall2_len {T U} (R : T -> U -> Prop) l l' : Forall2 R l l' -> length l' = length l.
Proof. induction 1; cbn; auto. Qed.
Lemma lives_s2_breed c st r pop s : Nat.even (s2_size c) = true -> picky E (s2_sel c) -> inv s -> Forall (good s) pop -> Forall (honest E s) pop -> pop <> [] ->
  lives true (s2_breed c E st r pop) (fun pop' s' => Forall (good s') pop' /\ Forall (honest E s') pop' /\
    length pop' = (Nat.min (n_elitists (s2_size c) (s2_ratio c)) (length pop) + s2_size c)%nat) s.
Proof.
  intros HE Hsel I HG HH HN. unfold s2_breed.
  eapply lives_bind; [apply lives_ranked; auto|]. intros ranked s' _ (-> & HP). cbv beta zeta.
  eapply lives_bind; [apply lives_select; auto|]. intros parents s1 G1 [HLp HIp]. cbv beta. pose proof (grow_inv _ _ _ _ _ G1) as I1.
  assert (HGp : Forall (good s1) parents) by (eapply grow_goods; [exact G1|]; exact (Forall_incl _ _ _ HG HIp)).
  assert (HHp : Forall (honest E s1) parents) by (eapply grow_honests; [exact G1|]; exact (Forall_incl _ _ _ HH HIp)).
  assert (HX : forall a b s', grow true s1 s' -> In a parents -> In b parents -> lives true
      (let* fa := fitness a in let* fb := fitness b in crossover false (s2_x c) (s2_xrate (cur_cmin r) (Fin (s2_cmax c)) st fa fb) a b)
      (fun c s2 => good s2 c /\ (c = a \/ ~ live s' c)) s').
  { intros a b s' G Ha Hb. pose proof (grow_inv _ _ _ _ _ G) as I'.
    assert (Ha' : good s' a) by (eapply grow_good; [exact G|]; eapply Forall_In; eauto). assert (Hb' : good s' b) by (eapply grow_good; [exact G|]; eapply Forall_In; eauto).
    assert (Ha2 : honest E s' a) by (eapply grow_honest; [exact G|]; eapply Forall_In; eauto). assert (Hb2 : honest E s' b) by (eapply grow_honest; [exact G|]; eapply Forall_In; eauto).
    eapply lives_bind; [apply lives_fitness; auto|]. intros fa s2 _ ->. cbv beta. eapply lives_bind; [apply lives_fitness; auto|]. intros fb s2 _ ->. cbv beta.
    split; [apply safe_crossover; auto|apply (crossover_returns E A); auto]. }
  eapply lives_bind.
  { split; [|apply (lives_offspring E A true)]; auto.
    - match goal with |- L_Safe.safe _ _ _ (offspring ?X _) _ _ => apply (safe_offspring E A true X parents s1 I1 HGp) end. intros a b s' G Ha Hb. apply HX; auto.
    - intros a b s' G Ha Hb. eapply lives_post; [apply HX; auto|]. intros c0 s2 _ H. apply H. }
  intros children s2 G2 [HLc HGc]. cbv beta. pose proof (grow_inv _ _ _ _ _ G2) as I2.
  assert (HGc' : Forall (good s2) children) by (eapply Forall_impl; [|exact HGc]; intros q H; apply H).
  eapply lives_bind; [apply lives_fit_all; auto|]. intros u s3 G3 (-> & HG3 & HH3). cbv beta. pose proof (grow_inv _ _ _ _ _ G3) as I3.
  eapply lives_bind.
  { match goal with |- L_LiveComp.lives _ _ _ (mmap ?f _) _ _ => apply (lives_mmap E A true f (fun _ r s' => good s' r)); [exact I3| |] end.
    - intros x y t1 t2 G H. eapply grow_good; eauto.
    - intros x s' Hx G. pose proof (grow_inv _ _ _ _ _ G) as I'. assert (Hx' : good s' x) by (eapply grow_good; [exact G|]; eapply Forall_In; eauto).
      assert (Hx2 : honest E s' x) by (eapply grow_honest; [exact G|]; eapply Forall_In; eauto).
      eapply lives_bind; [apply lives_fitness; auto|]. intros f s4 _ ->. cbv beta. apply lives_flips; auto. }
  intros mutated s4 G4 HMut. cbv beta. eapply lives_post; [apply lives_fit_all; [exact HM|apply (grow_inv _ _ _ _ _ G4)|]|].
  - apply Forall_app. split.
    + apply Forall_firstn. eapply grow_goods; [exact (grow_trans _ _ _ _ _ _ G1 (grow_trans _ _ _ _ _ _ G2 (grow_trans _ _ _ _ _ _ G3 G4)))|]. eapply Permutation_Forall; [symmetry; exact HP|exact HG].
    + clear - HMut. induction HMut; constructor; auto.
  - intros pop' s5 _ (-> & H1 & H2). split; [exact H1|]. split; [exact H2|]. rewrite app_length, firstn_length, (Permutation_length HP), (Forall2_len _ _ _ HMut), HLc, HLp, even_half; auto.
Qed.
Lemma stats_total fs : fs <> [] -> exists st, stats fs = Ok st.
Proof. destruct fs as [|f fs]; [congruence|]. intros _. unfold stats, nmin, nmax. cbn [rbind]. eauto. Qed.
Lemma dot_total : forall new old, (length new <= length old)%nat -> exists d, dot old new = Ok d.
Proof.
  induction new as [|b new IH]; intros old HL; [destruct old; cbn; eauto|]. destruct old as [|a old]; [inversion HL|]. destruct (IH old) as (d & Hd); [apply le_S_n; exact HL|].
  cbn [dot]. rewrite Hd. cbn. eauto.
Qed.
Lemma similarity_total t old new : (length new <= length old)%nat -> exists x, similarity t old new = Ok x.
Proof. intros H. unfold similarity. destruct (dot_total _ _ H) as (d & ->). cbn [rbind]. destruct (Nat.eqb _ _); eauto. Qed.
Lemma lives_s2_step t c z s : Nat.even (s2_size c) = true -> (0 < s2_size c)%nat -> (n_elitists (s2_size c) (s2_ratio c) <= s2_size c)%nat -> picky E (s2_sel c) ->
  inv s -> Forall (good s) (z_pop z) -> Forall (honest E s) (z_pop z) -> z_pop z <> [] -> (n_elitists (s2_size c) (s2_ratio c) <= length (z_pop z))%nat ->
  (z_iter z <> 0%nat -> length (z_pop z) = n_elitists (s2_size c) (s2_ratio c) + s2_size c)%nat ->
  lives true (s2_step t c E z) (fun z' s' => Forall (good s') (z_pop z') /\ Forall (honest E s') (z_pop z') /\ length (z_pop z') = (n_elitists (s2_size c) (s2_ratio c) + s2_size c)%nat) s.
Proof.
  intros HE Hsz Hne Hsel I HG HH HN HL1 HL2. unfold s2_step. set (pop := z_pop z) in *. set (ne := n_elitists (s2_size c) (s2_ratio c)) in *.
  eapply lives_bind; [apply lives_s2_breed; auto|]. intros pop' s5 G5 (HG5 & HH5 & HLen). cbv beta. pose proof (grow_inv _ _ _ _ _ G5) as I5. fold ne in HLen. rewrite Nat.min_l in HLen by auto.
  eapply lives_bind; [apply lives_fitnesses; auto|]. intros fs s' _ (-> & HLf). cbv beta.
  destruct (stats_total fs) as (st & HSt); [intros ->; rewrite HLen in HLf; cbn [length] in HLf; lia|].
  eapply lives_bind with (Q := fun _ s' => s' = s5).
  { split; [apply safe_lift; auto; rewrite HSt; reflexivity|rewrite HSt; eexists _, _; reflexivity]. }
  intros st' s' _ ->. cbv beta. destruct (Nat.eqb (z_iter z) 0) eqn:EZ; [apply lives_ret; auto|]. apply Nat.eqb_neq in EZ.
  destruct (diversity t (z_vmin z) (z_vmax z) st' fs) as [d [vmin vmax]].
  eapply lives_bind; [apply lives_fitnesses; [auto|eapply grow_goods; [exact G5|exact HG]|eapply grow_honests; [exact G5|exact HH]]|].
  intros old s' _ (-> & HLo). cbv beta. destruct (similarity_total t old fs) as (sim & HSi); [rewrite HLo, HLf, HLen, HL2; auto|].
  eapply lives_bind with (Q := fun _ s' => s' = s5).
  { split; [apply safe_lift; auto; rewrite HSi; reflexivity|rewrite HSi; eexists _, _; reflexivity]. }
  intros sim' s' _ ->. apply lives_ret; auto.
Qed.
Lemma lives_s2_run t c ini pop r s : Nat.even (s2_size c) = true -> (0 < s2_size c)%nat -> (n_elitists (s2_size c) (s2_ratio c) <= s2_size c)%nat -> picky E (s2_sel c) ->
  inv s -> Forall (good s) pop -> pop <> [] -> (n_elitists (s2_size c) (s2_ratio c) <= length pop)%nat ->
  lives true (s2_run t c L E ini pop r) (fun z s' => fst z <> []) s.
Proof.
  intros HE Hsz Hne Hsel I HG HN HL. unfold s2_run. rewrite HE. set (ne := n_elitists (s2_size c) (s2_ratio c)) in *.
  eapply lives_bind with (Q := fun _ s' => s' = s); [split; [apply (safe_lift E A true (Ok tt) (fun _ s' => s' = s)); auto|eexists _, _; reflexivity]|].
  intros u s' _ ->. eapply lives_bind; [apply lives_fit_all; auto|]. intros pop0 s0 G0 (-> & H1 & H2). cbv beta. pose proof (grow_inv _ _ _ _ _ G0) as I0.
  eapply lives_bind; [apply lives_fitnesses; auto|]. intros fs s' _ (-> & HLf). cbv beta zeta.
  destruct (stats_total fs) as (st & HSt); [intros ->; apply HN; destruct pop; [reflexivity|discriminate]|].
  eapply lives_bind with (Q := fun _ s' => s' = s0).
  { split; [apply safe_lift; auto; rewrite HSt; reflexivity|rewrite HSt; eexists _, _; reflexivity]. }
  intros st' s' _ ->. cbv beta. eapply lives_bind.
  - apply (lives_iterate E A true (s2_step t c E) (fun z s' => Forall (good s') (z_pop z) /\ Forall (honest E s') (z_pop z) /\ z_pop z <> [] /\ (ne <= length (z_pop z))%nat /\
       (z_iter z <> 0%nat -> length (z_pop z) = ne + s2_size c)%nat)); [auto|repeat split; cbn; auto; congruence|].
    intros z s1 I1 (Hp1 & Hp2 & Hp3 & Hp4 & Hp5). eapply lives_post; [apply lives_s2_step; auto|].
    intros z' s2 _ (Q1 & Q2 & Q3). fold ne in Q3. split; [exact Q1|]. split; [exact Q2|]. split; [intros HZ; rewrite HZ in Q3; cbn in Q3; lia|]. split; [lia|auto].
  - intros z s1 G1 (_ & _ & Hz & _). apply lives_ret; [apply (grow_inv _ _ _ _ _ G1)|exact Hz].
Qed.
End Saga2.
Lemma saga2_runs {L} (E : env L) t c : measurable E -> Nat.even (s2_size c) = true -> (0 < s2_size c)%nat -> (n_elitists (s2_size c) (s2_ratio c) <= s2_size c)%nat -> picky E (s2_sel c) -> forall J,
  runs_from (n_elitists (s2_size c) (s2_ratio c)) E (saga2 t c) J.
Proof.
  intros HM H1 H2 H3 H4 J. split; [intros i; cbn; lia|]. intros A ini s pop i I HG HN HL _ _. cbn [orun saga2].
  destruct (lives_ok _ _ _ _ _ _ (lives_s2_run E A HM t c ini pop i s H1 H2 H3 H4 I HG HN HL)) as (r & s' & E1 & _ & HQ). eauto.
Qed.

(* ----- saga3 ----- *)
Section Saga3.
Context {L : learner}.
Variable E : env L.
Variable A : nat -> Prop.
Implicit Types s : hst saga_sol.
Hypothesis HM : measurable E.
Local Notation safe := (safe E A).
Local Notation good := (good E A).
Local Notation inv := (inv A).
Local Notation lives := (lives E A).
Local Notation grow := (grow E A).
Lemma lives_get_ext h s r : inv s -> good s r -> lives h (get_ext (K := saga_sol) r) (fun _ s' => s' = s) s.
Proof.
  intros I HG. split; [eapply safe_post; [apply safe_get_ext; auto|]; intros c' s' _ H; apply H|].
  destruct HG as (_ & b & a & x & HV & _). eexists _, _. apply (get_ext_eq _ _ _ _ _ HV).
Qed.
Lemma lives_choice2 {T} h (a b : T) s : inv s -> lives h (rnd (choice1 [a; b])) (fun _ _ => True) s.
Proof.
  intros I. split; [eapply safe_post; [apply safe_choice2; auto|]; auto|]. destruct (choice1_two a b (hrng s)) as (c & H & _).
  unfold returns. rewrite rnd_eq. destruct (choice1 [a; b] (hrng s)) as [x g]. cbn [fst] in H. subst x. eexists _, _. reflexivity.
Qed.
Lemma lives_draw {T} h (f : rng -> T * rng) s : inv s -> lives h (rnd1 f) (fun _ _ => True) s.
Proof. intros I. split; [apply (safe_rnd1 E A h f (fun _ => True)); auto|]. unfold returns. rewrite rnd1_eq. eexists _, _. reflexivity. Qed.
Lemma saga_cross_returns pmut a b s : inv s -> good s a -> good s b -> returns (saga_cross pmut a b) s.
Proof.
  intros I Ha Hb. enough (H : lives true (saga_cross pmut a b) (fun _ _ => True) s) by apply H. unfold saga_cross.
  eapply lives_bind; [apply lives_get_ext; auto|]. intros xa s' _ ->. cbv beta.
  eapply lives_bind; [apply lives_get_ext; auto|]. intros xb s' _ ->. cbv beta.
  eapply lives_bind; [apply lives_choice2; auto|]. intros cr s1 G1 _. cbv beta.
  eapply lives_bind; [apply lives_choice2; apply (grow_inv _ _ _ _ _ G1)|]. intros mr s2 G2 _. cbv beta.
  eapply lives_bind; [apply lives_choice2; apply (grow_inv _ _ _ _ _ G2)|]. intros me s3 G3 _. cbv beta.
  eapply lives_bind; [apply lives_draw; apply (grow_inv _ _ _ _ _ G3)|]. intros u s4 G4 _. cbv beta.
  eapply lives_bind with (Q := fun (_ : params) (_ : hst saga_sol) => True).
  { pose proof (grow_inv _ _ _ _ _ G4) as I4. destruct (qlt u pmut); [|apply lives_ret; auto].
    eapply lives_bind; [apply lives_draw; auto|]. intros z1 s5 G5 _. cbv beta.
    eapply lives_bind; [apply lives_draw; apply (grow_inv _ _ _ _ _ G5)|]. intros z2 s6 G6 _. cbv beta.
    eapply lives_bind; [apply lives_choice2; apply (grow_inv _ _ _ _ _ G6)|]. intros me' s7 G7 _. apply lives_ret; auto. apply (grow_inv _ _ _ _ _ G7). }
  intros p s5 G5 _. cbv beta.
  pose proof (grow_trans _ _ _ _ _ _ G1 (grow_trans _ _ _ _ _ _ G2 (grow_trans _ _ _ _ _ _ G3 (grow_trans _ _ _ _ _ _ G4 G5)))) as G15.
  eapply lives_bind; [apply lives_crossover; [apply (grow_inv _ _ _ _ _ G5)| |]; eapply grow_good; eauto|].
  intros c s6 G6 Hc. cbv beta. pose proof (grow_inv _ _ _ _ _ G6) as I6.
  eapply lives_bind with (Q := fun _ _ => True).
  { split; [eapply safe_post; [apply safe_set_ext; [exact I6|exact Hc]|]; auto|]. destruct Hc as (_ & b' & a' & x & HV & _). eexists _, _. apply (set_ext_eq _ _ _ _ _ _ HV). }
  intros u' s7 G7 _. cbv beta. apply lives_ret; [apply (grow_inv _ _ _ _ _ G7)|exact Logic.I].
Qed.
Lemma saga_flips_returns r s : inv s -> good s r -> returns (saga_flips r) s.
Proof.
  intros I Hr. enough (H : lives true (saga_flips r) (fun _ _ => True) s) by apply H. unfold saga_flips.
  eapply lives_bind; [apply lives_get_ext; auto|]. intros x s' _ ->. cbv beta. eapply lives_post; [apply lives_flips; auto|auto].
Qed.
Lemma lives_s3_run c ini pop s : Nat.even (s3_size c) = true -> (0 < s3_size c)%nat -> picky E (s3_sel c) -> inv s -> Forall (good s) pop -> pop <> [] ->
  lives true (s3_run c L E ini pop tt) (fun z s' => fst z <> []) s.
Proof.
  intros HE Hsz Hsel I HG HN. unfold s3_run. rewrite HE.
  eapply lives_bind with (Q := fun _ s' => s' = s); [split; [apply (safe_lift E A true (Ok tt) (fun _ s' => s' = s)); auto|eexists _, _; reflexivity]|].
  intros u s' _ ->. eapply lives_bind; [apply lives_fit_all; auto|]. intros pop0 s0 G0 (-> & H1 & H2). cbv beta.
  eapply lives_bind.
  - apply (lives_iterate E A true _ (fun p s' => Forall (good s') p /\ Forall (honest E s') p /\ p <> [])); [apply (grow_inv _ _ _ _ _ G0)|auto|].
    intros p s1 I1 (Hp1 & Hp2 & Hp3). split.
    + eapply safe_post; [apply safe_saga_generation; auto|].
      * intros a b s' I' Ha Hb. apply safe_saga_cross; auto.
      * intros r s' I' Hr. apply safe_saga_flips; auto.
      * intros p' s2 _ HP. pose proof (post_nonempty E A _ _ _ _ _ _ HE Hsz HP) as HX. destruct HP as (Q1 & Q2 & _). auto.
    + apply (lives_saga_generation E A HM); auto.
      * intros a b s' I' Ha Hb. apply safe_saga_cross; auto.
      * intros a b s' I' Ha Hb. apply saga_cross_returns; auto.
      * intros r s' I' Hr. apply safe_saga_flips; auto.
      * intros r s' I' Hr. apply saga_flips_returns; auto.
  - intros p s1 G1 (_ & _ & H). apply lives_ret; [apply (grow_inv _ _ _ _ _ G1)|exact H].
Qed.
End Saga3.
Lemma saga3_runs {L} (E : env L) c : measurable E -> Nat.even (s3_size c) = true -> (0 < s3_size c)%nat -> picky E (s3_sel c) -> runs E (saga3 c).
Proof.
  intros HM H1 H2 H3. split; [intros i; exact H2|]. intros A ini s pop i I HG HN _. destruct i. cbn [orun saga3].
  destruct (lives_ok _ _ _ _ _ _ (lives_s3_run E A HM c ini pop s H1 H2 H3 I HG HN)) as (r & s' & E1 & _ & HQ). eauto.
Qed.
(* ----- ants ----- *)
Lemma ants_run {L} (E : env L) B tau0 ok c : measurable E -> fitted_rules E -> builder_ok B tau0 ok -> builder_builds B ok -> (0 < a_size c)%nat ->
  runs_from 1 E (aco B c) (pheromones_ok B ok (fun _ => True)).
Proof.
  intros HM HF HB HL Hs. split; [intros i; cbn; lia|]. intros A ini s pop i I HG HN _ HJ HE. cbn [orun aco].
  destruct (lives_ok _ _ _ _ _ _ (lives_aco_run E A HM HF HE B tau0 ok c HB HL ini pop i s I HG HN HJ)) as (r & s' & E1 & _ & HQ). exists r, s'. split; [exact E1|]. intros HZ. apply HN. rewrite <- HQ. exact HZ.
Qed.
(* every composer that works *)
Lemma works_runs f cc {K} (O : optimizer K) i : working_composer f cc O i -> exists Iok lo, contract O Iok /\ Iok i 0%nat /\ ((lo <= 1)%nat \/ cwarm cc = false) /\
  forall L (E : env L) m, efit E = f m -> measurable E -> fitted_rules E -> runs_from lo E O Iok.
Proof.
  intros HW.
  assert (HPk : forall L (E : env L) m sel, efit E = f m -> selection_works f sel -> picky E sel).
  { intros L E m sel HF. destruct sel; cbn; auto. rewrite HF. auto. }
  assert (H1 : shipped O i -> (forall L (E : env L) m, efit E = f m -> measurable E -> runs E O) ->
    exists Iok lo, contract O Iok /\ Iok i 0%nat /\ ((lo <= 1)%nat \/ cwarm cc = false) /\ forall L (E : env L) m, efit E = f m -> measurable E -> fitted_rules E -> runs_from lo E O Iok).
  { intros HS HR. destruct (shipped_contract O i HS) as (Iok & HC & HI). exists Iok, 1%nat. split; [exact HC|]. split; [exact HI|]. split; [left; lia|]. intros L E m HF HM _. apply runs_any. eapply HR; eauto. }
  destruct HW.
  - apply H1; [constructor|]. intros L E m HF HM. apply ga_runs; eauto.
  - apply H1; [constructor|]. intros L E m HF HM. apply rs_runs; eauto.
  - apply H1; [constructor; assumption|]. intros L E m HF HM. apply saga1_runs; eauto.
  - destruct (shipped_contract (saga2 t c) r) as (Iok & HC & HI); [constructor; assumption|]. exists Iok. eexists. split; [exact HC|]. split; [exact HI|]. split; [eassumption|].
    intros L E m HF HM _. apply saga2_runs; eauto.
  - apply H1; [constructor; assumption|]. intros L E m HF HM. apply saga3_runs; eauto.
  - eexists _, 1%nat. split; [eapply aco_contract; [apply binary_ok|apply binary_map_id]|]. split; [exact I|]. split; [left; lia|].
    intros L E m HF HM HFi. eapply ants_run; auto; [apply binary_ok|apply binary_builds].
  - eexists _, 1%nat. split; [eapply aco_contract; [apply complete_ok|apply complete_map_id]|]. split; [exact I|]. split; [left; lia|].
    intros L E m HF HM HFi. eapply ants_run; auto; [apply complete_ok|apply complete_builds].
  - apply H1; [constructor|]. intros L E m HF HM. apply bees_runs; auto. intros e k n. rewrite HF. auto.
  - apply H1; [constructor|]. intros L E m HF HM. apply swarm_runs; auto.
  - apply H1; [constructor|]. intros L E m HF HM. apply wolves_runs; auto.
Qed.
