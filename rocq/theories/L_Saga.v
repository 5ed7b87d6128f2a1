(* Self-adapting genetic algorithms and ageing: every run is safe. *)
From Coq Require Import Lia Permutation.
From Verif Require Import PyNum PyList PyMon PyRng PyStat L_Num L_List L_Rng M_Matching M_Rule M_Mixing L_Mixing M_Solution S_Solution
  L_Heap L_HeapProps M_Composition L_Safe L_SafeFit L_Composition M_GenomeOps S_GenomeOps L_GenomeOps L_GenomeProps M_GA L_GA M_Saga S_Saga M_Sas.

Lemma notbad e : e <> AssertionError -> e <> Dangling -> ~ bad e.
Proof. intros H1 H2 [H|H]; auto. Qed.
Ltac notbad := apply notbad; discriminate.

Section Saga.
Context {K : skind} {L : learner}.
Variable E : env L.
Variable A : nat -> Prop.
Implicit Types s : hst K.
Local Notation safe := (safe E A).
Local Notation good := (good E A).
Local Notation inv := (inv A).

Lemma not_live_back h s s' r : grow E A h s s' -> ~ live s' r -> ~ live s r.
Proof. intros G H Hl. apply H. unfold live in *. pose proof (proj1 (proj2 G)). lia. Qed.

(* children and their mutants, given safe operators *)
Lemma safe_mutants h (mutate : nat -> HSt K nat) rs s : inv s -> Forall (good s) rs ->
  (forall r s', inv s' -> good s' r -> In r rs -> grow E A h s s' -> safe h (mutate r) (fun c s1 => good s1 c /\ ~ live s' c) s') ->
  safe h (mmap mutate rs) (fun ms s' => length ms = length rs /\ Forall (good s') ms /\ Forall (fun r => ~ live s r) ms) s.
Proof.
  intros I HG HM. eapply safe_post.
  - apply (safe_mmap E A h mutate (fun _ r s' => good s' r /\ ~ live s r) rs s I).
    + intros x y s1 s2 G [H1 H2]. split; auto. eapply grow_good; eauto.
    + intros r s1 Hr G1. eapply safe_post; [apply HM; [apply (grow_inv _ _ _ _ _ G1)| |auto|auto]|].
      * apply (grow_good _ _ _ _ _ _ G1). eapply Forall_In; eauto.
      * intros c s2 G2 (H1 & H2). split; auto. eapply not_live_back; eauto.
  - intros ms s' G HF. cbv beta in *. split; [apply Forall2_len in HF; auto|]. clear - HF.
    split; induction HF as [|x y l m [H1 H2] _ IH]; constructor; auto.
Qed.

Definition generation_post (size : nat) (ratio : Q) s (pop pop' : list nat) (s' : hst K) : Prop :=
  Forall (good s') pop' /\ Forall (honest E s') pop' /\
  exists el new, pop' = el ++ new /\ incl el pop /\ length new = (2 * (size / 2))%nat /\ Forall (fun r => ~ live s r) new /\
    (no_nan_fit s pop -> fittest_k s (n_elitists size ratio) pop el).

Lemma safe_saga_generation h size ratio sel cross mutate pop s : inv s -> Forall (good s) pop ->
  (forall a b s', inv s' -> good s' a -> good s' b -> safe h (cross a b) (fun c s1 => good s1 c /\ (c = a \/ ~ live s' c)) s') ->
  (forall r s', inv s' -> good s' r -> safe h (mutate r) (fun c s1 => good s1 c /\ ~ live s' c) s') ->
  safe h (saga_generation E size ratio sel cross mutate pop) (generation_post size ratio s pop) s.
Proof.
  intros I HG HC HM. unfold saga_generation.
  eapply safe_bind; [apply safe_ranked; auto|]. intros ranked s' _ (-> & HP & HT & _). cbv beta.
  set (k := n_elitists size ratio) in *.
  assert (HR : Forall (good s) ranked) by (eapply Permutation_Forall; [symmetry; exact HP|exact HG]).
  eapply safe_bind; [apply safe_select; auto|]. intros parents s1 G1 [HLp HIp]. cbv beta.
  assert (HGp : Forall (good s1) parents) by (eapply grow_goods; [exact G1|]; exact (Forall_incl _ _ _ HG HIp)).
  pose proof (grow_inv _ _ _ _ _ G1) as I1.
  eapply safe_bind.
  { apply (safe_offspring E A h cross parents s1 I1 HGp).
    intros a b s' G Ha Hb. apply HC; [apply (grow_inv _ _ _ _ _ G)| |]; eapply grow_good; try exact G; eapply Forall_In; eauto. }
  intros children s2 G2 [HLc HGc]. cbv beta.
  pose proof (grow_inv _ _ _ _ _ G2) as I2.
  assert (HGc' : Forall (good s2) children) by (eapply Forall_impl; [|exact HGc]; intros r H; apply H).
  eapply safe_bind; [apply (safe_mutants h mutate children s2 I2 HGc'); intros; apply HM; auto|].
  intros mutated s3 G3 (HLm & HGm & HNm). cbv beta.
  pose proof (grow_trans _ _ _ _ _ _ G1 (grow_trans _ _ _ _ _ _ G2 G3)) as G13.
  assert (HGall : Forall (good s3) (firstn k ranked ++ mutated)).
  { apply Forall_app. split; auto. apply Forall_firstn. eapply grow_goods; [exact G13|exact HR]. }
  eapply safe_post; [apply safe_fit_all; [apply (grow_inv _ _ _ _ _ G3)|exact HGall]|].
  intros pop' s4 G4 (-> & H1 & H2). split; auto. split; auto.
  exists (firstn k ranked), mutated. split; [reflexivity|]. split; [|split; [rewrite HLm, HLc, HLp; reflexivity|split]].
  - intros x Hx. apply In_firstn in Hx. eapply Permutation_in; eauto.
  - eapply Forall_impl; [|exact HNm]. intros r Hr. eapply not_live_back; [exact G1|]. eapply not_live_back; [exact G2|exact Hr].
  - intros HN. apply HT; auto.
Qed.

(* ----- saga1 ----- *)
Lemma qmin_spec a b : qmin a b <= a /\ qmin a b <= b /\ (qmin a b = a \/ qmin a b = b).
Proof.
  unfold qmin. destruct (qle a b) eqn:H; [apply qle_iff in H|apply qle_false in H]; (split; [lra|split; [lra|auto]]).
Qed.
Lemma qmax_spec a b : a <= qmax a b /\ b <= qmax a b /\ (qmax a b = a \/ qmax a b = b).
Proof.
  unfold qmax. destruct (qle a b) eqn:H; [apply qle_iff in H|apply qle_false in H]; (split; [lra|split; [lra|auto]]).
Qed.
Lemma qmul_ge a m : 0 <= a -> 1 <= m -> a <= a * m.
Proof. intros. rewrite <- (Qmult_1_r a) at 1. rewrite !(Qmult_comm a). apply Qmult_le_compat_r; auto. Qed.
Lemma qdiv_le a m : 0 <= a -> 1 <= m -> a / m <= a.
Proof.
  intros Ha Hm. assert (Hp : 0 < m) by (eapply Qlt_le_trans; [|exact Hm]; reflexivity).
  apply Qle_shift_div_r; auto. apply qmul_ge; auto.
Qed.
Lemma s1_adjust_ok c fs r r' : s1_sane c -> s1_within c r -> s1_adjust c fs r = Ok r' -> s1_within c r'.
Proof.
  intros (Hm1 & Hc1 & Hm0 & Hc0) [[H1 H2] [H3 H4]]. unfold s1_adjust. destruct (gdm fs) as [v|e]; [|discriminate]. cbn [rbind].
  assert (Hm : 0 <= r_mut r) by lra. assert (Hc : 0 <= r_cross r) by lra.
  unfold pydiv. destruct (nlt _ _); [|destruct (nlt _ _)].
  - destruct (qeq _ _); [discriminate|]. cbn [rbind]. intros H; inversion H; subst r'; clear H. unfold s1_within, within; cbn [r_mut r_cross].
    destruct (qmin_spec (s1_mmax c) (r_mut r * s1_mmult c)) as (A1 & A2 & A3).
    destruct (qmax_spec (s1_cmin c) (r_cross r / s1_cmult c)) as (B1 & B2 & B3).
    pose proof (qmul_ge _ _ Hm Hm1). pose proof (qdiv_le _ _ Hc Hc1). split; split; auto.
    + destruct A3 as [-> | ->]; lra.
    + destruct B3 as [-> | ->]; lra.
  - destruct (qeq _ _); [discriminate|]. cbn [rbind]. intros H; inversion H; subst r'; clear H. unfold s1_within, within; cbn [r_mut r_cross].
    destruct (qmax_spec (s1_mmin c) (r_mut r / s1_mmult c)) as (A1 & A2 & A3).
    destruct (qmin_spec (s1_cmax c) (r_cross r * s1_cmult c)) as (B1 & B2 & B3).
    pose proof (qmul_ge _ _ Hc Hc1). pose proof (qdiv_le _ _ Hm Hm1). split; split; auto.
    + destruct A3 as [-> | ->]; lra.
    + destruct B3 as [-> | ->]; lra.
  - intros H; inversion H; subst. split; split; auto.
Qed.
Lemma s1_adjust_raise c fs r e : s1_adjust c fs r = Raise e -> ~ bad e.
Proof.
  unfold s1_adjust, gdm, nmax, pydiv. destruct fs; cbn [rbind]; [intros H; inversion H; notbad|].
  destruct (nlt _ _); [|destruct (nlt _ _); [|discriminate]]; destruct (qeq _ _); cbn [rbind]; intros H; inversion H; notbad.
Qed.
Lemma safe_s1_step h c (P : rates -> Prop) pop r s : inv s -> Forall (good s) pop -> (forall fs r r', P r -> s1_adjust c fs r = Ok r' -> P r') -> P r ->
  safe h (s1_step c E (pop, r)) (fun z s' => P (snd z) /\ generation_post (s1_size c) (s1_ratio c) s pop (fst z) s') s.
Proof.
  intros I HG HP Hr. unfold s1_step. eapply safe_bind; [apply safe_fitnesses; auto|]. intros fs s' _ (-> & HF). cbv beta.
  eapply safe_bind with (Q := fun r' s' => s' = s /\ P r').
  { apply safe_lift; auto. destruct (s1_adjust c fs r) as [r'|e] eqn:EA; [split; [auto|eapply HP; eauto]|eapply s1_adjust_raise; eauto]. }
  intros r' s' _ (-> & Hr'). cbv beta. eapply safe_bind.
  { apply safe_saga_generation; auto.
    - intros a b s1 I1 Ha Hb. apply safe_crossover; auto.
    - intros q s1 I1 Hq. eapply safe_post; [apply safe_bit_flips; auto|]. intros c0 s2 _ (H1 & H2 & _). auto. }
  intros pop' s' G H. cbv beta in *. apply safe_ret; [apply (grow_inv _ _ _ _ _ G)|]. auto.
Qed.
Lemma safe_s1_run h c (P : rates -> Prop) ini pop r s : Nat.even (s1_size c) = true -> inv s -> Forall (good s) pop ->
  (forall fs r r', P r -> s1_adjust c fs r = Ok r' -> P r') -> P r ->
  safe h (s1_run c L E ini pop r) (fun z s' => Forall (good s') (fst z) /\ Forall (honest E s') (fst z) /\ P (snd z)) s.
Proof.
  intros HE I HG HP Hr. unfold s1_run. rewrite HE. eapply safe_bind; [apply (safe_lift E A h (Ok tt) (fun _ s' => s' = s)); auto|].
  intros u s' _ ->. eapply safe_bind; [apply safe_fit_all; auto|]. intros pop0 s0 G0 (-> & H1 & H2). cbv beta.
  apply (safe_iterate E A h (s1_step c E) (fun z s' => Forall (good s') (fst z) /\ Forall (honest E s') (fst z) /\ P (snd z)));
    [apply (grow_inv _ _ _ _ _ G0)|auto|].
  intros [p q] s1 I1 (Hp1 & Hp2 & Hp3). eapply safe_post; [apply (safe_s1_step h c P); auto|].
  intros z s2 G2 (H3 & H4 & H5 & _). auto.
Qed.

(* ----- saga2 ----- *)
Lemma nmax_raise l e : nmax l = Raise e -> ~ bad e.
Proof. destruct l; intros H; inversion H. notbad. Qed.
Lemma nmin_raise l e : nmin l = Raise e -> ~ bad e.
Proof. destruct l; intros H; inversion H. notbad. Qed.
Lemma stats_raise l e : stats l = Raise e -> ~ bad e.
Proof.
  unfold stats. destruct (nmin l) as [x|e1] eqn:E1; cbn; [|intros H; inversion H; subst; eapply nmin_raise; eauto].
  destruct (nmax l) as [y|e2] eqn:E2; cbn; [discriminate|]. intros H; inversion H; subst; eapply nmax_raise; eauto.
Qed.
Lemma dot_raise old new e : dot old new = Raise e -> ~ bad e.
Proof.
  revert old. induction new as [|b new IH]; intros [|a old]; cbn; try discriminate.
  - intros H; inversion H. notbad.
  - destruct (dot old new) as [d|e1] eqn:ED; cbn; [discriminate|]. intros H; inversion H; subst. eapply IH; eauto.
Qed.
Lemma similarity_raise t old new e : similarity t old new = Raise e -> ~ bad e.
Proof.
  unfold similarity. destruct (dot old new) as [d|e1] eqn:ED; cbn; [destruct (Nat.eqb _ _); discriminate|].
  intros H; inversion H; subst. eapply dot_raise; eauto.
Qed.
Lemma safe_s2_breed h c st r pop s : inv s -> Forall (good s) pop ->
  safe h (s2_breed c E st r pop) (generation_post (s2_size c) (s2_ratio c) s pop) s.
Proof.
  intros I HG. unfold s2_breed.
  eapply safe_bind; [apply safe_ranked; auto|]. intros ranked s' _ (-> & HP & HT & _). cbv beta.
  assert (HR : Forall (good s) ranked) by (eapply Permutation_Forall; [symmetry; exact HP|exact HG]).
  eapply safe_bind; [apply safe_select; auto|]. intros parents s1 G1 [HLp HIp]. cbv beta.
  assert (HGp : Forall (good s1) parents) by (eapply grow_goods; [exact G1|]; exact (Forall_incl _ _ _ HG HIp)).
  pose proof (grow_inv _ _ _ _ _ G1) as I1.
  eapply safe_bind.
  { match goal with |- L_Safe.safe _ _ _ (offspring ?X _) _ _ => apply (safe_offspring E A h X parents s1 I1 HGp) end.
    intros a b s' G Ha Hb. assert (Ha' : good s' a) by (eapply grow_good; [exact G|]; eapply Forall_In; eauto).
    assert (Hb' : good s' b) by (eapply grow_good; [exact G|]; eapply Forall_In; eauto).
    pose proof (grow_inv _ _ _ _ _ G) as I'.
    eapply safe_bind; [apply safe_fitness; auto|]. intros fa s2 _ (-> & _). cbv beta.
    eapply safe_bind; [apply safe_fitness; auto|]. intros fb s2 _ (-> & _). cbv beta.
    apply safe_crossover; auto. }
  intros children s2 G2 [HLc HGc]. cbv beta.
  assert (HGc' : Forall (good s2) children) by (eapply Forall_impl; [|exact HGc]; intros q H; apply H).
  eapply safe_bind; [apply safe_fit_all; [apply (grow_inv _ _ _ _ _ G2)|auto]|]. intros u s3 G3 (-> & HGc3 & _). cbv beta.
  eapply safe_bind.
  { apply (safe_mutants h _ children s3 (grow_inv _ _ _ _ _ G3) HGc3). intros q s' I' Hr _ _.
    eapply safe_bind; [apply safe_fitness; auto|]. intros f s4 _ (-> & _). cbv beta.
    eapply safe_post; [apply safe_bit_flips; auto|]. intros c0 s5 _ (H1 & H2 & _). auto. }
  intros mutated s4 G4 (HLm & HGm & HNm). cbv beta.
  pose proof (grow_trans _ _ _ _ _ _ G1 (grow_trans _ _ _ _ _ _ G2 G3)) as G13.
  pose proof (grow_trans _ _ _ _ _ _ G13 G4) as G14.
  eapply safe_post; [apply safe_fit_all; [apply (grow_inv _ _ _ _ _ G4)|]|].
  { apply Forall_app. split; [|exact HGm]. apply Forall_firstn. eapply grow_goods; [exact G14|exact HR]. }
  intros pop' s5 G5 (-> & HG5 & HH5). split; [auto|]. split; [auto|].
  exists (firstn (n_elitists (s2_size c) (s2_ratio c)) ranked), mutated. split; [reflexivity|]. split; [|split; [rewrite HLm, HLc, HLp; reflexivity|split]].
  - intros x Hx. apply In_firstn in Hx. eapply Permutation_in; eauto.
  - eapply Forall_impl; [|exact HNm]. intros q Hr. eapply not_live_back; [exact G13|exact Hr].
  - intros HN. apply HT; auto.
Qed.
Lemma safe_s2_step h t c z s : inv s -> Forall (good s) (z_pop z) ->
  safe h (s2_step t c E z) (fun z' s' => generation_post (s2_size c) (s2_ratio c) s (z_pop z) (z_pop z') s') s.
Proof.
  intros I HG. unfold s2_step. set (pop := z_pop z) in *.
  eapply safe_bind; [apply safe_s2_breed; auto|]. intros pop' s5 G5 HPost. cbv beta. pose proof (grow_inv _ _ _ _ _ G5) as I5.
  eapply safe_bind; [apply safe_fitnesses; [auto|apply HPost]|]. intros fs s' _ (-> & _). cbv beta.
  eapply safe_bind with (Q := fun _ s' => s' = s5).
  { apply safe_lift; auto. destruct (stats fs) eqn:ES; [auto|eapply stats_raise; eauto]. }
  intros st s' _ ->. cbv beta. destruct (Nat.eqb (z_iter z) 0); [apply safe_ret; auto|].
  destruct (diversity t (z_vmin z) (z_vmax z) st fs) as [d [vmin vmax]].
  eapply safe_bind; [apply safe_fitnesses; [auto|]|].
  { eapply grow_goods; [exact G5|exact HG]. }
  intros old s' _ (-> & _). cbv beta.
  eapply safe_bind with (Q := fun _ s' => s' = s5).
  { apply safe_lift; auto. destruct (similarity t old fs) eqn:ES; [auto|eapply similarity_raise; eauto]. }
  intros sim s' _ ->. apply safe_ret; auto.
Qed.
Lemma safe_s2_run h t c ini pop r s : Nat.even (s2_size c) = true -> inv s -> Forall (good s) pop ->
  safe h (s2_run t c L E ini pop r) (fun z s' => Forall (good s') (fst z) /\ Forall (honest E s') (fst z)) s.
Proof.
  intros HE I HG. unfold s2_run. rewrite HE. eapply safe_bind; [apply (safe_lift E A h (Ok tt) (fun _ s' => s' = s)); auto|].
  intros u s' _ ->. eapply safe_bind; [apply safe_fit_all; auto|]. intros pop0 s0 G0 (-> & H1 & H2). cbv beta.
  pose proof (grow_inv _ _ _ _ _ G0) as I0.
  eapply safe_bind; [apply safe_fitnesses; auto|]. intros fs s' _ (-> & _). cbv beta.
  eapply safe_bind with (Q := fun _ s' => s' = s0).
  { apply safe_lift; auto. destruct (stats fs) eqn:ES; [auto|eapply stats_raise; eauto]. }
  intros st s' _ ->. cbv beta. eapply safe_bind.
  - apply (safe_iterate E A h (s2_step t c E) (fun z s' => Forall (good s') (z_pop z) /\ Forall (honest E s') (z_pop z))); [auto|auto|].
    intros z s1 I1 (Hp1 & Hp2). eapply safe_post; [apply safe_s2_step; auto|]. intros z' s2 _ (H3 & H4 & _). auto.
  - intros z s1 G1 H. apply safe_ret; [apply (grow_inv _ _ _ _ _ G1)|]. exact H.
Qed.
End Saga.

(* ----- saga3 ----- *)
Section Saga3.
Context {L : learner}.
Variable E : env L.
Variable A : nat -> Prop.
Implicit Types s : hst saga_sol.
Local Notation safe := (safe E A).
Local Notation good := (good E A).
Local Notation inv := (inv A).

Lemma choice1_two {T} (a b : T) g : exists c, fst (choice1 [a; b] g) = Ok c /\ (c = a \/ c = b).
Proof.
  unfold choice1. destruct (draw g) as [q g']. cbn [fst]. eexists. split; [reflexivity|].
  destruct (index_of _ q) as [|[|k]]; cbn [nth]; auto. destruct k; auto.
Qed.
Lemma safe_choice2 {T} h (a b : T) s : inv s -> safe h (rnd (choice1 [a; b])) (fun c _ => c = a \/ c = b) s.
Proof. intros I. apply safe_rnd; auto. destruct (choice1_two a b (hrng s)) as (c & -> & H). exact H. Qed.
Lemma safe_saga_cross h pmut a b s : inv s -> good s a -> good s b ->
  safe h (saga_cross pmut a b) (fun c s' => good s' c /\ (c = a \/ ~ live s c)) s.
Proof.
  intros I Ha Hb. unfold saga_cross.
  eapply safe_bind; [apply safe_get_ext; auto|]. intros xa s' _ (-> & _). cbv beta.
  eapply safe_bind; [apply safe_get_ext; auto|]. intros xb s' _ (-> & _). cbv beta.
  eapply safe_bind; [apply safe_choice2; auto|]. intros cr s1 G1 _. cbv beta.
  eapply safe_bind; [apply safe_choice2; apply (grow_inv _ _ _ _ _ G1)|]. intros mr s2 G2 _. cbv beta.
  eapply safe_bind; [apply safe_choice2; apply (grow_inv _ _ _ _ _ G2)|]. intros me s3 G3 _. cbv beta.
  eapply safe_bind; [apply (safe_rnd1 E A h random (fun _ => True)); auto; apply (grow_inv _ _ _ _ _ G3)|]. intros u s4 G4 _. cbv beta.
  eapply safe_bind with (Q := fun (_ : params) (_ : hst saga_sol) => True).
  { pose proof (grow_inv _ _ _ _ _ G4) as I4. destruct (qlt u pmut); [|apply safe_ret; auto].
    eapply safe_bind; [apply (safe_rnd1 E A h draw (fun _ => True)); auto|]. intros z1 s5 G5 _. cbv beta.
    eapply safe_bind; [apply (safe_rnd1 E A h draw (fun _ => True)); auto; apply (grow_inv _ _ _ _ _ G5)|]. intros z2 s6 G6 _. cbv beta.
    eapply safe_bind; [apply safe_choice2; apply (grow_inv _ _ _ _ _ G6)|]. intros me' s7 G7 _. apply safe_ret; auto. apply (grow_inv _ _ _ _ _ G7). }
  intros p s5 G5 _. cbv beta.
  pose proof (grow_trans _ _ _ _ _ _ G1 (grow_trans _ _ _ _ _ _ G2 (grow_trans _ _ _ _ _ _ G3 (grow_trans _ _ _ _ _ _ G4 G5)))) as G15.
  eapply safe_bind; [apply safe_crossover; [apply (grow_inv _ _ _ _ _ G5)| |]; eapply grow_good; eauto|].
  intros c s6 G6 (Hc & Hd). cbv beta.
  eapply safe_bind; [apply safe_set_ext; [apply (grow_inv _ _ _ _ _ G6)|exact Hc]|]. intros u' s7 G7 _. cbv beta.
  apply safe_ret; [apply (grow_inv _ _ _ _ _ G7)|]. split; [eapply grow_good; eauto|].
  destruct Hd as [->|Hd]; auto. right. eapply not_live_back; eauto.
Qed.
Lemma safe_saga_flips h r s : inv s -> good s r -> safe h (saga_flips r) (fun c s' => good s' c /\ ~ live s c) s.
Proof.
  intros I Hr. unfold saga_flips. eapply safe_bind; [apply safe_get_ext; auto|]. intros x s' _ (-> & _). cbv beta.
  eapply safe_post; [apply safe_bit_flips; auto|]. intros c s1 _ (H1 & H2 & _). auto.
Qed.
Lemma safe_s3_run h c ini pop s : Nat.even (s3_size c) = true -> inv s -> Forall (good s) pop ->
  safe h (s3_run c L E ini pop tt) (fun z s' => Forall (good s') (fst z) /\ Forall (honest E s') (fst z)) s.
Proof.
  intros HE I HG. unfold s3_run. rewrite HE. eapply safe_bind; [apply (safe_lift E A h (Ok tt) (fun _ s' => s' = s)); auto|].
  intros u s' _ ->. eapply safe_bind; [apply safe_fit_all; auto|]. intros pop0 s0 G0 (-> & H1 & H2). cbv beta.
  eapply safe_bind.
  - apply (safe_iterate E A h _ (fun p s' => Forall (good s') p /\ Forall (honest E s') p)); [apply (grow_inv _ _ _ _ _ G0)|auto|].
    intros p s1 I1 [Hp1 Hp2]. eapply safe_post; [apply safe_saga_generation; auto|].
    + intros a b s' I' Ha Hb. apply safe_saga_cross; auto.
    + intros r s' I' Hr. apply safe_saga_flips; auto.
    + intros p' s2 G2 (H3 & H4 & _). auto.
  - intros p s1 G1 H. apply safe_ret; [apply (grow_inv _ _ _ _ _ G1)|]. exact H.
Qed.
End Saga3.

(* ----- sas ----- *)
Section Sas.
Context {L : learner}.
Variable E : env L.
Variable A : nat -> Prop.
Implicit Types s : hst sas_sol.
Local Notation safe := (safe E A).
Local Notation good := (good E A).
Local Notation inv := (inv A).

Lemma safe_ageing h initial pop s : inv s -> Forall (good s) pop ->
  safe h (ageing initial pop) (fun parents s' => Forall (good s') parents /\ incl parents pop) s.
Proof.
  intros I HG. unfold ageing. eapply safe_bind; [apply safe_fitnesses; auto|]. intros fs s' _ (-> & _). cbv beta.
  eapply safe_bind; [apply safe_by_fitness; auto|]. intros ranked s' _ (-> & HP). cbv beta.
  eapply safe_bind with (Q := fun r s' => s' = s /\ In r pop).
  { apply safe_lift; auto. destruct (nth_error (rev (firstn (initial * 5) ranked)) 0) as [r|] eqn:EN; cbn; [|notbad].
    split; auto. apply nth_error_In, in_rev, In_firstn in EN. eapply Permutation_in; eauto. }
  intros lowest s' _ (-> & Hl). cbv beta.
  eapply safe_bind; [apply safe_fitness; [auto|exact (Forall_In _ _ _ HG Hl)]|]. intros top s' _ (-> & _). cbv beta.
  eapply safe_bind.
  { apply (safe_miter E A h _ (fun _ _ => True)); [auto|auto|]. intros r s' Hr G'. pose proof (grow_inv _ _ _ _ _ G') as I'.
    assert (Hr' : good s' r) by (eapply grow_good; [exact G'|]; exact (Forall_In _ _ _ HG Hr)).
    eapply safe_bind; [apply safe_get_ext; auto|]. intros age s1 _ (-> & _). cbv beta.
    eapply safe_bind; [apply safe_fitness; auto|]. intros f s1 _ (-> & _). cbv beta.
    eapply safe_post; [apply safe_set_ext; auto|]. auto. }
  intros u s1 G1 _. cbv beta. pose proof (grow_inv _ _ _ _ _ G1) as I1.
  assert (HG1 : Forall (good s1) pop) by (eapply grow_goods; eauto).
  eapply safe_bind.
  { apply (safe_mmap E A h _ (fun r l _ => l = [r] \/ l = [])); [auto|auto|]. intros r s' Hr G'. pose proof (grow_inv _ _ _ _ _ G') as I'.
    assert (Hr' : good s' r) by (eapply grow_good; [exact G'|]; exact (Forall_In _ _ _ HG1 Hr)).
    eapply safe_bind; [apply safe_get_ext; auto|]. intros age s2 _ (-> & _). cbv beta. apply safe_ret; auto.
    destruct (Z.ltb 0 age); auto. }
  intros keep s2 G2 HK. cbv beta in *. apply safe_ret; [apply (grow_inv _ _ _ _ _ G2)|].
  assert (HI : incl (concat keep) pop).
  { clear - HK. intros x Hx. apply in_concat in Hx as (l & Hl & Hx). induction HK as [|r l' rs ls H _ IH]; [inversion Hl|].
    destruct Hl as [<-|Hl]; [|right; apply IH; auto]. destruct H as [H|H]; subst l'; [destruct Hx as [<-|[]]; left; auto|destruct Hx]. }
  split; [|exact HI]. apply Forall_forall. intros r Hr. eapply grow_good; [exact G2|]. exact (Forall_In _ _ _ HG1 (HI r Hr)).
Qed.
Lemma safe_sas_step h c st s : inv s -> Forall (good s) (fst st) ->
  safe h (sas_step c E st) (fun z s' => Forall (good s') (fst z) /\ Forall (honest E s') (fst z)) s.
Proof.
  intros I HG. unfold sas_step. eapply safe_bind; [apply safe_ageing; auto|]. intros parents s1 G1 (HGp & _). cbv beta.
  pose proof (grow_inv _ _ _ _ _ G1) as I1.
  eapply safe_bind.
  { apply (safe_offspring E A h (crossover false (sa_x c) (Fin (sa_xrate c))) parents s1 I1 HGp).
    intros a b s' G Ha Hb. apply safe_crossover; [apply (grow_inv _ _ _ _ _ G)| |]; eapply grow_good; try exact G; eapply Forall_In; eauto. }
  intros children s2 G2 [_ HGc]. cbv beta.
  assert (HGc' : Forall (good s2) children) by (eapply Forall_impl; [|exact HGc]; intros r H; apply H).
  eapply safe_bind; [apply safe_mutate_all; [apply (grow_inv _ _ _ _ _ G2)|auto]|]. intros mutated s3 G3 (_ & HGm & _). cbv beta.
  eapply safe_bind; [apply safe_fit_all; [apply (grow_inv _ _ _ _ _ G3)|]|].
  { apply Forall_app. split; [|exact HGm]. eapply grow_goods; [exact G3|]. eapply grow_goods; [exact G2|exact HGp]. }
  intros pop' s4 G4 (-> & H1 & H2). apply safe_ret; [apply (grow_inv _ _ _ _ _ G4)|]. auto.
Qed.
Lemma safe_sas_run h c ini pop i s : inv s -> Forall (good s) pop ->
  safe h (sas_run c L E ini pop i) (fun z s' => Forall (good s') (fst z) /\ Forall (honest E s') (fst z)) s.
Proof.
  intros I HG. unfold sas_run. eapply safe_bind; [apply safe_fit_all; auto|]. intros pop0 s0 G0 (-> & H1 & H2). cbv beta.
  apply (safe_iterate E A h (sas_step c E) (fun z s' => Forall (good s') (fst z) /\ Forall (honest E s') (fst z)));
    [apply (grow_inv _ _ _ _ _ G0)|auto|].
  intros z s1 I1 [Hp1 Hp2]. apply safe_sas_step; auto.
Qed.
End Sas.

Lemma saga1_contract c : Nat.even (s1_size c) = true -> contract (saga1 c) (fun _ _ => True).
Proof.
  intros HE. split; [auto|]. intros L E A ini s pop i I HG _ _. cbn [orun saga1].
  eapply safe_post; [apply (safe_s1_run E A false c (fun _ => True)); auto|]. intros z s' _ (H1 & H2 & _). auto.
Qed.
Lemma saga1_rates_contract c : Nat.even (s1_size c) = true -> s1_sane c -> contract (saga1 c) (fun r _ => s1_within c r).
Proof.
  intros HE HS. split; [auto|]. intros L E A ini s pop i I HG HI _. cbn [orun saga1].
  eapply safe_post; [apply (safe_s1_run E A false c (s1_within c)); auto|].
  - intros fs r r' H1 H2. eapply s1_adjust_ok; eauto.
  - intros z s' _ (H1 & H2 & H3). auto.
Qed.
Lemma saga2_contract t c : Nat.even (s2_size c) = true -> contract (saga2 t c) (fun _ _ => True).
Proof.
  intros HE. split; [auto|]. intros L E A ini s pop i I HG _ _. cbn [orun saga2].
  eapply safe_post; [apply safe_s2_run; auto|]. intros z s' _ (H1 & H2). auto.
Qed.
Lemma saga3_contract c : Nat.even (s3_size c) = true -> contract (saga3 c) (fun _ _ => True).
Proof.
  intros HE. split; [auto|]. intros L E A ini s pop i I HG _ _. destruct i. cbn [orun saga3].
  eapply safe_post; [apply safe_s3_run; auto|]. intros z s' _ (H1 & H2). auto.
Qed.
Lemma sas_contract c : contract (sas c) (fun _ _ => True).
Proof.
  split; [auto|]. intros L E A ini s pop i I HG _ _. cbn [orun sas].
  eapply safe_post; [apply safe_sas_run; auto|]. intros z s' _ (H1 & H2). auto.
Qed.
