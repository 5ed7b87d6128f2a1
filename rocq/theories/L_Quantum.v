(* The binary movement of the swarm, bit by bit (C31). *)
From Coq Require Import Lia Permutation.
From Verif Require Import PyNum PyList PyMon PyRng PyStat L_Num L_List L_Rng M_Matching M_Rule L_RuleProps M_Mixing L_Mixing M_Solution S_Solution
  L_Heap L_HeapProps M_Composition S_Composition L_Safe L_SafeFit L_Composition M_GenomeOps S_GenomeOps L_GenomeOps L_GenomeProps L_SasProps L_SagaProps
  L_Held M_Aco S_Aco L_AcoProps M_Abc S_Abc L_Abc L_AbcProps M_Swarm S_Swarm L_Swarm L_SwarmProps.

Definition only_rng (s s' : hst plain) : Prop := garr s' = garr s /\ sols s' = sols s.
Lemma only_refl s : only_rng s s. Proof. split; reflexivity. Qed.
Lemma only_trans a b c : only_rng a b -> only_rng b c -> only_rng a c. Proof. unfold only_rng. intros [-> ->] [-> ->]. auto. Qed.
Lemma only_r s g : only_rng s (with_r s g). Proof. split; reflexivity. Qed.
Lemma only_shows s s' r b a : only_rng s s' -> shows s' r b a -> shows s r b a.
Proof. unfold only_rng, shows. intros [-> ->]. auto. Qed.
Lemma only_shows2 s s' r b a : only_rng s s' -> shows s r b a -> shows s' r b a.
Proof. unfold only_rng, shows. intros [-> ->]. auto. Qed.
Lemma get_sol_inv r (s : hst plain) o s' : get_sol r s = (Ok o, s') -> s' = s /\ nth_error (sols s) r = Some o.
Proof. unfold get_sol. destruct (nth_error (sols s) r); intros H; [injection H as <- <-; auto|discriminate]. Qed.
Lemma genome_inv r (s : hst plain) b s' : genome r s = (Ok b, s') -> s' = s /\ exists a, shows s r b a.
Proof.
  unfold genome. intros H. apply bind_inv in H as (o & s1 & H1 & H2). apply get_sol_inv in H1 as [-> H1]. unfold get_arr in H2.
  destruct (nth_error (garr s) (gref o)) eqn:E; [|discriminate]. injection H2 as <- <-. split; [reflexivity|]. exists (satt o), o. auto.
Qed.
Lemma shows_det (s : hst plain) r b a b' a' : shows s r b a -> shows s r b' a' -> b' = b /\ a' = a.
Proof. intros (o & H1 & H2 & H3) (o' & H1' & H2' & H3'). rewrite H1 in H1'. injection H1' as <-. rewrite H2 in H2'. injection H2' as <-. split; [reflexivity|congruence]. Qed.
Lemma fitness_only r (s : hst plain) f s' : fitness r s = (Ok f, s') -> s' = s.
Proof.
  unfold fitness, get_satt. intros H. apply bind_inv in H as (x & s1 & H1 & H). apply bind_inv in H1 as (o & s2 & H2 & H1). apply get_sol_inv in H2 as [-> _].
  unfold lift in H1. destruct (satt o); [|discriminate]. injection H1 as _ <-. injection H as _ <-. reflexivity.
Qed.
Lemma best_by_only key ps s p s' : best_by key ps s = (Ok p, s') -> In p ps /\ s' = s.
Proof.
  intros H. split; [eapply best_by_in; eauto|]. unfold best_by in H. apply bind_inv in H as (ks & s1 & H1 & H). apply bind_inv in H as (k & s2 & H2 & H). injection H as _ <-.
  assert (E : s1 = s).
  { clear - H1. revert s ks s1 H1. induction ps as [|q ps IH]; intros s ks s1 H; cbn [mmap] in H; [injection H as _ <-; reflexivity|].
    apply bind_inv in H as (k & s2 & H1 & H). apply bind_inv in H1 as (f & s3 & H0 & H1). apply fitness_only in H0. injection H1 as _ <-. subst s3.
    apply bind_inv in H as (ks' & s4 & H2 & H). injection H as _ <-. eapply IH; eauto. }
  subst s1. unfold lift in H2. destruct (pymax _ ks); [|discriminate]. injection H2 as _ <-. reflexivity.
Qed.
Lemma best_random_only ps k s p s' : best_random ps k s = (Ok p, s') -> In p ps /\ only_rng s s'.
Proof.
  unfold best_random. intros H. apply bind_inv in H as (sub & s1 & H1 & H). apply choices_sub in H1 as [HS (g & ->)]. apply best_by_only in H as [HI ->].
  split; [rewrite Forall_forall in HS; auto|apply only_r].
Qed.
Lemma overwrite_mixed limit us own other : length own = length us -> length other = length us ->
  mixed limit us own other (overwrite (map (fun u => nle (Fin u) limit) us) own other).
Proof.
  unfold mixed, overwrite. revert own other. induction us as [|u us IH]; intros [|a own] [|b other] H1 H2; try discriminate H1; try discriminate H2.
  - split; [reflexivity|]. intros [|i] u H; discriminate.
  - injection H1 as H1. injection H2 as H2. destruct (IH own other H1 H2) as [IL IN]. cbn [map combine map2 length fst snd]. split; [rewrite IL; reflexivity|].
    intros [|i] v H; [injection H as <-; cbn [nth_error]; destruct (nle (Fin u) limit); reflexivity|]. cbn [nth_error] in *. apply IN. exact H.
Qed.
Lemma count_filter {A} (f : A -> bool) l : count_true (map f l) = length (filter f l).
Proof. induction l as [|x l IH]; [reflexivity|]. cbn. destruct (f x); cbn; rewrite IH; reflexivity. Qed.
Lemma map2_combine {A B C} (f : A -> B -> C) a b : map2 f a b = map (fun xy => f (fst xy) (snd xy)) (combine a b).
Proof. revert b. induction a as [|x a IH]; intros [|y b]; cbn; try reflexivity. f_equal. apply IH. Qed.
Lemma hamming_apart a b : hamming a b = apart a b.
Proof. unfold hamming, apart. rewrite map2_combine. apply count_filter. Qed.
Lemma apart_zero a b : length a = length b -> apart a b = 0%nat -> a = b.
Proof.
  unfold apart. revert b. induction a as [|x a IH]; intros [|y b] HL H; try discriminate HL; [reflexivity|]. cbn in H, HL. destruct x, y; cbn in H; try discriminate H; f_equal; apply IH; lia.
Qed.
Lemma quantum_step M a n mean p att s s' own x : binary_move M a n mean p att s = (Ok tt, s') -> wf s -> length att = n -> length own = n -> shows s (p_sol p) own x ->
  exists u us bits limit, (u, us) = (fst (random (hrng s)), fst (randoms n (snd (random (hrng s))))) /\ ~ u == 0 /\
    limit = npymin (ndiv (nmul (nmul a (Fin (qofnat (apart own mean)))) (m_log M (ndiv (Fin 1) (Fin u)))) (Fin (qofnat n))) (Fin 1) /\
    shows s' (p_sol p) bits x /\ mixed limit us own att bits /\ forall r b y, r <> p_sol p -> shows s r b y -> shows s' r b y.
Proof.
  intros H W HA HO HS. unfold binary_move in H. apply bind_inv in H as (own' & s1 & H1 & H). apply genome_inv in H1 as [-> (x' & H1)]. destruct (shows_det _ _ _ _ _ _ HS H1) as [-> ->].
  apply bind_inv in H as (u & s2 & H2 & H). rewrite rnd1_eq in H2. assert (E1 : u = fst (random (hrng s))) by congruence. assert (E2 : s2 = with_r s (snd (random (hrng s)))) by congruence. clear H2. subst u s2.
  destruct (Qeq_bool (fst (random (hrng s))) 0) eqn:EU; [discriminate|]. cbv zeta in H.
  apply bind_inv in H as (us & s3 & H3 & H). rewrite rnd1_eq in H3. assert (E1 : us = fst (randoms n (snd (random (hrng s))))) by (cbn [hrng with_r] in H3; congruence). assert (E2 : exists g, s3 = with_r s g) by (eexists; injection H3 as _ <-; reflexivity).
  clear H3. destruct E2 as (g3 & ->). subst us. cbn [hrng with_r] in H.
  set (us := fst (randoms n (snd (random (hrng s))))) in *. set (u := fst (random (hrng s))) in *. rewrite hamming_apart in H.
  set (limit := npymin _ _) in H. set (s4 := with_r s g3) in H.
  assert (HL : length us = n) by apply randoms_length.
  assert (HV : exists e, vw s4 (p_sol p) = Some (own, x, e)).
  { destruct HS as (o & G1 & G2 & G3). exists (sext o). unfold vw, s4. cbn [sols garr with_r]. rewrite G1, G2, G3. reflexivity. }
  destruct HV as (e & HV). destruct (write_genome_eq s4 (p_sol p) own x e (fun own => overwrite (map (fun u => nle (Fin u) limit) us) own att) W HV) as (s5 & EW & W5 & _ & HV5).
  rewrite EW in H. injection H as <-. exists u, us, (overwrite (map (fun u => nle (Fin u) limit) us) own att), limit.
  assert (HVS : forall (t : hst plain) r b y z, vw t r = Some (b, y, z) -> shows t r b y). { intros t r b y z E. apply vw_inv in E as (o & E1 & E2 & E3 & _). exists o. auto. }
  split; [reflexivity|]. split; [apply Qeq_bool_neq; exact EU|]. split; [reflexivity|]. split; [apply (HVS _ _ _ _ e); rewrite HV5, Nat.eqb_refl; reflexivity|]. split; [apply overwrite_mixed; lia|].
  intros r b y NE (o & G1 & G2 & G3). apply (HVS _ _ _ _ (sext o)). rewrite HV5. apply Nat.eqb_neq in NE. rewrite NE. unfold vw, s4. cbn [sols garr with_r]. rewrite G1, G2, G3. reflexivity.
Qed.
Lemma built_quantum M a n mean p att s s' own x : binary_move M a n mean p att s = (Ok tt, s') -> built s -> length att = n -> length own = n -> shows s (p_sol p) own x ->
  exists u us bits limit, (u, us) = (fst (random (hrng s)), fst (randoms n (snd (random (hrng s))))) /\ ~ u == 0 /\
    limit = npymin (ndiv (nmul (nmul a (Fin (qofnat (apart own mean)))) (m_log M (ndiv (Fin 1) (Fin u)))) (Fin (qofnat n))) (Fin 1) /\
    shows s' (p_sol p) bits x /\ mixed limit us own att bits /\ forall r b y, r <> p_sol p -> shows s r b y -> shows s' r b y.
Proof. intros H B. exact (quantum_step _ _ _ _ _ _ _ _ _ _ H (built_wf _ B)). Qed.
(* the attractor *)
Lemma attractor_spec pl na n ps p s att s' : attractor pl na n ps p s = (Ok att, s') -> (forall q, In q (p :: ps) -> exists b a, shows s (p_best q) b a /\ length b = n) ->
  only_rng s s' /\ exists own nb gn a a', shows s (p_best p) own a /\ In nb ps /\ shows s (p_best nb) gn a' /\
    exists learned, mixed (Fin pl) (fst (randoms n (hrng s))) own gn learned /\
      ((learned <> own /\ att = learned) \/
       (learned = own /\ ((n <> 0)%nat -> exists j nb2 g2 a2, (j < n)%nat /\ In nb2 ps /\ shows s (p_best nb2) g2 a2 /\ length att = n /\ nth_error att j = nth_error g2 j /\ forall i, i <> j -> nth_error att i = nth_error own i))).
Proof.
  intros H HQ. unfold attractor in H. apply bind_inv in H as (own & s1 & H1 & H). apply genome_inv in H1 as [-> (a & H1)].
  apply bind_inv in H as (us & s2 & H2 & H). rewrite rnd1_eq in H2. assert (E1 : us = fst (randoms n (hrng s))) by congruence. assert (E2 : exists g, s2 = with_r s g) by (eexists; injection H2 as _ <-; reflexivity).
  clear H2. destruct E2 as (g2' & ->). subst us. set (us := fst (randoms n (hrng s))) in *.
  apply bind_inv in H as (nb & s3 & H3 & H). apply best_random_only in H3 as [HN O3]. apply (only_trans _ _ _ (only_r s _)) in O3.
  apply bind_inv in H as (gn & s4 & H4 & H). apply genome_inv in H4 as [-> (a' & H4)]. apply (only_shows _ _ _ _ _ O3) in H4.
  assert (HL : forall q b y, In q (p :: ps) -> shows s (p_best q) b y -> length b = n). { intros q b y HI HS. destruct (HQ q HI) as (b' & y' & HS' & HL'). destruct (shows_det _ _ _ _ _ _ HS HS') as [<- _]. exact HL'. }
  assert (LO : length own = n) by (eapply HL; [left; reflexivity|exact H1]). assert (LG : length gn = n) by (eapply HL; [right; exact HN|exact H4]). assert (LU : length us = n) by apply randoms_length.
  assert (HM : mixed (Fin pl) us own gn (overwrite (map (fun u => qle u pl) us) own gn)) by (apply (overwrite_mixed (Fin pl)); lia).
  set (learned := overwrite _ own gn) in *. cbv zeta in H. rewrite hamming_apart in H. assert (LL : length learned = n) by (rewrite (proj1 HM); exact LU).
  destruct (Nat.eqb (apart learned own) 0) eqn:EH.
  - apply Nat.eqb_eq in EH. apply apart_zero in EH; [|congruence].
    apply bind_inv in H as (q & s5 & H5 & H). rewrite rnd1_eq in H5. assert (E2 : exists g, s5 = with_r s3 g) by (eexists; injection H5 as _ <-; reflexivity). clear H5. destruct E2 as (g5 & ->). set (j := index_of n q) in *.
    apply bind_inv in H as (nb2 & s6 & H6 & H). apply best_random_only in H6 as [HN2 O6]. apply (only_trans _ _ _ (only_r s3 _)) in O6. apply (only_trans _ _ _ O3) in O6.
    apply bind_inv in H as (g2 & s7 & H7 & H). apply genome_inv in H7 as [-> (a2 & H7)]. apply (only_shows _ _ _ _ _ O6) in H7. injection H as <- <-.
    split; [exact O6|]. exists own, nb, gn, a, a'. split; [exact H1|]. split; [exact HN|]. split; [exact H4|]. exists learned. split; [exact HM|]. right. split; [exact EH|]. intros N0.
    assert (LG2 : length g2 = n) by (eapply HL; [right; exact HN2|exact H7]). assert (HJ : (j < n)%nat) by (apply index_of_lt; lia).
    exists j, nb2, g2, a2. split; [exact HJ|]. split; [exact HN2|]. split; [exact H7|]. split; [rewrite update_length; exact LL|]. rewrite EH.
    split; [rewrite update_nth_same by lia; symmetry; apply nth_error_nth'; lia|]. intros i NE. apply update_nth_other. congruence.
  - injection H as <- <-. split; [exact O3|]. exists own, nb, gn, a, a'. split; [exact H1|]. split; [exact HN|]. split; [exact H4|]. exists learned. split; [exact HM|]. left. split; [|reflexivity].
    intros E. rewrite E in EH. apply Nat.eqb_neq in EH. apply EH. unfold apart. clear. induction own as [|x own IH]; [reflexivity|]. cbn. destruct x; exact IH.
Qed.
