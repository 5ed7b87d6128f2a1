(* Particle swarm: ranges, bests, the binary mean (C31). *)
From Coq Require Import Lia Permutation.
From Verif Require Import PyNum PyList PyMon PyRng PyStat L_Num L_List L_Rng M_Matching M_Rule L_RuleProps M_Mixing L_Mixing M_Solution S_Solution
  L_Heap L_HeapProps M_Composition S_Composition L_Safe L_SafeFit L_Composition M_GenomeOps S_GenomeOps L_GenomeOps L_GenomeProps L_SasProps L_SagaProps
  L_Held M_Aco S_Aco L_AcoProps M_Abc S_Abc L_Abc L_AbcProps M_Swarm S_Swarm L_Swarm.
From Coq Require Import Lqa.

(* ----- ranges ----- *)
Lemma best_by_in key ps s p s' : best_by key ps s = (Ok p, s') -> In p ps.
Proof.
  unfold best_by. intros H. apply bind_inv in H as (ks & s1 & H1 & H). apply bind_inv in H as (k & s2 & H2 & H). injection H as <- <-.
  assert (HK : map snd ks = ps).
  { clear - H1. revert s ks s1 H1. induction ps as [|q ps IH]; intros s ks s1 H; cbn [mmap] in H; [injection H as <- <-; reflexivity|].
    apply bind_inv in H as (k & s2 & H1 & H). apply bind_inv in H1 as (f & s3 & _ & H1). injection H1 as <- <-.
    apply bind_inv in H as (ks' & s4 & H2 & H). injection H as <- <-. cbn. f_equal. eapply IH; eauto. }
  rewrite <- HK. apply in_map. unfold lift in H2. destruct (pymax _ ks) as [k'|] eqn:EP; cbn in H2; [|discriminate]. injection H2 as <- <-.
  eapply pymax_In; eauto.
Qed.
Lemma Forall_map2 {A B C} (f : A -> B -> C) (P : C -> Prop) a b : (forall x y, In x a -> In y b -> P (f x y)) -> Forall P (map2 f a b).
Proof.
  revert b. induction a as [|x a IH]; intros [|y b] H; cbn; constructor; [apply H; left; auto|]. apply IH. intros; apply H; right; auto.
Qed.
Lemma in_range_fin lo hi x : in_range lo hi x -> exists q, x = Fin q. Proof. intros (q & -> & _). eauto. Qed.
Lemma mmap_all {S A B} (f : A -> St S B) (P : A -> Prop) (Q : B -> Prop) :
  (forall x s y s', P x -> f x s = (Ok y, s') -> Q y) -> forall xs s ys s', Forall P xs -> mmap f xs s = (Ok ys, s') -> Forall Q ys.
Proof.
  intros HF. induction xs as [|x xs IH]; intros s ys s' HP H; cbn [mmap] in H; [injection H as <- <-; constructor|].
  inversion HP as [|? ? HPx HPr]; subst. apply bind_inv in H as (y & s1 & H1 & H). apply bind_inv in H as (ys' & s2 & H2 & H). injection H as <- <-.
  constructor; eauto.
Qed.
Lemma classic_tame M b c vmax a g n p s p' s' : 0 <= vmax -> Forall (in_range 0 1) g -> tame (MSigmoid b c vmax) p ->
  classic_move M b c vmax (Fin a) g n p s = (Ok p', s') -> tame (MSigmoid b c vmax) p'.
Proof.
  intros HV Hg (Hp & Hb & Hv) H. unfold classic_move in H.
  apply bind_inv in H as (u1 & s1 & _ & H). apply bind_inv in H as (u2 & s2 & _ & H). cbv zeta in H.
  apply bind_inv in H as (bits & s3 & _ & H). apply bind_inv in H as (u & s4 & _ & H). injection H as <- <-. cbn [tame p_pos p_bestpos p_vel].
  match goal with |- _ /\ _ /\ Forall _ ?v => assert (HVel : Forall (in_range (- vmax) vmax) v) end.
  { rewrite Forall_forall in Hp, Hb, Hv, Hg. apply Forall_map2. intros v [x y] Hv1 Hxy. cbn [fst snd].
    apply nclip_finite; [lra|]. destruct (in_range_fin _ _ _ (Hv v Hv1)) as (qv & ->).
    assert (HX : exists q, x = Fin q).
    { apply in_combine_l in Hxy. revert x Hxy. apply Forall_forall. apply Forall_map2. intros u0 [bp pp] _ Hc. cbn [fst snd].
      destruct (in_range_fin _ _ _ (Hb bp (in_combine_l _ _ _ _ Hc))) as (q1 & ->).
      destruct (in_range_fin _ _ _ (Hp pp (in_combine_r _ _ _ _ Hc))) as (q2 & ->). cbn. eauto. }
    assert (HY : exists q, y = Fin q).
    { apply in_combine_r in Hxy. revert y Hxy. apply Forall_forall. apply Forall_map2. intros u0 [bp pp] _ Hc. cbn [fst snd].
      destruct (in_range_fin _ _ _ (Hg bp (in_combine_l _ _ _ _ Hc))) as (q1 & ->).
      destruct (in_range_fin _ _ _ (Hp pp (in_combine_r _ _ _ _ Hc))) as (q2 & ->). cbn. eauto. }
    destruct HX as (qx & ->), HY as (qy & ->). cbn. eexists. reflexivity. }
  split; [|split; auto]. rewrite Forall_forall in HVel, Hp. apply Forall_map2. intros x v Hx Hvv. apply nclip_finite; [lra|].
  destruct (in_range_fin _ _ _ (Hp x Hx)) as (q1 & ->). destruct (in_range_fin _ _ _ (HVel v Hvv)) as (q2 & ->). cbn. eexists. reflexivity.
Qed.
Lemma quantum_tame M a g mean n p s p' s' : tame MSigmoidQuantum p -> quantum_move M a g mean n p s = (Ok p', s') -> tame MSigmoidQuantum p'.
Proof.
  intros (Hp & Hb) H. unfold quantum_move in H.
  apply bind_inv in H as (u1 & s1 & _ & H). apply bind_inv in H as (u2 & s2 & _ & H). apply bind_inv in H as (sg & s3 & _ & H). cbv zeta in H.
  apply bind_inv in H as (bits & s4 & _ & H). apply bind_inv in H as (u & s5 & _ & H). injection H as <- <-. cbn [tame p_pos p_bestpos].
  split; auto. apply Forall_map2. intros x y _ _. apply nclip_any. lra.
Qed.
Lemma move_tame M m a ps s ps' s' : vmax_ok m -> Forall (tame m) ps -> move M m (Fin a) ps s = (Ok ps', s') -> Forall (tame m) ps'.
Proof.
  intros HV HT H. destruct m as [b c vmax| |pl na]; cbn [move] in H.
  - apply bind_inv in H as (g & s1 & Hg & H). apply bind_inv in H as (p0 & s2 & _ & H). apply best_by_in in Hg.
    assert (Hg1 : Forall (in_range 0 1) (p_pos g)) by (rewrite Forall_forall in HT; apply (HT g Hg)).
    revert H. apply mmap_all with (P := tame (MSigmoid b c vmax)); auto. intros p s3 p' s4 Hp. apply classic_tame; auto.
  - apply bind_inv in H as (g & s1 & Hg & H). apply bind_inv in H as (p0 & s2 & _ & H). cbv zeta in H.
    revert H. apply mmap_all with (P := tame MSigmoidQuantum); auto. intros p s3 p' s4 Hp. apply quantum_tame; auto.
  - apply bind_inv in H as (gs & s1 & _ & H). apply bind_inv in H as (p0 & s2 & _ & H). apply bind_inv in H as (g0 & s3 & _ & H). cbv zeta in H.
    apply bind_inv in H as (mean & s4 & _ & H). apply bind_inv in H as (atts & s5 & _ & H). apply bind_inv in H as (u & s6 & _ & H).
    injection H as <- <-. auto.
Qed.
Lemma start_tame bits us : Forall (fun u => 0 <= u < 1) us -> Forall (in_range 0 1) (start_position bits us).
Proof.
  intros HU. unfold start_position. apply Forall_map2. intros b u _ Hu. rewrite Forall_forall in HU. specialize (HU u Hu). cbv beta in HU.
  exists ((bitq b + u) / 2). split; auto. destruct b; cbn [bitq]; split.
  - apply Qle_shift_div_l; lra.
  - apply Qle_shift_div_r; lra.
  - apply Qle_shift_div_l; lra.
  - apply Qle_shift_div_r; lra.
Qed.
Lemma uniform_range lo hi q : lo <= hi -> lo <= uniform_of lo hi q <= hi.
Proof.
  intros H. unfold uniform_of. pose proof (u01_range q) as HU.
  assert (0 <= (hi - lo) * u01 q) by (apply Qmult_le_0_compat; lra).
  assert ((hi - lo) * u01 q <= (hi - lo) * 1) by (rewrite !(Qmult_comm (hi - lo)); apply Qmult_le_compat_r; lra). lra.
Qed.

(* ----- bests ----- *)
Section Bests.
Context {L : learner}.
Variable E : env L.
Implicit Types s : hst plain.

Lemma update_best_spec p s p' s' : wf s -> update_best p s = (Ok p', s') ->
  more s s' /\ p_sol p' = p_sol p /\
  exists fb f, has_fit s (p_best p) fb /\ has_fit s (p_sol p) f /\
    (p' = p /\ nlt fb f = false \/
     ~ live s (p_best p') /\ nlt fb f = true /\ p_pos p' = p_pos p /\ p_bestpos p' = p_pos p /\ p_vel p' = p_vel p /\
     exists bits a, shows s (p_sol p) bits (Some a) /\ shows s' (p_best p') bits (Some a)).
Proof.
  intros W H. unfold update_best in H. apply bind_inv in H as (f & s1 & H1 & H). apply fitness_inv in H1 as [-> Hf]; auto.
  apply bind_inv in H as (fb & s1 & H1 & H). apply fitness_inv in H1 as [-> Hfb]; auto. destruct (nlt fb f) eqn:EL.
  - apply bind_inv in H as (c & s1 & H1 & H). injection H as <- <-. destruct Hf as (bits & a & HS & Hf). pose proof HS as HS0. apply shows_vw in HS0 as (x & HV).
    rewrite (clone_eq _ _ _ _ _ W HV) in H1. injection H1 as <- <-. cbn [p_sol p_best p_pos p_bestpos p_vel].
    split; [apply more_push; auto|]. split; auto. exists fb, f. split; auto. split; [exists bits, a; auto|]. right.
    split; [unfold live; lia|]. split; auto. split; auto. split; auto. split; auto. exists bits, a. split; auto.
    apply shows_vw. exists (ext_copy plain x). rewrite vw_push, Nat.eqb_refl by auto. reflexivity.
  - injection H as <- <-. split; [apply more_refl; auto|]. split; auto. exists fb, f. auto.
Qed.

(* the second half of an iteration *)
Lemma update_all_spec m ps : forall s ps' s', wf s -> Forall (fun p => honest E s (p_sol p) /\ flies E m s p) ps ->
  mmap update_best ps s = (Ok ps', s') ->
  more s s' /\ Forall2 (improved s s') ps ps' /\ Forall (flies E m s') ps' /\
  Forall2 (fun p p' => p_best p' = p_best p \/ ~ live s (p_best p')) ps ps'.
Proof.
  induction ps as [|p ps IH]; intros s ps' s' W HP H; cbn [mmap] in H.
  - injection H as <- <-. split; [apply more_refl; auto|]. repeat constructor.
  - inversion HP as [|? ? [Hh Hp] HP2]; subst. apply bind_inv in H as (p1 & s1 & H1 & H). apply bind_inv in H as (ps1 & s2 & H2 & H). injection H as <- <-.
    destruct (update_best_spec _ _ _ _ W H1) as (M1 & HS & fb & f & Hfb & Hf & HC).
    assert (HP3 : Forall (fun p => honest E s1 (p_sol p) /\ flies E m s1 p) ps).
    { revert HP2. apply Forall_impl. intros q [Hq ((b & a & Hs & Hl) & Hb & Hr)]. split; [eapply honest_more; eauto|].
      split; [exists b, a; split; auto; eapply more_shows; eauto|]. split; auto. eapply honest_more; eauto. }
    destruct (IH s1 ps1 s2 (more_wf _ _ M1) HP3 H2) as (M2 & HI & HF & HB). pose proof (more_trans _ _ _ M1 M2) as M12. split; auto.
    assert (Back : forall q, ~ live s1 q -> ~ live s q) by (intros q Hq Hl; apply Hq; eapply more_live; eauto).
    split; [|split].
    + constructor.
      * split; auto. exists fb, f. split; auto. split; [eapply has_fit_more; eauto|].
        destruct HC as [[-> HL]|(Hl & HL & _ & _ & _ & b & a & S1 & S2)].
        -- left. split; auto. split; auto. eapply has_fit_more; [exact M12|auto].
        -- right. split; auto. split; auto. exists b, a. split; [eapply more_shows; [exact M12|]; auto|eapply more_shows; [exact M2|]; auto].
      * clear - HI Hf HP2 M1 Back. revert HI HP2. generalize ps ps1. induction 1 as [|q q' qs qs' (Hq & gb & g & G1 & G2 & GC) _ IH]; intros HP; constructor.
        -- inversion HP as [|? ? [Hqh Hqf] HP3]; subst. split; auto. destruct Hqf as (_ & (b0 & a0 & g1 & g2 & Hs0 & _) & _).
           assert (Hg0 : has_fit s (p_best q) (sfitness a0)) by (exists b0, a0; auto).
           assert (gb = sfitness a0) by (eapply has_fit_fun; [exact G1|]; eapply has_fit_more; eauto). subst gb.
           exists (sfitness a0), g. split; auto. split; auto. destruct GC as [GC|(GC1 & GC2)]; [left; auto|right; split; auto].
        -- apply IH. inversion HP; auto.
    + constructor; auto. pose proof Hp as ((b & a & Hs & Hl) & Hb & Hfit & Ht).
      destruct HC as [[-> _]|(_ & _ & E1 & E2 & E3 & b' & a' & S1 & S2)].
      * split; [exists b, a; split; auto; eapply more_shows; [exact M12|auto]|]. split; [eapply honest_more; [exact M12|auto]|auto].
      * split; [exists b, a; rewrite HS; split; auto; eapply more_shows; [exact M12|auto]|]. split.
        -- destruct Hh as (b2 & a2 & g & g' & Hs2 & Hl2 & Hfit2). assert (Hq : b2 = b' /\ a2 = a').
           { apply shows_vw in S1 as (x & S1). apply shows_vw in Hs2 as (y & Hs2). rewrite S1 in Hs2. injection Hs2 as -> ->. auto. }
           destruct Hq as [-> ->]. exists b', a', g, g'. split; auto. eapply more_shows; [exact M2|auto].
        -- unfold fits_pool, tame in *. rewrite E1, E2, E3. destruct m as [? ? ?| |? ?]; intuition.
    + constructor.
      * destruct HC as [[-> _]|(Hl & _)]; auto.
      * eapply Forall2_impl; [|exact HB]. intros q q' [Hq|Hq]; auto.
Qed.

Lemma honest_vw s s' r : vw s' r = vw s r -> honest E s r -> honest E s' r.
Proof.
  intros H (b & a & g & g' & HS & HR). exists b, a, g, g'. split; auto. apply shows_vw in HS as (x & HS). apply shows_vw. exists x. congruence.
Qed.
Lemma swarm_step_ok M c pop ps a s ps' a' s' : vmax_ok (ps_move c) -> wf s -> swarm_ok E (ps_move c) s pop ps ->
  swarm_step M c E pop (ps, a) s = (Ok (ps', a'), s') ->
  wf s' /\ swarm_ok E (ps_move c) s' pop ps' /\ Forall2 (improved s s') ps ps' /\ Forall (honest E s') pop.
Proof.
  intros HV W (HM & HF & HD) H. set (A := fun r => In r (map p_best ps)). set (m := ps_move c) in *.
  assert (I : inv A s).
  { split; auto. intros r Hr. apply in_map_iff in Hr as (p & <- & Hp). rewrite Forall_forall in HF. destruct (HF p Hp) as (_ & Hb & _).
    eapply honest_live; eauto. }
  assert (HP : Forall (placed E A m s) ps).
  { apply Forall_forall. intros p Hp. rewrite Forall_forall in HF. destruct (HF p Hp) as ((b & x & Hs & Hl) & Hb & Hfit & _). split; [|split].
    - split; [intros Ha; apply in_map_iff in Ha as (q & Hq & Hq'); apply (HD p q Hp Hq'); congruence|].
      apply shows_vw in Hs as (y & Hs). exists b, x, y. auto.
    - right. split; [apply in_map; auto|]. destruct Hb as (b' & x' & g & g' & Hs' & Hl' & _). apply shows_vw in Hs' as (y & Hs'). exists b', (Some x'), y. auto.
    - destruct m; exact Hfit. }
  cbn [swarm_step] in H. apply bind_inv in H as (ps1 & s1 & H1 & H).
  pose proof (safe_move E A M m (Fin a) ps s I HP) as HS1. unfold safe in HS1. fold m in H1. rewrite H1 in HS1. destruct HS1 as [G1 HMv].
  assert (HT1 : Forall (tame m) ps1).
  { eapply move_tame; [exact HV| |exact H1]. revert HF. apply Forall_impl. intros p Hp; apply Hp. }
  pose proof (moved_placed _ _ _ _ _ _ HMv) as HP1. pose proof (moved_sols _ _ _ _ _ _ HMv) as HS1.
  apply bind_inv in H as (pop2 & s2 & H2 & H).
  pose proof (safe_fit_all E A true s1 pop (grow_inv _ _ _ _ _ G1)) as HS2.
  assert (HGp : Forall (good E A s1) pop) by (rewrite <- HM, <- HS1; eapply placed_good; eauto).
  specialize (HS2 HGp). unfold safe in HS2. rewrite H2 in HS2. destruct HS2 as [G2 (-> & HG2 & HH2)].
  apply bind_inv in H as (ps2 & s3 & H3 & H). injection H as <- <- <-.
  assert (HB2 : forall r, A r -> vw s2 r = vw s r).
  { intros r Hr. rewrite (proj1 (proj2 (proj2 G2)) r Hr). apply (proj1 (proj2 (proj2 G1)) r Hr). }
  assert (HQ : Forall (fun p => honest E s2 (p_sol p) /\ flies E m s2 p) ps1).
  { apply Forall_forall. intros p1 Hp1. assert (Hps : In (p_sol p1) pop) by (rewrite <- HM, <- HS1; apply in_map; auto).
    rewrite Forall_forall in HH2. pose proof (HH2 _ Hps) as Hh. split; auto.
    destruct (In_nth_error _ _ Hp1) as (i & Hi). destruct (Forall2_nth2 _ _ _ _ _ HMv Hi) as (p & Hp & Hsol & Hbest & HPl). apply nth_error_In in Hp.
    split; [|split; [|split]].
    - destruct Hh as (b & x & g & g' & Hs & Hl & _). exists b, (Some x). auto.
    - rewrite Hbest. apply (honest_vw s); [apply HB2; apply in_map; auto|]. rewrite Forall_forall in HF. apply (HF p Hp).
    - destruct HPl as (_ & _ & Hsh). destruct m; exact Hsh.
    - rewrite Forall_forall in HT1. auto. }
  destruct (update_all_spec m ps1 s2 ps2 s3 (proj1 (grow_inv _ _ _ _ _ G2)) HQ H3) as (M3 & HI & HFl & HB).
  assert (HLen : forall r, live s r -> live s2 r).
  { unfold live. pose proof (proj1 (proj2 G1)). pose proof (proj1 (proj2 G2)). intros; lia. }
  split; [apply (more_wf _ _ M3)|]. split; [|split].
  - assert (HM2 : map p_sol ps2 = pop).
    { rewrite <- HM, <- HS1. clear - HI. induction HI as [|p p' qs qs' (Hp & _) _ IH]; cbn; congruence. }
    split; auto. split; auto. intros p q Hp Hq Heq.
    assert (Hps : In (p_sol p) (map p_sol ps)) by (rewrite HM, <- HM2; apply in_map; auto).
    apply in_map_iff in Hps as (p0 & Hp0 & Hin0).
    destruct (In_nth_error _ _ Hq) as (i & Hi). destruct (Forall2_nth2 _ _ _ _ _ HB Hi) as (q1 & Hq1 & HBq).
    destruct (Forall2_nth2 _ _ _ _ _ HMv Hq1) as (q0 & Hq0 & _ & Hb0 & _). apply nth_error_In in Hq0.
    destruct HBq as [HBq|HBq]; [apply (HD p0 q0 Hin0 Hq0); congruence|]. apply HBq. rewrite <- Heq, <- Hp0. apply HLen.
    rewrite Forall_forall in HF. destruct (HF p0 Hin0) as ((b & x & Hs & _) & _). apply shows_vw in Hs as (y & Hs). eapply vw_live; eauto.
  - clear - HI HMv HB2 HLen. assert (HA : forall p, In p ps -> A (p_best p)) by (intros p Hp; apply in_map; auto). clearbody A.
    revert ps2 HI. induction HMv as [|p p1 ps ps1 (Hsol & Hbest & _) _ IH]; intros ps2 HI; inversion HI as [|? p2 ? qs2 HIp HIr]; subst; constructor.
    + destruct HIp as (K1 & fb & f & K2 & K3 & K4). split; [congruence|]. rewrite Hsol in *. rewrite Hbest in *.
      exists fb, f. split.
      { destruct K2 as (b & x & Hs & ->). exists b, x. split; auto. apply shows_vw in Hs as (y & Hs). apply shows_vw. exists y.
        rewrite HB2 in Hs; auto. apply HA. left; auto. }
      split; auto. destruct K4 as [K4|(K4 & K5)]; [left; auto|right; split; auto].
    + apply IH; auto. intros q Hq. apply HA. right; auto.
  - apply (honests_more _ _ _ _ M3 HH2).
Qed.

(* over any number of iterations *)
Lemma improved_not_worse s s' p p' : never_nan E -> honest E s (p_best p) -> improved s s' p p' -> not_worse s (p_best p) s' (p_best p').
Proof.
  intros HN Hh (_ & fb & f & H1 & H2 & H3). destruct (honest_fits E s _ HN Hh) as (v & Hv & Hn). assert (v = fb) by (eapply has_fit_fun; eauto). subst v.
  destruct H3 as [(_ & H3 & _)|(_ & H3 & b & a & S1 & S2)].
  - exists fb, fb. split; auto. split; auto. apply nle_refl; auto.
  - exists fb, f. split; auto. split; [|apply nlt_nle; auto].
    assert (f = sfitness a) by (eapply has_fit_fun; [exact H2|]; exists b, a; auto). subst f. exists b, a; auto.
Qed.
Lemma swarm_run_ok M c pop k : never_nan E -> vmax_ok (ps_move c) -> forall ps a s ps' a' s', wf s -> swarm_ok E (ps_move c) s pop ps ->
  iterate k (swarm_step M c E pop) (ps, a) s = (Ok (ps', a'), s') ->
  wf s' /\ swarm_ok E (ps_move c) s' pop ps' /\ Forall2 (fun p p' => p_sol p' = p_sol p /\ not_worse s (p_best p) s' (p_best p')) ps ps'.
Proof.
  intros HN HV. induction k as [|k IH]; intros ps a s ps' a' s' W HO H; cbn [iterate] in H.
  - injection H as <- <- <-. split; auto. split; auto. destruct HO as (_ & HF & _). clear - HF HN. induction HF as [|p ps Hp _ IH]; constructor; auto.
    split; auto. destruct Hp as (_ & Hb & _). destruct (honest_fits E s _ HN Hb) as (v & Hv & Hn). exists v, v. split; auto. split; auto. apply nle_refl; auto.
  - apply bind_inv in H as ([ps1 a1] & s1 & H1 & H). destruct (swarm_step_ok M c pop ps a s ps1 a1 s1 HV W HO H1) as (W1 & HO1 & HI & _).
    destruct (IH ps1 a1 s1 ps' a' s' W1 HO1 H) as (W2 & HO2 & HI2). split; auto. split; auto.
    destruct HO as (_ & HF & _). clear - HI HI2 HF HN. revert ps' HI2. induction HI as [|p p1 ps ps1 Hp _ IH]; intros ps' HI2; inversion HI2 as [|? p2 ? qs [E1 E2] HR]; subst; constructor.
    + inversion HF as [|? ? (_ & Hb & _) HF2]; subst. split; [destruct Hp; congruence|]. eapply not_worse_trans; [eapply improved_not_worse; eauto|auto].
    + apply IH; auto. inversion HF; auto.
Qed.

(* the start of a run *)
Lemma init_particle_spec m r s p s' : vmax_ok m -> wf s -> honest E s r -> init_particle m r s = (Ok p, s') ->
  more s s' /\ p_sol p = r /\ flies E m s' p /\ ~ live s (p_best p) /\
  exists bits a, shows s r bits (Some a) /\ shows s' (p_best p) bits (Some a).
Proof.
  intros HV W Hh H. pose proof Hh as (bits & a & g & g' & HS & HL & HF). apply shows_vw in HS as (x & HVw).
  unfold init_particle in H. unfold bind at 1 in H. rewrite (genome_eq _ _ _ _ _ HVw) in H.
  assert (HC : forall s1 pos vel p1 s2, more s s1 -> length (sols s1) = length (sols s) -> (forall b, fits_pool (length (epool E)) m (mkPart r b pos pos vel)) -> (forall b, tame m (mkPart r b pos pos vel)) ->
    (let* best := clone r in ret (mkPart r best pos pos vel)) s1 = (Ok p1, s2) ->
    more s s2 /\ p_sol p1 = r /\ flies E m s2 p1 /\ ~ live s (p_best p1) /\ exists bits a, shows s r bits (Some a) /\ shows s2 (p_best p1) bits (Some a)).
  { intros s1 pos vel p1 s2 M1 HL1 HFit HT H1. apply bind_inv in H1 as (b & s3 & H1 & H2). injection H2 as <- <-.
    pose proof (more_vw _ _ _ _ M1 HVw) as HV1. rewrite (clone_eq _ _ _ _ _ (more_wf _ _ M1) HV1) in H1. injection H1 as <- <-.
    pose proof (more_push s1 bits (Some a) (ext_copy plain x) (more_wf _ _ M1)) as M2. pose proof (more_trans _ _ _ M1 M2) as M12.
    assert (HB : shows (push s1 bits (Some a) (ext_copy plain x)) (length (sols s1)) bits (Some a)).
    { apply shows_vw. exists (ext_copy plain x). rewrite vw_push, Nat.eqb_refl by apply (more_wf _ _ M1). reflexivity. }
    cbn [p_sol p_best]. split; auto. split; auto. split; [|split; [unfold live; lia|]].
    - split; [|split; [|split; auto]]; cbn [p_sol p_best].
      + exists bits, (Some a). split; auto. apply (more_shows s); auto. apply shows_vw; eauto.
      + exists bits, a, g, g'. auto.
    - exists bits, a. split; auto. apply shows_vw; eauto. }
  pose proof (randoms_length (length bits) (hrng s)) as HU1. pose proof (randoms_range (length bits) (hrng s)) as HU2.
  pose proof (start_tame bits _ HU2) as HT.
  destruct m as [b c vmax| |pl na].
  - apply bind_inv in H as (us & s1 & H1 & H). rewrite rnd1_eq in H1. injection H1 as <- <-.
    apply bind_inv in H as (qs & s2 & H1 & H). rewrite rnd1_eq in H1. injection H1 as <- <-. cbv zeta in H.
    eapply HC; [| | | |exact H]; [exact (more_with_r s _ W)|reflexivity| |].
    + intros q. cbn. rewrite (start_position_length bits _ _ eq_refl HU1), map_length, draws_length. lia.
    + intros q. cbn. split; auto. split; auto. apply Forall_map. apply Forall_forall. intros z _.
      exists (uniform_of (- vmax) vmax z). split; auto. cbn in HV. apply uniform_range. lra.
  - apply bind_inv in H as (us & s1 & H1 & H). rewrite rnd1_eq in H1. injection H1 as <- <-. cbv zeta in H.
    eapply HC; [| | | |exact H]; [exact (more_with_r s _ W)|reflexivity| |].
    + intros q. cbn. rewrite (start_position_length bits _ _ eq_refl HU1). lia.
    + intros q. cbn. assert (HT' : Forall (in_range_or_nan 0 1) (start_position bits (fst (randoms (length bits) (hrng s))))) by
        (revert HT; apply Forall_impl; intros z Hz; right; auto). split; auto.
  - eapply (HC s); [apply more_refl; auto|reflexivity|intros q; exact Logic.I|intros q; exact Logic.I|exact H].
Qed.
Lemma init_all_spec m pop : forall s0 s ps s', vmax_ok m -> wf s0 -> more s0 s -> Forall (honest E s0) pop -> mmap (init_particle m) pop s = (Ok ps, s') ->
  more s s' /\ map p_sol ps = pop /\ Forall (flies E m s') ps /\ Forall (fun p => ~ live s0 (p_best p)) ps /\ Forall (twin s') ps.
Proof.
  induction pop as [|r pop IH]; intros s0 s ps s' HV W M0 HH H; cbn [mmap] in H.
  - injection H as <- <-. split; [apply more_refl, (more_wf _ _ M0)|]. cbn. auto.
  - inversion HH as [|? ? Hr HH2]; subst. apply bind_inv in H as (p & s1 & H1 & H). apply bind_inv in H as (ps1 & s2 & H2 & H). injection H as <- <-.
    destruct (init_particle_spec m r s p s1 HV (more_wf _ _ M0) (honest_more _ _ _ _ M0 Hr) H1) as (M1 & Hs & Hf & Hl & b & a & S1 & S2).
    destruct (IH s0 s1 ps1 s2 HV W (more_trans _ _ _ M0 M1) HH2 H2) as (M2 & HM & HF & HN & HT).
    split; [eapply more_trans; eauto|]. split; [cbn; congruence|]. split; [|split].
    + constructor; auto. destruct Hf as ((b' & a' & Hs' & Hl') & Hb & Hr'). split; [exists b', a'; split; auto; eapply more_shows; [exact M2|auto]|].
      split; auto. eapply honest_more; [exact M2|auto].
    + constructor; auto. intros Hl0. apply Hl. eapply more_live; [exact M0|auto].
    + constructor; auto. exists b, a. rewrite Hs. split; [eapply more_shows; [exact M2|]; eapply more_shows; [exact M1|auto]|eapply more_shows; [exact M2|auto]].
Qed.
Lemma init_swarm_ok m pop s ps s' : vmax_ok m -> wf s -> Forall (honest E s) pop -> mmap (init_particle m) pop s = (Ok ps, s') ->
  wf s' /\ swarm_ok E m s' pop ps /\ Forall (twin s') ps.
Proof.
  intros HV W HH H. destruct (init_all_spec m pop s s ps s' HV W (more_refl s W) HH H) as (M & HM & HF & HN & HT).
  split; [apply (more_wf _ _ M)|]. split; auto. split; auto. split; auto. intros p q Hp Hq Heq. rewrite Forall_forall in HN. apply (HN q Hq). rewrite <- Heq.
  apply (honest_live E). rewrite Forall_forall in HH. apply HH. rewrite <- HM. apply in_map; auto.
Qed.
End Bests.

(* ----- the binary mean ----- *)
Lemma column_sum_ones xs i : column_sum xs i = ones_at xs i.
Proof. unfold column_sum, ones_at, count_true. induction xs as [|x xs IH]; cbn; auto. destruct (nth i x false); cbn; rewrite IH; auto. Qed.
Lemma ones_at_le xs i : (ones_at xs i <= length xs)%nat.
Proof. unfold ones_at. induction xs as [|x xs IH]; cbn; auto. destruct (nth i x false); cbn; lia. Qed.
Lemma fill_equal_nth half sums : forall qs i v, nth_error sums i = Some v -> v <> half -> nth_error (fill_equal half sums qs) i = Some (Nat.leb half v).
Proof.
  induction sums as [|x sums IH]; intros qs [|i] v Hi Hv; cbn in Hi; try discriminate.
  - injection Hi as ->. cbn [fill_equal]. destruct (Nat.eqb_spec v half); [congruence|reflexivity].
  - cbn [fill_equal]. destruct (Nat.eqb x half); [destruct qs|]; cbn [nth_error]; apply IH; auto.
Qed.
Lemma binary_mean_nth n xs g i : (i < n)%nat -> ones_at xs i <> Nat.div n 2 ->
  nth_error (fst (binary_mean n xs g)) i = Some (Nat.leb (Nat.div n 2) (ones_at xs i)).
Proof.
  intros Hi Hv. unfold binary_mean. destruct (draws _ g) as [qs g']. cbn [fst]. apply fill_equal_nth; auto.
  rewrite nth_error_map. rewrite (nth_error_nth' _ 0%nat) by (rewrite seq_length; auto). rewrite seq_nth by auto. cbn. f_equal. apply column_sum_ones.
Qed.
Lemma mean_even n xs g i : length xs = n -> Nat.even n = true -> (i < n)%nat ->
  (2 * ones_at xs i > length xs -> nth_error (fst (binary_mean n xs g)) i = Some true)%nat /\
  (2 * ones_at xs i < length xs -> nth_error (fst (binary_mean n xs g)) i = Some false)%nat.
Proof.
  intros HL HE Hi. apply Nat.even_spec in HE as (k & ->). assert (HD : Nat.div (2 * k) 2 = k) by (rewrite Nat.mul_comm; apply Nat.div_mul; lia).
  split; intros H; rewrite binary_mean_nth by (try rewrite HD; lia); rewrite HD; f_equal; [apply Nat.leb_le; lia|apply Nat.leb_gt; lia].
Qed.
Lemma mean_small n xs g : (length xs < Nat.div n 2)%nat -> fst (binary_mean n xs g) = repeat false n.
Proof.
  intros H. apply nth_error_ext. intros i. destruct (Nat.lt_ge_cases i n) as [Hi|Hi].
  - pose proof (ones_at_le xs i). rewrite binary_mean_nth by lia. rewrite (nth_error_nth' _ false) by (rewrite repeat_length; auto). rewrite nth_repeat.
    f_equal. apply Nat.leb_gt. lia.
  - rewrite (proj2 (nth_error_None _ _)) by (rewrite binary_mean_length; auto). symmetry. apply nth_error_None. rewrite repeat_length; auto.
Qed.

(* ----- whole runs ----- *)
Lemma sized_good {L} (E : env L) s pop : sized_pop E s pop -> Forall (good E nobody s) pop.
Proof.
  apply Forall_impl. intros r (b & a & HS & HL). split; [intros []|]. apply shows_vw in HS as (x & HS). exists b, a, x. auto.
Qed.
Lemma not_bad_and e : ~ bad e -> e <> AssertionError /\ e <> Dangling.
Proof. intros H. split; intros ->; apply H; [left|right]; auto. Qed.
Lemma built_swarm_run {L} (E : env L) M c ini pop (s : hst plain) : built s -> sized_pop E s pop ->
  match swarm_run M c L E ini pop tt s with
  | (Ok (pop', _), s') => pop' = pop /\ Forall (honest E s') pop'
  | (Raise e, _) => e <> AssertionError /\ e <> Dangling
  end.
Proof.
  intros B HP. pose proof (safe_swarm_run E nobody M c ini pop s (inv_nobody s (built_wf _ B)) (sized_good E s pop HP)) as H. unfold safe in H.
  destruct (swarm_run M c L E ini pop tt s) as [[[pop' u]|e] s']; [|apply not_bad_and; auto]. destruct H as [_ (H1 & H2 & H3)]. cbn in *. auto.
Qed.
Lemma built_wolf_run {L} (E : env L) M c ini pop (s : hst plain) : built s -> sized_pop E s pop ->
  match wolf_run M c L E ini pop tt s with
  | (Ok (pop', _), s') => length pop' = length pop /\ Forall (honest E s') pop'
  | (Raise e, _) => e <> AssertionError /\ e <> Dangling
  end.
Proof.
  intros B HP. pose proof (safe_wolf_run E nobody M c ini pop s (inv_nobody s (built_wf _ B)) (sized_good E s pop HP)) as H. unfold safe in H.
  destruct (wolf_run M c L E ini pop tt s) as [[[pop' u]|e] s']; [|apply not_bad_and; auto]. destruct H as [_ (H1 & H2 & H3)]. cbn in *. auto.
Qed.

(* ----- wolves: bits that all leaders have ----- *)
Lemma binary_X_keeps M a l w s x s' i : length l = length w -> nth_error l i = Some true -> binary_X M a l w s = (Ok x, s') -> nth_error x i = Some true.
Proof.
  intros HL Hi H. unfold binary_X in H. cbv zeta in H.
  apply bind_inv in H as (u1 & s1 & H1 & H). rewrite rnd1_eq in H1. injection H1 as <- <-.
  apply bind_inv in H as (u2 & s2 & H1 & H). rewrite rnd1_eq in H1. injection H1 as <- <-.
  apply bind_inv in H as (cp & s3 & H1 & H). unfold sigmoid_binarize in H1. apply bind_inv in H1 as (u4 & s5 & H1 & H2). rewrite rnd1_eq in H1.
  injection H1 as <- <-. injection H2 as <- <-.
  apply bind_inv in H as (u3 & s4 & H1 & H). rewrite rnd1_eq in H1. injection H1 as <- <-. injection H as <- <-.
  match goal with |- nth_error (map2 _ _ ?b) i = _ => assert (HB : exists v, nth_error b i = Some v) end.
  { assert (Hi1 : (i < length l)%nat) by (apply nth_error_Some; congruence).
    match goal with |- exists v, nth_error ?b i = _ => destruct (nth_error b i) eqn:EB; [eauto|] end. exfalso. apply nth_error_None in EB.
    erewrite map2_len in EB; [|apply randoms_length|]; [lia|]. apply map2_len; [rewrite randoms_length|]; (apply map2_len; [unfold wolf_A; rewrite map_length; apply randoms_length|]);
      unfold wolf_D; (apply map2_len; [apply randoms_length|]); rewrite combine_length; lia. }
  destruct HB as (v & HB). rewrite (map2_nth _ _ _ _ _ _ Hi HB). f_equal. destruct v; reflexivity.
Qed.
Lemma wolf_crossover_keeps M a leaders w s bits s' i : (i < length w)%nat ->
  Forall (fun l => length l = length w /\ nth_error l i = Some true) leaders ->
  wolf_crossover M a leaders w s = (Ok bits, s') -> nth_error bits i = Some true.
Proof.
  intros Hi HF H. unfold wolf_crossover in H. apply bind_inv in H as (xs & s1 & H1 & H).
  assert (HX : Forall (fun x => nth_error x i = Some true) xs).
  { revert H1. apply mmap_all with (P := fun l => length l = length w /\ nth_error l i = Some true); auto. intros l s2 x s3 [H1 H2]. apply binary_X_keeps; auto. }
  assert (HL : length xs = length leaders) by (eapply mmap_len; eauto).
  destruct (_ || _) eqn:EB; [discriminate|]. apply Bool.orb_false_elim in EB as [E0 _]. apply Nat.eqb_neq in E0.
  apply bind_inv in H as (qs & s2 & H2 & H). rewrite rnd1_eq in H2. injection H2 as <- <-. injection H as <- <-.
  rewrite mapi_nth. destruct (nth_error (fst (draws (length w) (hrng s1))) i) as [q|] eqn:Eq.
  2:{ apply nth_error_None in Eq. rewrite draws_length in Eq. lia. }
  cbn [option_map]. f_equal. assert (HI : (index_of (length leaders) q < length xs)%nat) by (rewrite HL; apply index_of_lt; lia).
  rewrite Forall_forall in HX. specialize (HX _ (nth_In xs [] HI)). cbv beta in HX. apply nth_error_nth with (d := false) in HX. exact HX.
Qed.

Lemma built_bests {L} (E : env L) M c pop k a (s : hst plain) s0 ps s1 ps' a' s2 : never_nan E -> vmax_ok (ps_move c) -> built s -> sized_pop E s pop ->
  fit_all E pop s = (Ok pop, s0) -> mmap (init_particle (ps_move c)) pop s0 = (Ok ps, s1) ->
  iterate k (swarm_step M c E pop) (ps, a) s1 = (Ok (ps', a'), s2) ->
  swarm_ok E (ps_move c) s1 pop ps /\ Forall (twin s1) ps /\ swarm_ok E (ps_move c) s2 pop ps' /\
  Forall2 (fun p p' => p_sol p' = p_sol p /\ not_worse s1 (p_best p) s2 (p_best p')) ps ps'.
Proof.
  intros HN HV B HP H1 H2 H3.
  pose proof (safe_fit_all E nobody true s pop (inv_nobody s (built_wf _ B)) (sized_good E s pop HP)) as HS. unfold safe in HS. rewrite H1 in HS.
  destruct HS as [G (_ & _ & HH)]. destruct (init_swarm_ok E _ _ _ _ _ HV (proj1 (grow_inv _ _ _ _ _ G)) HH H2) as (W1 & HO1 & HT).
  destruct (swarm_run_ok E M c pop k HN HV ps a s1 ps' a' s2 W1 HO1 H3) as (_ & HO2 & HF). auto.
Qed.
