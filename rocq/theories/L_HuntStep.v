(* One iteration of the grey wolves; the schedules; what the movements imply (C72). *)
From Coq Require Import Lia Permutation.
From Verif Require Import PyNum PyList PyMon PyRng PyStat L_Num L_List L_Rng M_Matching M_Rule M_Mixing M_Solution S_Solution
  L_Heap L_HeapProps M_Composition S_Composition L_Safe L_SafeFit L_Composition M_GenomeOps S_GenomeOps L_GenomeOps L_GenomeProps L_GA L_Held M_Aco S_Aco L_AcoProps M_Abc M_Swarm S_Swarm L_Swarm
  L_SasProps L_SagaProps L_SwarmProps L_Quantum S_Moves L_Moves L_Hunt L_LogStats.
From Coq Require Import Lqa.

Implicit Types s : hst plain.
Definition shown (s : hst plain) (r : nat) (b : list bool) : Prop := exists x, shows s r b x.
Lemma hunts_draws M p a leaders wolf s bits s' : Forall (fun l => length l = length wolf) leaders ->
  (match p with WCrossover => wolf_crossover M a leaders wolf | WSigmoid => wolf_sigmoid M a leaders wolf end) s = (Ok bits, s') ->
  s' = with_r s (later (needs p (length leaders) (length wolf)) (hrng s)) /\ hunts p M a leaders wolf (hrng s) bits.
Proof. destruct p; [apply crossover_draws|apply sigmoid_draws]. Qed.
Lemma genomes_eq s ls bs : Forall2 (shown s) ls bs -> mmap genome ls s = (Ok bs, s).
Proof.
  induction 1 as [|l b ls bs (x & H) _ IH]; [reflexivity|]. apply shows_vw in H as (z & H). cbn [mmap].
  rewrite (bind_ok _ _ _ _ _ (genome_eq _ _ _ _ _ H)), (bind_ok _ _ _ _ _ IH). reflexivity.
Qed.
Definition extends s s' : Prop := wf s' /\ (length (sols s) <= length (sols s'))%nat /\ forall r b x, shows s r b x -> shows s' r b x.
Lemma shows_live s r b x : shows s r b x -> live s r.
Proof. intros (o & H & _). unfold live. apply nth_error_Some. congruence. Qed.
Lemma wolf_move_eq M p a leaders lbits r wolf x s r' s' : wf s -> shows s r wolf x -> Forall2 (shown s) leaders lbits -> Forall (fun l => length l = length wolf) lbits ->
  wolf_move M p a leaders r s = (Ok r', s') ->
  extends s s' /\ hrng s' = later (needs p (length leaders) (length wolf)) (hrng s) /\ r' = length (sols s) /\ length (sols s') = S (length (sols s)) /\
  exists bits, shows s' r' bits None /\ hunts p M a lbits wolf (hrng s) bits.
Proof.
  intros W HS HL HLen H. unfold wolf_move in H. pose proof HS as HS0. apply shows_vw in HS as (z & HV).
  rewrite (bind_ok _ _ _ _ _ (genome_eq _ _ _ _ _ HV)), (bind_ok _ _ _ _ _ (genomes_eq _ _ _ HL)) in H.
  apply bind_inv in H as (bits & s1 & H1 & H). apply hunts_draws in H1 as [-> HH]; auto.
  assert (LE : length lbits = length leaders) by (symmetry; clear -HL; induction HL; cbn; auto). rewrite LE in H.
  set (s1 := with_r s (later (needs p (length leaders) (length wolf)) (hrng s))) in *.
  assert (HV1 : vw s1 r = Some (wolf, x, z)) by exact HV. rewrite (clone_with_eq _ _ _ _ _ bits HV1) in H. injection H as <- <-.
  assert (W1 : wf s1) by exact W. split; [|split; [reflexivity|split; [reflexivity|split]]].
  - split; [apply wf_push; auto|]. split; [unfold push; cbn [sols]; rewrite app_length; cbn; lia|]. intros r2 b y HS2. pose proof (shows_live _ _ _ _ HS2) as HLv. unfold live in HLv.
    apply shows_vw in HS2 as (z2 & HV2). apply shows_vw. exists z2. rewrite vw_push by auto. destruct (Nat.eqb_spec r2 (length (sols s1))) as [->|]; [cbn in HLv; lia|exact HV2].
  - unfold push. cbn [sols]. rewrite app_length. cbn. lia.
  - exists bits. split; [|exact HH]. apply shows_vw. eexists. rewrite vw_push by auto. rewrite Nat.eqb_refl. reflexivity.
Qed.
Lemma extends_shown s s' ls bs : extends s s' -> Forall2 (shown s) ls bs -> Forall2 (shown s') ls bs.
Proof. intros (_ & _ & H). induction 1 as [|l b ls bs (x & H1) _ IH]; constructor; auto. exists x. auto. Qed.
Lemma wolf_moves_eq M p a leaders lbits n : forall pop s pop' s', wf s -> Forall (fun r => exists b, shown s r b /\ length b = n) pop -> Forall2 (shown s) leaders lbits -> Forall (fun l => length l = n) lbits ->
  mmap (wolf_move M p a leaders) pop s = (Ok pop', s') ->
  extends s s' /\ length pop' = length pop /\
  forall k r wolf, nth_error pop k = Some r -> shown s r wolf -> exists r' bits, nth_error pop' k = Some r' /\ ~ live s r' /\ shown s' r' bits /\
    hunts p M a lbits wolf (later (needs p (length leaders) n * k) (hrng s)) bits.
Proof.
  induction pop as [|r pop IH]; intros s pop' s' W HP HL HLen H; cbn [mmap] in H.
  - injection H as <- <-. split; [split; auto|]. split; [reflexivity|]. intros [|k] r wolf H; discriminate H.
  - apply Forall_cons_iff in HP as [(wolf & (x & HS) & Ln) HP]. apply bind_inv in H as (r' & s1 & H1 & H). apply bind_inv in H as (rs & s2 & H2 & H). injection H as <- <-.
    destruct (wolf_move_eq M p a leaders lbits r wolf x s r' s1 W HS HL) as (EX & HR & -> & HLs & bits & HSb & HH); auto; [rewrite Ln; exact HLen|].
    rewrite Ln in HR. destruct (IH s1 rs s2 (proj1 EX)) as (EX2 & L2 & H3); auto.
    { revert HP. apply Forall_impl. intros q (b & (y & Hb) & Lb). exists b. split; auto. exists y. apply EX; auto. }
    { eapply extends_shown; eauto. }
    assert (EXX : extends s s2). { destruct EX as (A1 & A2 & A3), EX2 as (B1 & B2 & B3). split; [auto|split; [lia|auto]]. }
    split; [exact EXX|]. split; [cbn; lia|]. intros [|k] q w Hk (y & Hw); cbn [nth_error] in Hk.
    + injection Hk as <-. destruct (shows_det _ _ _ _ _ _ HS Hw) as [-> _]. exists (length (sols s)), bits. split; [reflexivity|]. split; [unfold live; lia|]. split; [exists None; apply EX2; auto|].
      rewrite Nat.mul_0_r, later_0. exact HH.
    + destruct (H3 k q w Hk) as (r2 & b2 & G1 & G2 & G3 & G4); [exists y; apply EX; auto|]. exists r2, b2. split; [exact G1|]. split; [unfold live in *; lia|]. split; [exact G3|].
      rewrite HR, later_later in G4. replace (needs p (length leaders) n * S k)%nat with (needs p (length leaders) n + needs p (length leaders) n * k)%nat by lia. exact G4.
Qed.
Lemma fit_keeps {L} (E : env L) r s r' s' : wf s -> fit E r s = (Ok r', s') -> wf s' /\ r' = r /\ forall q b, shown s q b -> shown s' q b.
Proof.
  intros W H. pose proof H as H0. unfold fit in H0. apply bind_inv in H0 as (b & s1 & H1 & _). apply genome_inv in H1 as [_ (a & HS)]. apply shows_vw in HS as (x & HV).
  pose proof (L_Heap.fit_eq E s r b a x W HV) as HE. destruct (sol_fit _ _ _ _ _ _ _ _) as [[a'|e] g'].
  - destruct HE as (s2 & HE & W2 & _ & _ & HVW). rewrite H in HE. injection HE as -> ->. split; auto. split; auto. intros q b' (y & HS). apply shows_vw in HS as (z & HS).
    unfold shown. setoid_rewrite shows_vw. rewrite HVW. destruct (Nat.eqb_spec q r) as [->|]; [|eauto]. rewrite HV in HS. injection HS as <- _ _. eauto.
  - rewrite H in HE. discriminate.
Qed.
Lemma fit_all_keeps {L} (E : env L) : forall rs s rs' s', wf s -> fit_all E rs s = (Ok rs', s') -> rs' = rs /\ forall q b, shown s q b -> shown s' q b.
Proof.
  unfold fit_all. induction rs as [|r rs IH]; intros s rs' s' W H; cbn [mmap] in H; [injection H as <- <-; auto|].
  apply bind_inv in H as (r' & s1 & H1 & H). apply bind_inv in H as (rs2 & s2 & H2 & H). injection H as <- <-.
  destruct (fit_keeps E r s r' s1 W H1) as (W1 & -> & K1). destruct (IH s1 rs2 s2 W1 H2) as (-> & K2). split; auto.
Qed.
Lemma ranked_eq s pop n : wf s -> Forall (fun r => rated s r /\ exists b, shown s r b /\ length b = n) pop ->
  exists ranked, by_fitness_desc pop s = (Ok ranked, s) /\ Permutation ranked pop /\ forall k, fittest_k s k pop (firstn k ranked).
Proof.
  intros W HF. destruct (keyed_total s pop) as (ks & HK & Hm & HKF).
  { revert HF. apply Forall_impl. intros r ((f & H & _) & _). eauto. }
  assert (HB : by_fitness_desc pop s = (Ok (map snd (sort_desc key_lt ks)), s)) by (unfold by_fitness_desc; rewrite (bind_ok _ _ _ _ _ HK); reflexivity).
  exists (map snd (sort_desc key_lt ks)). split; [exact HB|].
  assert (HP : Permutation (map snd (sort_desc key_lt ks)) pop) by (rewrite <- Hm; apply Permutation_map, sort_desc_perm).
  split; [exact HP|]. intros k. rewrite Forall_forall in HF.
  assert (HS : Sorted.StronglySorted (fun a b => nle (fst b) (fst a) = true) (sort_desc key_lt ks)).
  { apply (sort_desc_sorted (fun a : num * nat => fst a)). apply Forall_forall. intros x Hx. rewrite Forall_forall in HKF.
    destruct (HF (snd x)) as ((f & Hf & HN) & _); [rewrite <- Hm; apply in_map; auto|]. rewrite (has_fit_fun _ _ _ _ (HKF x Hx) Hf). exact HN. }
  split; [rewrite firstn_length, (Permutation_length HP); reflexivity|].
  exists (skipn k (map snd (sort_desc key_lt ks))). rewrite firstn_skipn. split; [symmetry; exact HP|].
  intros a b fa fb Ha Hb Hfa Hfb. rewrite firstn_map in Ha. rewrite skipn_map in Hb.
  apply in_map_iff in Ha as (ka & <- & Ha). apply in_map_iff in Hb as (kb & <- & Hb).
  pose proof (sorted_firstn_skipn _ k _ HS ka kb Ha Hb) as HR.
  assert (HIa : In ka ks) by (apply In_firstn in Ha; apply sort_In in Ha; exact Ha).
  assert (HIb : In kb ks) by (apply In_skipn in Hb; apply sort_In in Hb; exact Hb).
  rewrite Forall_forall in HKF. rewrite (has_fit_fun _ _ _ _ Hfa (HKF ka HIa)), (has_fit_fun _ _ _ _ Hfb (HKF kb HIb)). exact HR.
Qed.
Lemma shown_all s ls n : Forall (fun r => exists b, shown s r b /\ length b = n) ls -> exists bs, Forall2 (shown s) ls bs /\ Forall (fun b => length b = n) bs.
Proof.
  induction 1 as [|l ls (b & H1 & H2) _ (bs & IH1 & IH2)]; [exists []; auto|]. exists (b :: bs). auto.
Qed.
Lemma wolf_step_eq {L} (E : env L) M c pop a n s pop' a' s' : wf s -> Forall (fun r => rated s r /\ exists b x, shows s r b x /\ length b = n) pop ->
  wolf_step M c E (pop, a) s = (Ok (pop', a'), s') ->
  a' == a - 2 / qofnat (w_iter c) /\ length pop' = length pop /\
  exists leaders lbits, fittest_k s (w_leaders c) pop leaders /\ Forall2 (fun l b => exists x, shows s l b x) leaders lbits /\
    forall k r wolf x, nth_error pop k = Some r -> shows s r wolf x -> exists r' bits y, nth_error pop' k = Some r' /\ ~ live s r' /\ shows s' r' bits y /\
      hunts (w_pos c) M a lbits wolf (later (needs (w_pos c) (length leaders) n * k) (hrng s)) bits.
Proof.
  intros W HF0 H. assert (HF : Forall (fun r => rated s r /\ exists b, shown s r b /\ length b = n) pop).
  { revert HF0. apply Forall_impl. intros r (H1 & b & x & H2 & H3). split; auto. exists b. split; auto. exists x; auto. }
  destruct (ranked_eq s pop n W HF) as (ranked & HE & HP & HK). unfold wolf_step in H. rewrite (bind_ok _ _ _ _ _ HE) in H.
  set (leaders := firstn (w_leaders c) ranked) in *.
  assert (HSh : Forall (fun r => exists b, shown s r b /\ length b = n) leaders).
  { apply Forall_forall. intros r Hr. rewrite Forall_forall in HF. apply (HF r). eapply Permutation_in; [exact HP|]. eapply In_firstn; exact Hr. }
  destruct (shown_all s leaders n HSh) as (lbits & HL & HLen).
  apply bind_inv in H as (pop1 & s1 & H1 & H). apply bind_inv in H as (pop2 & s2 & H2 & H). injection H as <- <- <-.
  destruct (wolf_moves_eq M (w_pos c) a leaders lbits n pop s pop1 s1 W) as (EX & L1 & HM); auto.
  { revert HF. apply Forall_impl. intros r [_ H]. exact H. }
  destruct (fit_all_keeps E pop1 s1 pop2 s2 (proj1 EX) H2) as (-> & HKp). split; [reflexivity|]. split; [exact L1|].
  exists leaders, lbits. split; [apply HK|]. split; [exact HL|]. intros k r wolf x Hk Hw. destruct (HM k r wolf Hk) as (r' & bits & G1 & G2 & G3 & G4); [exists x; auto|].
  apply HKp in G3 as (y & G3). exists r', bits, y. auto.
Qed.

(* ----- schedules ----- *)
Lemma swarm_schedule {L} (E : env L) M c pop : (ps_iter c <> 0)%nat -> forall k ps a s ps' a' s', iterate k (swarm_step M c E pop) (ps, a) s = (Ok (ps', a'), s') ->
  a' == a - qofnat k * ((ps_amax c - ps_amin c) / qofnat (ps_iter c)).
Proof.
  intros HN. induction k as [|k IH]; intros ps a s ps' a' s' H; cbn [iterate] in H.
  - injection H as <- <- <-. unfold qofnat. cbn [Z.of_nat]. change (inject_Z 0) with 0. ring.
  - apply bind_inv in H as ([ps1 a1] & s1 & H1 & H). rewrite (IH _ _ _ _ _ _ H). unfold swarm_step in H1.
    apply bind_inv in H1 as (p1 & s2 & _ & H1). apply bind_inv in H1 as (u & s3 & _ & H1). apply bind_inv in H1 as (p2 & s4 & _ & H1). injection H1 as <- <- <-.
    rewrite qofnat_S. ring.
Qed.
Lemma wolf_schedule {L} (E : env L) M c : forall k pop a s pop' a' s', iterate k (wolf_step M c E) (pop, a) s = (Ok (pop', a'), s') ->
  a' == a - qofnat k * (2 / qofnat (w_iter c)).
Proof.
  induction k as [|k IH]; intros pop a s pop' a' s' H; cbn [iterate] in H.
  - injection H as <- <- <-. unfold qofnat. cbn [Z.of_nat]. change (inject_Z 0) with 0. ring.
  - apply bind_inv in H as ([ps1 a1] & s1 & H1 & H). rewrite (IH _ _ _ _ _ _ H). unfold wolf_step in H1.
    apply bind_inv in H1 as (p1 & s2 & _ & H1). apply bind_inv in H1 as (u & s3 & _ & H1). apply bind_inv in H1 as (p2 & s4 & _ & H1). injection H1 as <- <- <-.
    rewrite qofnat_S. ring.
Qed.

(* ----- what the movement implies ----- *)
Lemma classical_rest M b c vmax a target n g p p' bits i x : classical M b c vmax a target n g p p' bits -> 0 <= vmax -> 0 <= x <= 1 -> (i < n)%nat ->
  is_at (p_pos p) i x -> is_at (p_bestpos p) i x -> is_at target i x -> (exists v, is_at (p_vel p) i v /\ v == 0) ->
  exists x' v', is_at (p_pos p') i x' /\ is_at (p_vel p') i v' /\ x' == x /\ v' == 0.
Proof.
  unfold is_at. intros (_ & _ & _ & _ & _ & _ & H) HV HX Hi H1 H2 H3 (v0 & H4 & Hv).
  destruct (H i Hi) as (q & v & t & h & x' & v' & bit & D1 & D2 & D3 & D4 & D5 & D6 & _ & (_ & D7 & _) & (_ & D8 & _) & _). unfold is_at in *.
  rewrite H1 in D1. rewrite H2 in D3. rewrite H3 in D4. rewrite H4 in D2. injection D1 as <-. injection D3 as <-. injection D4 as <-. injection D2 as <-.
  assert (Ez : a * v0 + b * number g i * (x - x) + c * number g (n + i) * (x - x) == 0) by (rewrite Hv; ring).
  assert (Ev : v' == 0) by (rewrite D7; lra). exists x', v'. repeat split; auto. rewrite D8; lra.
Qed.
Lemma classical_between M b c vmax a target n g p p' bits i x t : classical M b c vmax a target n g p p' bits -> 0 <= vmax -> 0 <= b -> 0 <= c -> b + c <= 1 ->
  0 <= x <= 1 -> 0 <= t <= 1 -> (i < n)%nat ->
  is_at (p_pos p) i x -> is_at (p_bestpos p) i t -> is_at target i t -> (exists v, is_at (p_vel p) i v /\ a * v == 0) ->
  exists x', is_at (p_pos p') i x' /\ (x <= x' <= t \/ t <= x' <= x).
Proof.
  unfold is_at. intros (_ & _ & _ & _ & _ & _ & H) HV Hb Hc Hbc HX HT Hi H1 H2 H3 (v0 & H4 & Hv).
  destruct (H i Hi) as (q & v & t' & h & x' & v' & bit & D1 & D2 & D3 & D4 & D5 & D6 & _ & (K1 & K2 & K3) & (J1 & J2 & J3) & _). unfold is_at in *.
  rewrite H1 in D1. rewrite H2 in D3. rewrite H3 in D4. rewrite H4 in D2. injection D1 as <-. injection D3 as <-. injection D4 as <-. injection D2 as <-.
  exists x'. split; [exact D6|]. pose proof (number_range g i) as R1. pose proof (number_range g (n + i)) as R2.
  set (k := b * number g i + c * number g (n + i)).
  assert (Hk0 : 0 <= k). { assert (0 <= b * number g i) by (apply Qmult_le_0_compat; lra). assert (0 <= c * number g (n + i)) by (apply Qmult_le_0_compat; lra). unfold k. lra. }
  assert (Hk1 : k <= 1).
  { assert (b * number g i <= b * 1) by (rewrite !(Qmult_comm b); apply Qmult_le_compat_r; lra). assert (c * number g (n + i) <= c * 1) by (rewrite !(Qmult_comm c); apply Qmult_le_compat_r; lra). unfold k. lra. }
  assert (Ez : a * v0 + b * number g i * (t - x) + c * number g (n + i) * (t - x) == k * (t - x)) by (rewrite Hv; unfold k; ring).
  set (z := a * v0 + _ + _) in *. clearbody z k.
  destruct (Qlt_le_dec t x) as [HL|HL].
  - right. assert (Hz : t - x <= z <= 0).
    { assert (0 <= k * (x - t)) by (apply Qmult_le_0_compat; lra). assert (k * (x - t) <= 1 * (x - t)) by (apply Qmult_le_compat_r; lra). assert (k * (t - x) == - (k * (x - t))) by ring. lra. }
    assert (Hv' : t - x <= v' <= 0). { destruct (Qlt_le_dec z (- vmax)); [rewrite K1; lra|rewrite K2; lra]. }
    rewrite J2; lra.
  - left. assert (Hz : 0 <= z <= t - x).
    { assert (0 <= k * (t - x)) by (apply Qmult_le_0_compat; lra). assert (k * (t - x) <= 1 * (t - x)) by (apply Qmult_le_compat_r; lra). lra. }
    assert (Hv' : 0 <= v' <= t - x). { destruct (Qlt_le_dec vmax z); [rewrite K3; lra|rewrite K2; lra]. }
    rewrite J2; lra.
Qed.
(* at the end of the schedule the wolves average the leaders *)
Lemma estimate_end a n g i l w : a == 0 -> estimate a n g i l w == one_or_zero l.
Proof.
  intros H. unfold estimate, drift.
  assert (E : one_or_zero l - (2 * a * number g i - a) * away (number g (n + i)) (one_or_zero l) (one_or_zero w) == one_or_zero l) by (rewrite H; ring).
  rewrite E. destruct l; reflexivity.
Qed.
Lemma averaged_end M a leaders wolf g bits i w : averaged M a leaders wolf g bits -> a == 0 -> nth_error wolf i = Some w ->
  exists bit x, nth_error bits i = Some bit /\ x == qofnat (ones_at leaders i) / qofnat (length leaders) /\ binarised M (number g (2 * length wolf * length leaders + i)) x bit.
Proof.
  intros (_ & H) Ha Hw. destruct (H i w Hw) as (bit & x & H1 & H2 & H3). exists bit, x. split; auto. split; auto. rewrite H2.
  assert (E : forall k, qsum (mapi_from (fun j leader => estimate a (length wolf) (later (2 * length wolf * j) g) i (nth i leader false) w) k leaders) == qofnat (ones_at leaders i)).
  { clear - Ha. unfold ones_at. induction leaders as [|l ls IH]; intros k; cbn [mapi_from filter]; [reflexivity|].
    change (qsum (?u :: ?v)) with (u + qsum v). rewrite IH, (estimate_end a _ _ _ _ _ Ha). destruct (nth i l false); cbn [one_or_zero length]; [rewrite qofnat_S|]; ring. }
  unfold mapi. rewrite (E 0%nat). reflexivity.
Qed.
