(* The weights of rules in double precision, and predictions with them (C65). *)
From Coq Require Import Qpower Qfield Lqa.
From Verif Require Import PyNum PyFloat PyList PyMon M_Float S_Float L_Num L_Float L_FloatProps L_FloatMix.

Lemma mul_le_l a x y : 0 <= a -> x <= y -> a * x <= a * y.
Proof. intros HA H. rewrite (Qmult_comm a x), (Qmult_comm a y). apply Qmult_le_compat_r; auto. Qed.
Lemma two_to_dyadic k : (-1074 <= k)%Z -> dyadic (two_to k).
Proof. intros H. exists 1%Z, k. split; [lia|]. split; [exact H|]. unfold two_to. ring. Qed.
Lemma round_between a b q : (-1074 <= a)%Z -> (-1074 <= b)%Z -> two_to a <= q <= two_to b -> two_to a <= round_q q <= two_to b.
Proof.
  intros HA HB [H1 H2]. apply round_q_mono in H1, H2. rewrite (round_q_dyadic _ (two_to_dyadic a HA)) in H1. rewrite (round_q_dyadic _ (two_to_dyadic b HB)) in H2. auto.
Qed.
Lemma round_fin a b q : (-1000 <= a)%Z -> (b <= 1000)%Z -> (a <= b)%Z -> two_to a <= q <= two_to b -> round (Fin q) = Fin (round_q q) /\ two_to a <= round_q q <= two_to b /\ Qabs (round_q q - q) <= u * q.
Proof.
  intros HA HB HAB H. pose proof (two_to_pos a) as PA. assert (EA : Qabs q == q) by (apply Qabs_pos; lra).
  split; [apply round_small; rewrite EA; pose proof (two_to_le b 1000 HB); lra|]. split; [apply round_between; auto; lia|].
  pose proof (round_q_relative q) as R. rewrite EA in R. apply R. pose proof (two_to_le (-1022) a ltac:(lia)). lra.
Qed.
Lemma product_between a b c d x y : two_to a <= x <= two_to b -> two_to c <= y <= two_to d -> two_to (a + c) <= x * y <= two_to (b + d).
Proof.
  intros [X1 X2] [Y1 Y2]. pose proof (two_to_pos a). pose proof (two_to_pos c). rewrite !two_to_plus. split.
  - apply Qle_trans with (x * two_to c); [apply Qmult_le_compat_r; lra|]. apply mul_le_l; lra.
  - apply Qle_trans with (two_to b * y); [apply Qmult_le_compat_r; lra|]. rewrite (Qmult_comm (two_to b)), (Qmult_comm (two_to b)). apply Qmult_le_compat_r; lra.
Qed.
Lemma inverse_between a b x : two_to a <= x <= two_to b -> two_to (- b) <= 1 / x <= two_to (- a).
Proof.
  intros [X1 X2]. pose proof (two_to_pos a) as PA. pose proof (two_to_pos b) as PB.
  assert (EA : two_to a * two_to (- a) == 1) by (rewrite <- two_to_plus; replace (a + - a)%Z with 0%Z by lia; reflexivity).
  assert (EB : two_to b * two_to (- b) == 1) by (rewrite <- two_to_plus; replace (b + - b)%Z with 0%Z by lia; reflexivity).
  pose proof (two_to_pos (- a)). pose proof (two_to_pos (- b)). split; [apply Qle_shift_div_l|apply Qle_shift_div_r]; try lra.
  - rewrite <- EB. rewrite (Qmult_comm (two_to b)). rewrite (Qmult_comm (two_to (- b))), (Qmult_comm (two_to (- b)) (two_to b)). apply Qmult_le_compat_r; lra.
  - rewrite <- EA. rewrite (Qmult_comm (two_to (- a))). apply Qmult_le_compat_r; lra.
Qed.
Lemma u_small : u <= 1 # 1000000.
Proof. apply qle_iff. vm_compute. reflexivity. Qed.
(* three relative errors *)
Lemma three_errors a b r1 r2 t : 0 < a -> 0 < b -> Qabs (r1 - a) <= u * a -> Qabs (r2 - b) <= u * b -> Qabs (t - r1 * r2) <= u * (r1 * r2) -> Qabs (t - a * b) <= 4 * u * (a * b).
Proof.
  intros HA HB H1 H2 H3. pose proof u_pos as U. pose proof u_small as US. apply Qabs_Qle_condition in H1, H2, H3. apply Qabs_Qle_condition. set (v := u) in *. clearbody v.
  assert (P : 0 < a * b) by (apply Qmult_lt_0_compat; auto).
  assert (L1 : (1 - v) * a <= r1) by lra. assert (G1 : r1 <= (1 + v) * a) by lra. assert (L2 : (1 - v) * b <= r2) by lra. assert (G2 : r2 <= (1 + v) * b) by lra.
  assert (Z1 : 0 <= (1 - v) * a) by (apply Qmult_le_0_compat; lra). assert (Z2 : 0 <= (1 - v) * b) by (apply Qmult_le_0_compat; lra).
  assert (LP : (1 - v) * a * ((1 - v) * b) <= r1 * r2).
  { apply Qle_trans with (r1 * ((1 - v) * b)); [apply Qmult_le_compat_r; lra|]. apply mul_le_l; lra. }
  assert (GP : r1 * r2 <= (1 + v) * a * ((1 + v) * b)).
  { apply Qle_trans with ((1 + v) * a * r2); [apply Qmult_le_compat_r; lra|]. apply mul_le_l; try lra. }
  assert (EL : (1 - v) * a * ((1 - v) * b) == (1 - 2 * v + v * v) * (a * b)) by ring. assert (EG : (1 + v) * a * ((1 + v) * b) == (1 + 2 * v + v * v) * (a * b)) by ring.
  rewrite EL in LP. rewrite EG in GP. set (p := a * b) in *. clearbody p. set (q := r1 * r2) in *. clearbody q.
  assert (V2 : v * v <= v * (1 # 1000000)) by (apply mul_le_l; lra). assert (V0 : 0 <= v * v) by (apply Qmult_le_0_compat; lra).
  assert (B1 : (1 + 2 * v + v * v) * p <= (1 + (21 # 10) * v) * p) by (apply Qmult_le_compat_r; lra).
  assert (B2 : (1 - 2 * v) * p <= (1 - 2 * v + v * v) * p) by (apply Qmult_le_compat_r; lra).
  assert (VP : 0 <= v * p) by (apply Qmult_le_0_compat; lra).
  assert (Q1 : q <= p + (21 # 10) * (v * p)) by lra. assert (Q2 : p - 2 * (v * p) <= q) by lra.
  assert (VQ : v * q <= v * (p + (21 # 10) * (v * p))) by (apply mul_le_l; lra).
  assert (VV : v * (v * p) <= (1 # 1000000) * (v * p)) by (apply Qmult_le_compat_r; lra).
  assert (VE : v * (p + (21 # 10) * (v * p)) == v * p + (21 # 10) * (v * (v * p))) by ring. rewrite VE in VQ. split; lra.
Qed.
Lemma tau_close e n w : usual e -> usual n -> usual w -> exists t, ftau (Fin e) (Fin n) (Fin w) = Fin t /\ dyadic t /\ two_to (-100) <= t <= two_to 100 /\
  Qabs (t - n * w / e) <= 4 * u * (n * w / e).
Proof.
  unfold usual. fold (two_to (-30)) (two_to 30). intros HE HN HW. pose proof (inverse_between _ _ _ HE) as HI. pose proof (product_between _ _ _ _ _ _ HN HW) as HP. cbn [Z.opp Z.add Pos.add Pos.succ] in HI, HP.
  change (- (-30))%Z with 30%Z in HI. change (-30 + -30)%Z with (-60)%Z in HP. change (30 + 30)%Z with 60%Z in HP.
  destruct (round_fin (-30) 30 (1 / e) ltac:(lia) ltac:(lia) ltac:(lia) HI) as (E1 & R1 & D1).
  destruct (round_fin (-60) 60 (n * w) ltac:(lia) ltac:(lia) ltac:(lia) HP) as (E2 & R2 & D2).
  pose proof (product_between _ _ _ _ _ _ R1 R2) as HT. change (-30 + -60)%Z with (-90)%Z in HT. change (30 + 60)%Z with 90%Z in HT.
  destruct (round_fin (-90) 90 (round_q (1 / e) * round_q (n * w)) ltac:(lia) ltac:(lia) ltac:(lia) HT) as (E3 & R3 & D3).
  pose proof (two_to_pos (-30)) as P30. pose proof (two_to_pos (-60)) as P60.
  exists (round_q (round_q (1 / e) * round_q (n * w))). split; [|split; [apply round_q_is_dyadic|split]].
  - unfold ftau, fmul, fdiv. cbn [ndiv]. assert (EQ : qeq e 0 = false) by (apply qeq_false; lra). rewrite EQ. cbn [nmul]. rewrite E1, E2. cbn [nmul]. exact E3.
  - pose proof (two_to_le (-100) (-90) ltac:(lia)). pose proof (two_to_le 90 100 ltac:(lia)). lra.
  - assert (EE : n * w / e == 1 / e * (n * w)) by (destruct HE; field; lra). rewrite EE. apply (three_errors (1 / e) (n * w) (round_q (1 / e)) (round_q (n * w))); auto; [apply Qlt_le_trans with (two_to (-30)); [exact P30|apply HI]|apply Qlt_le_trans with (two_to (-60)); [exact P60|apply HP]].
Qed.

(* ----- the exact weighted mean with slightly wrong weights ----- *)
Lemma shifted_sums (M W : Q) (vs vs' : list (Q * Q)) d : 0 <= d -> Qabs W <= M -> Forall2 (fun v v' => fst v' = fst v /\ 0 < snd v /\ Qabs (fst v) <= M /\ Qabs (snd v' - snd v) <= d * snd v) vs vs' ->
  Qabs (qsum (map (fun v => fst v * snd v) vs') - W * qsum (map snd vs') - (qsum (map (fun v => fst v * snd v) vs) - W * qsum (map snd vs))) <= 2 * M * d * qsum (map snd vs) /\
  (1 - d) * qsum (map snd vs) <= qsum (map snd vs') /\ 0 <= qsum (map snd vs) /\ (vs <> [] -> 0 < qsum (map snd vs)).
Proof.
  intros HD HW HF. induction HF as [|[p t] [p' t'] vs vs' (E & HT & HP & HC) HF (I1 & I2 & I3 & _)]; cbn [map fst snd] in *.
  - change (qsum []) with 0. split; [|repeat split; try lra; congruence]. setoid_replace (0 - W * 0 - (0 - W * 0)) with 0 by ring. change (Qabs 0) with 0. lra.
  - subst p'. change (qsum (t :: map snd vs)) with (t + qsum (map snd vs)). change (qsum (t' :: map snd vs')) with (t' + qsum (map snd vs')).
    change (qsum (p * t :: map (fun v => fst v * snd v) vs)) with (p * t + qsum (map (fun v => fst v * snd v) vs)). change (qsum (p * t' :: map (fun v => fst v * snd v) vs')) with (p * t' + qsum (map (fun v => fst v * snd v) vs')).
    set (A := qsum (map (fun v => fst v * snd v) vs)) in *. set (A' := qsum (map (fun v => fst v * snd v) vs')) in *. set (T := qsum (map snd vs)) in *. set (T' := qsum (map snd vs')) in *.
    assert (HM : Qabs (p - W) <= 2 * M) by (pose proof (Qabs_triangle p (- W)) as G; rewrite Qabs_opp in G; setoid_replace (p + - W) with (p - W) in G by ring; lra).
    split; [|repeat split; try lra].
    + setoid_replace (p * t' + A' - W * (t' + T') - (p * t + A - W * (t + T))) with ((p - W) * (t' - t) + (A' - W * T' - (A - W * T))) by ring.
      eapply Qle_trans; [apply Qabs_triangle|]. rewrite Qabs_Qmult. assert (Qabs (p - W) * Qabs (t' - t) <= 2 * M * (d * t)).
      { apply Qle_trans with (2 * M * Qabs (t' - t)); [apply Qmult_le_compat_r; [exact HM|apply Qabs_nonneg]|]. apply mul_le_l; auto. pose proof (Qabs_nonneg (p - W)). lra. }
      setoid_replace (2 * M * d * (t + T)) with (2 * M * (d * t) + 2 * M * d * T) by ring. lra.
    + apply Qabs_Qle_condition in HC. setoid_replace ((1 - d) * (t + T)) with (t - d * t + (1 - d) * T) by ring. lra.
Qed.
Lemma weighted_mean_between M vs : vs <> [] -> Forall (fun v => 0 < snd v) vs -> Forall (fun v => Qabs (fst v) <= M) vs -> Qabs (weighted_mean vs) <= M.
Proof.
  intros HN HW HB. apply Qabs_Qle_condition. apply (mean_between (- M) M vs HN HW). eapply Forall_impl; [|exact HB]. intros v H. apply Qabs_Qle_condition in H. exact H.
Qed.
Lemma weighted_mean_close M vs vs' : vs <> [] -> Forall2 (fun v v' => fst v' = fst v /\ 0 < snd v /\ Qabs (fst v) <= M /\ Qabs (snd v' - snd v) <= 4 * u * snd v) vs vs' ->
  Qabs (weighted_mean vs' - weighted_mean vs) <= 9 * u * M.
Proof.
  intros HN HF. pose proof u_pos as U. pose proof u_small as US.
  assert (HW : Qabs (weighted_mean vs) <= M).
  { apply weighted_mean_between; auto; clear -HF; induction HF as [|v v' vs vs' (_ & H1 & H2 & _) _ IH]; constructor; auto. }
  destruct (shifted_sums M (weighted_mean vs) vs vs' (4 * u) ltac:(lra) HW HF) as (S1 & S2 & S3 & S4). specialize (S4 HN).
  assert (M0 : 0 <= M) by (pose proof (Qabs_nonneg (weighted_mean vs)); lra).
  unfold weighted_mean in S1 at 2. set (A := qsum (map (fun v => fst v * snd v) vs)) in *. set (T := qsum (map snd vs)) in *. set (A' := qsum (map (fun v => fst v * snd v) vs')) in *. set (T' := qsum (map snd vs')) in *.
  assert (EZ : A - A / T * T == 0) by (field; lra). rewrite EZ in S1. set (W := weighted_mean vs) in *.
  assert (TP : 0 < T') by (assert (0 < (1 - 4 * u) * T) by (apply Qmult_lt_0_compat; lra); lra).
  assert (EW : weighted_mean vs' - W == (A' - W * T' - 0) / T') by (unfold weighted_mean; fold A' T'; field; lra). rewrite EW.
  unfold Qdiv. rewrite Qabs_Qmult, (Qabs_pos (/ T')) by (apply Qinv_le_0_compat; lra). apply Qle_shift_div_r; auto. eapply Qle_trans; [exact S1|].
  assert (UM : 0 <= u * M) by (apply Qmult_le_0_compat; lra).
  setoid_replace (2 * M * (4 * u) * T) with (8 * (u * M) * T) by ring. setoid_replace (9 * u * M * T') with (9 * (u * M) * T') by ring.
  apply Qle_trans with (9 * (u * M) * ((1 - 4 * u) * T)).
  - setoid_replace (9 * (u * M) * ((1 - 4 * u) * T)) with ((u * M) * T * (9 * (1 - 4 * u))) by ring. setoid_replace (8 * (u * M) * T) with ((u * M) * T * 8) by ring.
    apply mul_le_l; [|lra]. apply Qmult_le_0_compat; lra.
  - apply mul_le_l; lra.
Qed.

Definition fvoter (v : voter) : option num * num := (option_map Fin (v_says v), ftau (Fin (v_error v)) (Fin (v_experience v)) (Fin (v_weight v))).
Lemma usual_pos q : usual q -> 0 < q.
Proof. unfold usual. fold (two_to (-30)). pose proof (two_to_pos (-30)). lra. Qed.
Lemma voter_weight_pos v : usual_voter v -> 0 < voter_weight v.
Proof.
  intros (H1 & H2 & H3 & _). apply usual_pos in H1, H2, H3. unfold voter_weight. apply Qlt_shift_div_l; auto. setoid_replace (0 * v_error v) with 0 by ring. apply Qmult_lt_0_compat; auto.
Qed.
Lemma voters_moderate M vs : Forall usual_voter vs -> Forall (fun v => Qabs (fst v) <= M) (voting (map exact_vote vs)) ->
  exists rs, map fvoter vs = map given rs /\ Forall moderate rs /\ length rs = length vs /\
  Forall2 (fun v v' => fst v' = fst v /\ 0 < snd v /\ Qabs (fst v) <= M /\ Qabs (snd v' - snd v) <= 4 * u * snd v) (voting (map exact_vote vs)) (voting rs).
Proof.
  induction 1 as [|v vs Hv HF IH]; intros HB; [exists []; repeat split; constructor|]. pose proof (voter_weight_pos v Hv) as HP.
  destruct Hv as (H1 & H2 & H3 & H4). destruct (tau_close _ _ _ H1 H2 H3) as (t & ET & DT & RT & CT).
  destruct v as [[p|] e n w]; cbn [map exact_vote v_says voting] in *.
  - apply Forall_cons_iff in HB as [HB1 HB]. destruct (IH HB) as (rs & E & HM & HL & HR). exists ((Some p, t) :: rs). cbn [map]. rewrite E. unfold fvoter at 1. cbn [v_says v_error v_experience v_weight option_map] in *. rewrite ET.
    split; [reflexivity|]. split; [constructor; auto; repeat split; auto; apply RT|]. split; [cbn; lia|]. cbn [voting]. constructor; auto.
  - destruct (IH HB) as (rs & E & HM & HL & HR). exists ((None, t) :: rs). cbn [map]. rewrite E. unfold fvoter at 1. cbn [v_says v_error v_experience v_weight option_map] in *. rewrite ET.
    split; [reflexivity|]. split; [constructor; auto; repeat split; auto; apply RT|]. split; [cbn; lia|]. cbn [voting]. exact HR.
Qed.
Lemma voters_close vs M : Forall usual_voter vs -> (Z.of_nat (length vs) <= 2 ^ 50)%Z -> voting (map exact_vote vs) <> [] -> Forall (fun v => Qabs (fst v) <= M) (voting (map exact_vote vs)) ->
  exists out, fmix (map (fun v => (option_map Fin (v_says v), ftau (Fin (v_error v)) (Fin (v_experience v)) (Fin (v_weight v)))) vs) = Fin out /\
    Qabs (out - weighted_mean (voting (map exact_vote vs))) <= (6 * inject_Z (Z.of_nat (length vs)) + 14) * u * M + two_to (-1075).
Proof.
  intros HF HL HN HB. destruct (voters_moderate M vs HF HB) as (rs & E & HM & EL & HR). fold fvoter. change (map (fun v => _) vs) with (map fvoter vs). rewrite E.
  assert (NE : voting rs <> []) by (intros Z; rewrite Z in HR; inversion HR; congruence).
  assert (HB' : Forall (fun v => Qabs (fst v) <= M) (voting rs)) by (clear -HR; induction HR as [|v v' l l' (E1 & _ & H & _) _ IH]; constructor; auto; rewrite E1; exact H).
  destruct (mix_close rs M HM ltac:(rewrite EL; exact HL) NE HB') as (out & EO & D). exists out. split; [exact EO|]. rewrite EL in D.
  pose proof (weighted_mean_close M _ _ HN HR) as C. pose proof (Qabs_triangle (out - weighted_mean (voting rs)) (weighted_mean (voting rs) - weighted_mean (voting (map exact_vote vs)))) as T.
  setoid_replace (out - weighted_mean (voting rs) + (weighted_mean (voting rs) - weighted_mean (voting (map exact_vote vs)))) with (out - weighted_mean (voting (map exact_vote vs))) in T by ring.
  setoid_replace ((6 * inject_Z (Z.of_nat (length vs)) + 14) * u * M) with ((6 * inject_Z (Z.of_nat (length vs)) + 5) * u * M + 9 * u * M) by ring. lra.
Qed.
