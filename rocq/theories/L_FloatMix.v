(* Mixing in double precision: how far the result is from the weighted mean. *)
From Coq Require Import Qpower Qfield Lqa.
From Verif Require Import PyNum PyFloat PyList PyMon M_Matching M_Float S_Float L_Num L_Float L_FloatProps.

Notation u := (two_to (-53)).
Lemma u_pos : 0 < u. Proof. apply two_to_pos. Qed.
Lemma round_small q : Qabs q <= two_to 1000 -> round (Fin q) = Fin (round_q q).
Proof.
  intro H. apply Qabs_Qle_condition in H. destruct H as [A B].
  assert (D : dyadic (two_to 1000)) by (exists 1%Z, 1000%Z; repeat split; lia || (unfold two_to; ring)).
  apply round_q_mono in A, B. rewrite (round_q_dyadic _ D) in B. rewrite (round_q_dyadic _ (dyadic_opp _ D)) in A.
  assert (T : two_to 1000 < two_to 1024) by (apply Qpower_lt_compat_l; [lia|lra]).
  cbn [round]. destruct (qle (two_to 1024) (round_q q)) eqn:E1; [apply qle_iff in E1; lra|].
  destruct (qle (round_q q) (- two_to 1024)) eqn:E2; [apply qle_iff in E2; lra|]. reflexivity.
Qed.
Lemma round_q_slack q : Qabs (round_q q - q) <= u * Qabs q + two_to (-1075).
Proof.
  destruct (Qlt_le_dec (Qabs q) (two_to (-1022))) as [S|B].
  - pose proof (Qabs_nonneg q) as N. pose proof u_pos. pose proof (two_to_pos (-1075)) as P5. assert (G0 : 0 <= u * Qabs q) by nra.
    destruct (Qeq_dec q 0) as [Z|NZ]; [rewrite (round_q_0 q Z); setoid_replace (0 - q) with 0 by lra; change (Qabs 0) with 0; lra|].
    assert (PA : 0 < Qabs q). { destruct (Qlt_le_dec 0 (Qabs q)) as [G|G]; [exact G|]. exfalso. apply NZ. pose proof (Qle_Qabs q). pose proof (Qle_Qabs (- q)) as B. rewrite Qabs_opp in B. lra. }
    apply Qle_trans with (two_to (last_digit q - 1)); [apply round_q_error|].
    assert (L : last_digit q = (-1074)%Z).
    { unfold last_digit. destruct (log2_spec (Qabs q) PA) as [A _]. destruct (Z_le_gt_dec (log2 (Qabs q)) (-1023)) as [G|G]; [lia|exfalso].
      assert (two_to (-1022) <= two_to (log2 (Qabs q))) by (apply two_to_le; lia). lra. }
    rewrite L. change (-1074 - 1)%Z with (-1075)%Z. lra.
  - pose proof (round_q_relative q B). pose proof (two_to_pos (-1075)). lra.
Qed.

Definition asum (l : list Q) : Q := qsum (map Qabs l).
Lemma asum_nonneg l : 0 <= asum l.
Proof. induction l as [|a l IH]; [unfold asum; simpl; lra|]. change (asum (a :: l)) with (Qabs a + asum l). pose proof (Qabs_nonneg a). lra. Qed.
Lemma fin_fold l : forall s V A k, Forall dyadic l -> dyadic s -> Qabs (s - V) <= 2 * inject_Z (Z.of_nat k) * u * A -> Qabs V <= A -> 0 <= A ->
  2 * inject_Z (Z.of_nat (k + length l)) * u <= 1 -> A + asum l <= two_to 900 ->
  exists r, fold_left fadd (map Fin l) (Fin s) = Fin r /\ dyadic r /\ Qabs (r - (V + qsum l)) <= 2 * inject_Z (Z.of_nat (k + length l)) * u * (A + asum l).
Proof.
  induction l as [|v l IH]; intros s V A k DL DS E BV A0 K SZ.
  - exists s. repeat split; [exact DS|]. change (qsum []) with 0. change (asum []) with 0. rewrite Nat.add_0_r.
    setoid_replace (s - (V + 0)) with (s - V) by ring. setoid_replace (A + 0) with A by ring. exact E.
  - inversion DL as [|? ? DV DL']; subst. pose proof u_pos as U0. pose proof (asum_nonneg l) as AL. pose proof (Qabs_nonneg v) as AV.
    change (asum (v :: l)) with (Qabs v + asum l) in *. change (qsum (v :: l)) with (v + qsum l).
    assert (KK : inject_Z (Z.of_nat (k + length (v :: l))) == inject_Z (Z.of_nat k) + 1 + inject_Z (Z.of_nat (length l))).
    { cbn [length]. replace (Z.of_nat (k + S (length l))) with (Z.of_nat k + 1 + Z.of_nat (length l))%Z by lia. now rewrite !inject_Z_plus. }
    rewrite KK in K. set (x := inject_Z (Z.of_nat k)) in *. set (n := inject_Z (Z.of_nat (length l))) in *.
    assert (x0 : 0 <= x) by (unfold x; change 0 with (inject_Z 0); rewrite <- Zle_Qle; lia).
    assert (n0 : 0 <= n) by (unfold n; change 0 with (inject_Z 0); rewrite <- Zle_Qle; lia).
    assert (XK : 2 * x * u <= 1) by nra.
    pose proof (add_error s v DS DV) as ER.
    assert (SV : Qabs (s + v) <= 2 * A + Qabs v).
    { pose proof (Qabs_triangle (s - V) (V + v)) as T1. setoid_replace (s - V + (V + v)) with (s + v) in T1 by ring. pose proof (Qabs_triangle V v) as T2.
      assert (2 * x * u * A <= 1 * A) by (apply Qmult_le_compat_r; assumption). lra. }
    assert (SV2 : Qabs (s + v) <= 2 * x * u * A + (A + Qabs v)).
    { pose proof (Qabs_triangle (s - V) (V + v)) as T1. setoid_replace (s - V + (V + v)) with (s + v) in T1 by ring. pose proof (Qabs_triangle V v) as T2. lra. }
    assert (T900 : two_to 900 * 2 <= two_to 1000). { assert (two_to 900 * 2 == two_to 901) as -> by (change 901%Z with (900 + 1)%Z; rewrite two_to_succ; ring). apply two_to_le. lia. }
    cbn [map fold_left]. unfold fadd at 2. cbn [nadd]. rewrite (round_small (s + v)) by lra.
    destruct (IH (round_q (s + v)) (V + v) (A + Qabs v) (S k)) as (r & R & DR & RB); try assumption.
    + apply round_q_is_dyadic.
    + pose proof (Qabs_triangle (round_q (s + v) - (s + v)) (s - V)) as T. setoid_replace (round_q (s + v) - (s + v) + (s - V)) with (round_q (s + v) - (V + v)) in T by ring.
      assert (XS : inject_Z (Z.of_nat (S k)) == x + 1). { replace (Z.of_nat (S k)) with (Z.of_nat k + 1)%Z by lia. now rewrite inject_Z_plus. } rewrite XS.
      assert (u * Qabs (s + v) <= u * (2 * x * u * A + (A + Qabs v))) by (apply Qmult_le_l; [exact U0|exact SV2]).
      assert (u * (2 * x * u * A) <= u * (1 * A)). { apply Qmult_le_l; [exact U0|]. apply Qmult_le_compat_r; assumption. }
      assert (0 <= x * u * Qabs v) by (apply Qmult_le_0_compat; [apply Qmult_le_0_compat; lra|exact AV]).
      assert (0 <= u * Qabs v) by (apply Qmult_le_0_compat; lra).
      setoid_replace (2 * (x + 1) * u * (A + Qabs v)) with (2 * x * u * A + 2 * (u * A) + 2 * (x * u * Qabs v) + 2 * (u * Qabs v)) by ring. lra.
    + pose proof (Qabs_triangle V v). lra.
    + lra.
    + replace (S k + length l)%nat with (k + length (v :: l))%nat by (cbn [length]; lia). rewrite KK. exact K.
    + lra.
    + exists r. split; [exact R|]. split; [exact DR|]. replace (k + length (v :: l))%nat with (S k + length l)%nat by (cbn [length]; lia).
      setoid_replace (V + (v + qsum l)) with (V + v + qsum l) by ring. setoid_replace (A + (Qabs v + asum l)) with (A + Qabs v + asum l) by ring. exact RB.
Qed.
Lemma fsum_error l : Forall dyadic l -> 2 * inject_Z (Z.of_nat (length l)) * u <= 1 -> asum l <= two_to 900 ->
  exists r, fsum (map Fin l) = Fin r /\ dyadic r /\ Qabs (r - qsum l) <= 2 * inject_Z (Z.of_nat (length l)) * u * asum l.
Proof.
  intros D N S. destruct (fin_fold l 0 0 0 0 D dyadic_0) as (r & R & DR & E).
  - change (Qabs (0 - 0)) with 0. lra.
  - change (Qabs 0) with 0. lra.
  - lra.
  - exact N.
  - pose proof (asum_nonneg l). lra.
  - exists r. repeat split; [exact R|exact DR|]. cbn [Nat.add] in E. setoid_replace (0 + qsum l) with (qsum l) in E by ring. setoid_replace (0 + asum l) with (asum l) in E by ring. exact E.
Qed.

(* ----- the rules of a sample ----- *)
Definition pterm (r : option Q * Q) : Q := match fst r with Some p => round_q (p * snd r) | None => 0 end.
Definition wterm (r : option Q * Q) : Q := match fst r with Some _ => snd r | None => 0 end.
Definition psum (rs : list (option Q * Q)) : Q := qsum (map (fun v => fst v * snd v) (voting rs)).
Definition wsum (rs : list (option Q * Q)) : Q := qsum (map snd (voting rs)).

Lemma product_error p t : (two_to (-100) <= t <= two_to 100) -> p == 0 \/ two_to (-900) <= Qabs p <= two_to 500 ->
  fmul (Fin p) (Fin t) = Fin (round_q (p * t)) /\ Qabs (round_q (p * t) - p * t) <= u * (Qabs p * t).
Proof.
  intros [T1 T2] HP. pose proof (two_to_pos (-100)) as P1. pose proof u_pos as U.
  assert (AT : Qabs t == t) by (apply Qabs_pos; lra).
  assert (AB : Qabs (p * t) == Qabs p * t) by (rewrite Qabs_Qmult, AT; reflexivity).
  destruct HP as [Z|[A B]].
  - assert (E : p * t == 0) by (rewrite Z; ring). split.
    + unfold fmul. cbn [nmul]. apply round_small. rewrite E. change (Qabs 0) with 0. pose proof (two_to_pos 1000). lra.
    + rewrite (round_q_0 _ E). setoid_replace (0 - p * t) with 0 by lra. rewrite <- AB, E. change (Qabs 0) with 0. lra.
  - pose proof (two_to_pos (-900)) as P9. pose proof (two_to_pos 100) as P100. pose proof (two_to_pos 500) as P500. split.
    + unfold fmul. cbn [nmul]. apply round_small. rewrite AB.
      apply Qle_trans with (two_to 500 * two_to 100); [nra|]. rewrite <- two_to_plus. apply two_to_le. lia.
    + rewrite <- AB. apply round_q_relative. rewrite AB. apply Qle_trans with (two_to (-900) * two_to (-100)); [|nra].
      rewrite <- two_to_plus. apply two_to_le. lia.
Qed.
Lemma moderate_inv r : moderate r -> (dyadic (snd r) /\ two_to (-100) <= snd r <= two_to 100) /\
  match fst r with Some p => p == 0 \/ two_to (-900) <= Qabs p <= two_to 500 | None => True end.
Proof. exact (fun H => H). Qed.
Lemma pred_terms rs : Forall moderate rs ->
  map (fun r => match fst r with Some p => fmul p (snd r) | None => fmul (Fin 0) (snd r) end) (map given rs) = map Fin (map pterm rs) /\
  map (fun r => match fst r with Some _ => snd r | None => Fin 0 end) (map given rs) = map Fin (map wterm rs).
Proof.
  induction 1 as [|[[p|] t] rs H F [IH1 IH2]]; [split; reflexivity| |]; cbn [map]; rewrite IH1, IH2; apply moderate_inv in H; destruct H as [[D T] H]; cbn [fst snd] in *;
    split; f_equal; cbn [given option_map fst snd pterm wterm]; try reflexivity.
  now apply product_error.
Qed.
Lemma term_dyadic rs : Forall moderate rs -> Forall dyadic (map pterm rs) /\ Forall dyadic (map wterm rs).
Proof.
  induction 1 as [|[[p|] t] rs H F [IH1 IH2]]; [split; constructor| |]; apply moderate_inv in H; destruct H as [[D T] H]; cbn [map pterm wterm fst snd] in *;
    split; constructor; try assumption; try apply round_q_is_dyadic; apply dyadic_0.
Qed.
Lemma weights_sum rs : Forall moderate rs -> qsum (map wterm rs) == wsum rs /\ asum (map wterm rs) == wsum rs /\ 0 <= wsum rs <= inject_Z (Z.of_nat (length rs)) * two_to 100.
Proof.
  induction 1 as [|[[p|] t] rs H F (IH1 & IH2 & IH3)].
  - change (wsum []) with 0. change (inject_Z (Z.of_nat (length (@nil (option Q * Q))))) with 0. repeat split; try reflexivity; lra.
  - apply moderate_inv in H. destruct H as [[D T] H]. cbn [fst snd] in *. pose proof (two_to_pos (-100)).
    assert (L : inject_Z (Z.of_nat (length ((Some p, t) :: rs))) == inject_Z (Z.of_nat (length rs)) + 1).
    { cbn [length]. replace (Z.of_nat (S (length rs))) with (Z.of_nat (length rs) + 1)%Z by lia. now rewrite inject_Z_plus. }
    change (wsum ((Some p, t) :: rs)) with (t + wsum rs). cbn [map wterm fst snd]. change (qsum (t :: map wterm rs)) with (t + qsum (map wterm rs)).
    change (asum (t :: map wterm rs)) with (Qabs t + asum (map wterm rs)). rewrite (Qabs_pos t) by lra. rewrite IH1, IH2, L. repeat split; lra.
  - pose proof (two_to_pos 100).
    assert (L : inject_Z (Z.of_nat (length ((@None Q, t) :: rs))) == inject_Z (Z.of_nat (length rs)) + 1).
    { cbn [length]. replace (Z.of_nat (S (length rs))) with (Z.of_nat (length rs) + 1)%Z by lia. now rewrite inject_Z_plus. }
    change (wsum ((None, t) :: rs)) with (wsum rs). cbn [map wterm fst snd]. change (qsum (0 :: map wterm rs)) with (0 + qsum (map wterm rs)).
    change (asum (0 :: map wterm rs)) with (0 + asum (map wterm rs)). rewrite IH1, IH2, L. repeat split; lra.
Qed.
Lemma preds_sum M rs : Forall moderate rs -> Forall (fun v => Qabs (fst v) <= M) (voting rs) ->
  Qabs (qsum (map pterm rs) - psum rs) <= u * (M * wsum rs) /\ asum (map pterm rs) <= (1 + u) * (M * wsum rs) /\ Qabs (psum rs) <= M * wsum rs.
Proof.
  pose proof u_pos as U. induction 1 as [|[[p|] t] rs H F IH]; intros B.
  - unfold wsum, psum, asum. simpl. change (Qabs (0 - 0)) with 0. change (Qabs 0) with 0. repeat split; lra.
  - cbn [voting] in B. inversion B as [|? ? B0 B']; subst. cbn [fst] in B0. destruct (IH B') as (I1 & I2 & I3).
    apply moderate_inv in H. destruct H as [[D T] H]. cbn [fst snd] in *. pose proof (two_to_pos (-100)) as P1.
    destruct (product_error p t T H) as [_ E].
    change (wsum ((Some p, t) :: rs)) with (t + wsum rs). change (psum ((Some p, t) :: rs)) with (p * t + psum rs). cbn [map pterm fst snd].
    change (qsum (round_q (p * t) :: map pterm rs)) with (round_q (p * t) + qsum (map pterm rs)).
    change (asum (round_q (p * t) :: map pterm rs)) with (Qabs (round_q (p * t)) + asum (map pterm rs)).
    assert (PT : Qabs p * t <= M * t) by (apply Qmult_le_compat_r; lra).
    assert (UPT : u * (Qabs p * t) <= u * (M * t)) by (apply Qmult_le_l; lra).
    assert (AB : Qabs (p * t) == Qabs p * t) by (rewrite Qabs_Qmult, (Qabs_pos t) by lra; reflexivity).
    setoid_replace (M * (t + wsum rs)) with (M * t + M * wsum rs) by ring. repeat split.
    + setoid_replace (round_q (p * t) + qsum (map pterm rs) - (p * t + psum rs)) with (round_q (p * t) - p * t + (qsum (map pterm rs) - psum rs)) by ring.
      pose proof (Qabs_triangle (round_q (p * t) - p * t) (qsum (map pterm rs) - psum rs)). lra.
    + pose proof (Qabs_triangle (round_q (p * t) - p * t) (p * t)) as T1. setoid_replace (round_q (p * t) - p * t + p * t) with (round_q (p * t)) in T1 by ring. lra.
    + pose proof (Qabs_triangle (p * t) (psum rs)). lra.
  - cbn [voting] in B. destruct (IH B) as (I1 & I2 & I3). change (wsum ((None, t) :: rs)) with (wsum rs). change (psum ((None, t) :: rs)) with (psum rs). cbn [map pterm fst snd].
    change (qsum (0 :: map pterm rs)) with (0 + qsum (map pterm rs)). change (asum (0 :: map pterm rs)) with (0 + asum (map pterm rs)).
    setoid_replace (0 + qsum (map pterm rs) - psum rs) with (qsum (map pterm rs) - psum rs) by ring. repeat split; lra.
Qed.
Lemma wsum_pos rs : Forall moderate rs -> voting rs <> [] -> two_to (-100) <= wsum rs.
Proof.
  intros F. pose proof (two_to_pos (-100)) as P. induction F as [|[[p|] t] rs H F IH]; intros N; [contradiction| |].
  - change (wsum ((Some p, t) :: rs)) with (t + wsum rs). destruct (weights_sum rs F) as (_ & _ & W & _). apply moderate_inv in H. destruct H as [[D T] H]. cbn [fst snd] in *. lra.
  - apply IH. exact N.
Qed.

Lemma mix_error rs M : Forall moderate rs -> (Z.of_nat (length rs) <= 2 ^ 50)%Z -> voting rs <> [] -> M <= two_to 500 -> Forall (fun v => Qabs (fst v) <= M) (voting rs) ->
  exists out, fmix (map given rs) = Fin out /\
    Qabs (out - weighted_mean (voting rs)) <= (6 * inject_Z (Z.of_nat (length rs)) + 5) * u * M + two_to (-1075).
Proof.
  intros F LN NE HM HB. pose proof u_pos as U.
  destruct (pred_terms rs F) as [E1 E2]. destruct (term_dyadic rs F) as [D1 D2]. destruct (weights_sum rs F) as (W1 & W2 & W3 & W4).
  destruct (preds_sum M rs F HB) as (P1 & P2 & P3).
  pose proof (wsum_pos rs F NE) as WP. pose proof (two_to_pos (-100)) as PP.
  set (n := inject_Z (Z.of_nat (length rs))) in *. set (T := wsum rs) in *. set (P := psum rs) in *.
  assert (n0 : 0 <= n) by (unfold n; change 0 with (inject_Z 0); rewrite <- Zle_Qle; lia).
  assert (n1 : n <= inject_Z (2 ^ 50)) by (unfold n; rewrite <- Zle_Qle; exact LN).
  assert (U50 : inject_Z (2 ^ 50) * u == 1 # 8) by reflexivity.
  assert (NU : n * u <= 1 # 8). { rewrite <- U50. apply Qmult_le_compat_r; lra. }
  assert (M0 : 0 <= M). { destruct (voting rs) as [|v vs] eqn:EV; [congruence|]. inversion HB; subst. pose proof (Qabs_nonneg (fst v)). lra. }
  assert (U1 : u <= 1 # 8) by (change u with (two_to (-53)); assert (two_to (-53) <= two_to (-3)) by (apply two_to_le; lia); change (1 # 8) with (two_to (-3)); assumption).
  (* sizes *)
  assert (T150 : T <= two_to 150).
  { apply Qle_trans with (n * two_to 100); [exact W4|]. assert (inject_Z (2 ^ 50) == two_to 50) as I by reflexivity. rewrite I in n1.
    change 150%Z with (50 + 100)%Z. rewrite two_to_plus. apply Qmult_le_compat_r; [exact n1|]. pose proof (two_to_pos 100). lra. }
  assert (A1 : asum (map wterm rs) <= two_to 900). { rewrite W2. apply Qle_trans with (two_to 150); [exact T150|apply two_to_le; lia]. }
  assert (A2 : asum (map pterm rs) <= two_to 900).
  { apply Qle_trans with ((1 + u) * (two_to 500 * T)).
    { apply Qle_trans with ((1 + u) * (M * T)); [exact P2|]. apply Qmult_le_l; [lra|]. apply Qmult_le_compat_r; lra. }
    pose proof (two_to_pos 500) as P5. pose proof (two_to_pos 150) as P15.
    assert (two_to 500 * T <= two_to 500 * two_to 150) by (apply Qmult_le_l; lra). rewrite <- two_to_plus in H. change (500 + 150)%Z with 650%Z in H.
    assert (0 <= two_to 500 * T) by (apply Qmult_le_0_compat; lra).
    assert ((1 + u) * (two_to 500 * T) <= 2 * two_to 650) by nra. assert (2 * two_to 650 == two_to 651) as S by (change 651%Z with (650 + 1)%Z; now rewrite two_to_succ).
    rewrite S in *. apply Qle_trans with (two_to 651); [assumption|apply two_to_le; lia]. }
  destruct (fsum_error (map pterm rs) D1) as (pr & R1 & DP & EP); [rewrite map_length; fold n; lra|exact A2|].
  destruct (fsum_error (map wterm rs) D2) as (to & R2 & DT & ET); [rewrite map_length; fold n; lra|exact A1|].
  rewrite map_length in EP, ET. fold n in EP, ET. rewrite W1, W2 in ET.
  (* the two sums *)
  assert (MT0 : 0 <= M * T) by (apply Qmult_le_0_compat; lra).
  assert (EPR : Qabs (pr - P) <= (2 * n + 2) * u * (M * T)).
  { pose proof (Qabs_triangle (pr - qsum (map pterm rs)) (qsum (map pterm rs) - P)) as TR. setoid_replace (pr - qsum (map pterm rs) + (qsum (map pterm rs) - P)) with (pr - P) in TR by ring.
    assert (2 * n * u * asum (map pterm rs) <= 2 * n * u * ((1 + u) * (M * T))).
    { rewrite (Qmult_comm (2 * n * u)), (Qmult_comm (2 * n * u)). apply Qmult_le_compat_r; [exact P2|]. nra. }
    assert (2 * n * u * ((1 + u) * (M * T)) <= 2 * n * u * (M * T) + u * (M * T)).
    { setoid_replace (2 * n * u * ((1 + u) * (M * T))) with (2 * n * u * (M * T) + (2 * (n * u)) * (u * (M * T))) by ring.
      assert (0 <= u * (M * T)) by (apply Qmult_le_0_compat; lra). nra. }
    setoid_replace ((2 * n + 2) * u * (M * T)) with (2 * n * u * (M * T) + u * (M * T) + u * (M * T)) by ring. lra. }
  assert (ETO : Qabs (to - T) <= 2 * (n * u) * T) by (setoid_replace (2 * (n * u) * T) with (2 * n * u * T) by ring; exact ET).
  assert (TO : (3 # 4) * T <= to).
  { apply Qabs_Qle_condition in ETO. assert (2 * (n * u) * T <= (1 # 4) * T) by (apply Qmult_le_compat_r; lra). lra. }
  assert (to0 : 0 < to) by lra.
  assert (QE : Qabs (pr / to - P / T) <= (16 # 3) * n * u * M + (8 # 3) * u * M).
  { assert (EQ : pr / to - P / T == ((pr - P) * T + P * (T - to)) / (to * T)) by (field; split; lra).
    rewrite EQ. unfold Qdiv. rewrite Qabs_Qmult. assert (TT : 0 < to * T) by nra. rewrite (Qabs_pos (/ (to * T))) by (apply Qlt_le_weak, Qinv_lt_0_compat; exact TT).
    apply Qle_shift_div_r; [exact TT|].
    pose proof (Qabs_triangle ((pr - P) * T) (P * (T - to))) as TR. rewrite !Qabs_Qmult in TR. rewrite (Qabs_pos T) in TR by lra.
    assert (X1 : Qabs (pr - P) * T <= (2 * n + 2) * u * (M * T) * T) by (apply Qmult_le_compat_r; lra).
    assert (AT : Qabs (T - to) == Qabs (to - T)) by (setoid_replace (T - to) with (- (to - T)) by ring; apply Qabs_opp). rewrite AT in TR.
    assert (X2 : Qabs P * Qabs (to - T) <= M * T * (2 * (n * u) * T)).
    { apply Qle_trans with (M * T * Qabs (to - T)); [apply Qmult_le_compat_r; [exact P3|apply Qabs_nonneg]|]. rewrite (Qmult_comm (M * T)), (Qmult_comm (M * T)). apply Qmult_le_compat_r; assumption. }
    assert (X3 : (2 * n + 2) * u * (M * T) * T + M * T * (2 * (n * u) * T) == (4 * n * u * M + 2 * u * M) * (T * T)) by ring.
    assert (X4 : T * T <= (4 # 3) * (to * T)) by nra.
    assert (C0 : 0 <= 4 * n * u * M + 2 * u * M).
    { assert (0 <= n * u * M) by (apply Qmult_le_0_compat; [nra|lra]). assert (0 <= u * M) by (apply Qmult_le_0_compat; lra). lra. }
    assert (X5 : (4 * n * u * M + 2 * u * M) * (T * T) <= (4 * n * u * M + 2 * u * M) * ((4 # 3) * (to * T))).
    { rewrite (Qmult_comm _ (T * T)), (Qmult_comm _ ((4 # 3) * (to * T))). apply Qmult_le_compat_r; assumption. }
    assert (X6 : (4 * n * u * M + 2 * u * M) * ((4 # 3) * (to * T)) == ((16 # 3) * n * u * M + (8 # 3) * u * M) * (to * T)) by ring. lra. }
  assert (UM : 0 <= u * M) by (apply Qmult_le_0_compat; lra).
  assert (NUM : n * u * M <= (1 # 8) * M) by (apply Qmult_le_compat_r; assumption).
  assert (NUM0 : 0 <= n * u * M) by (apply Qmult_le_0_compat; [nra|lra]).
  assert (UM8 : u * M <= (1 # 8) * M) by (apply Qmult_le_compat_r; assumption).
  assert (PTM : Qabs (P / T) <= M).
  { unfold Qdiv. rewrite Qabs_Qmult, (Qabs_pos (/ T)) by (apply Qlt_le_weak, Qinv_lt_0_compat; lra). apply Qle_shift_div_r; [lra|exact P3]. }
  assert (SZ : Qabs (pr / to) <= M + ((16 # 3) * n * u * M + (8 # 3) * u * M)).
  { pose proof (Qabs_triangle (pr / to - P / T) (P / T)) as TR. setoid_replace (pr / to - P / T + P / T) with (pr / to) in TR by ring. lra. }
  assert (SZ2 : Qabs (pr / to) <= 2 * M) by lra.
  assert (SZ3 : Qabs (pr / to) <= two_to 1000).
  { apply Qle_trans with (2 * two_to 500); [lra|]. rewrite <- (two_to_succ 500). apply two_to_le. lia. }
  assert (NZ : neqb (Fin to) (Fin 0) = false). { cbn [neqb]. apply Bool.not_true_is_false. intros E. apply qeq_iff in E. lra. }
  exists (round_q (pr / to)). split.
  - unfold fmix. rewrite E1, E2, R1, R2. rewrite NZ. unfold fdiv. cbn [ndiv]. cbn [neqb] in NZ. rewrite NZ. now apply round_small.
  - change (weighted_mean (voting rs)) with (P / T).
    pose proof (round_q_slack (pr / to)) as RS.
    pose proof (Qabs_triangle (round_q (pr / to) - pr / to) (pr / to - P / T)) as TR.
    setoid_replace (round_q (pr / to) - pr / to + (pr / to - P / T)) with (round_q (pr / to) - P / T) in TR by ring.
    assert (U2 : u * Qabs (pr / to) <= u * (2 * M)) by (apply Qmult_le_l; lra). lra.
Qed.

Lemma mix_close rs M : Forall moderate rs -> (Z.of_nat (length rs) <= 2 ^ 50)%Z -> voting rs <> [] -> Forall (fun v => Qabs (fst v) <= M) (voting rs) ->
  exists out, fmix (map given rs) = Fin out /\
    Qabs (out - weighted_mean (voting rs)) <= (6 * inject_Z (Z.of_nat (length rs)) + 5) * u * M + two_to (-1075).
Proof.
  intros F LN NE HB. destruct (Qlt_le_dec (two_to 500) M) as [G|G]; [|now apply mix_error].
  assert (B500 : Forall (fun v => Qabs (fst v) <= two_to 500) (voting rs)).
  { clear - F. induction F as [|[[p|] t] rs H F IH]; cbn [voting]; [constructor| |exact IH]. constructor; [|exact IH]. cbn [fst]. apply moderate_inv in H. destruct H as [_ H]. cbn [fst] in H.
    pose proof (two_to_pos 500). destruct H as [Z|[_ H]]; [|exact H]. setoid_replace p with 0 by exact Z. change (Qabs 0) with 0. lra. }
  destruct (mix_error rs (two_to 500) F LN NE (Qle_refl _) B500) as (out & E & D). exists out. split; [exact E|].
  assert (n0 : 0 <= inject_Z (Z.of_nat (length rs))) by (change 0 with (inject_Z 0); rewrite <- Zle_Qle; lia).
  pose proof u_pos as U. assert (C : 0 <= (6 * inject_Z (Z.of_nat (length rs)) + 5) * u) by (apply Qmult_le_0_compat; lra).
  assert ((6 * inject_Z (Z.of_nat (length rs)) + 5) * u * two_to 500 <= (6 * inject_Z (Z.of_nat (length rs)) + 5) * u * M).
  { rewrite (Qmult_comm _ (two_to 500)), (Qmult_comm _ M). apply Qmult_le_compat_r; lra. }
  lra.
Qed.
Lemma mean_between lo hi votes : votes <> [] -> Forall (fun v => 0 < snd v) votes -> Forall (fun v => lo <= fst v <= hi) votes -> lo <= weighted_mean votes <= hi.
Proof.
  intros NE W B. unfold weighted_mean.
  assert (G : lo * qsum (map snd votes) <= qsum (map (fun v => fst v * snd v) votes) <= hi * qsum (map snd votes) /\ (votes <> [] -> 0 < qsum (map snd votes)) /\ 0 <= qsum (map snd votes)).
  { clear NE. induction votes as [|v vs IH]; [cbn; repeat split; try lra; congruence|]. inversion W as [|? ? W0 W']; inversion B as [|? ? B0 B']; subst. destruct (IH W' B') as (I1 & _ & I2).
    cbn [map]. change (qsum (snd v :: map snd vs)) with (snd v + qsum (map snd vs)). change (qsum (fst v * snd v :: map (fun v => fst v * snd v) vs)) with (fst v * snd v + qsum (map (fun v => fst v * snd v) vs)).
    assert (lo * snd v <= fst v * snd v) by (apply Qmult_le_compat_r; lra). assert (fst v * snd v <= hi * snd v) by (apply Qmult_le_compat_r; lra).
    rewrite !Qmult_plus_distr_r. split; [split; lra|split; [intros _; lra|lra]]. }
  destruct G as ([G1 G2] & G3 & _). specialize (G3 NE). split; [apply Qle_shift_div_l|apply Qle_shift_div_r]; assumption.
Qed.
Lemma mix_between rs lo hi M : Forall moderate rs -> (Z.of_nat (length rs) <= 2 ^ 50)%Z -> voting rs <> [] -> Forall (fun v => lo <= fst v <= hi) (voting rs) ->
  - M <= lo -> hi <= M ->
  exists out, fmix (map given rs) = Fin out /\
    let slack := (6 * inject_Z (Z.of_nat (length rs)) + 5) * u * M + two_to (-1075) in lo - slack <= out <= hi + slack.
Proof.
  intros F LN NE HB L H.
  assert (B : Forall (fun v => Qabs (fst v) <= M) (voting rs)).
  { eapply Forall_impl; [|exact HB]. intros v [A B]. apply Qabs_Qle_condition. lra. }
  destruct (mix_close rs M F LN NE B) as (out & E & D). exists out. split; [exact E|]. cbv zeta.
  assert (W : Forall (fun v => 0 < snd v) (voting rs)).
  { clear - F. pose proof (two_to_pos (-100)). induction F as [|[[p|] t] rs H1 F IH]; cbn [voting]; [constructor| |exact IH]. constructor; [|exact IH]. apply moderate_inv in H1. cbn [fst snd] in *. lra. }
  pose proof (mean_between lo hi _ NE W HB) as MB. apply Qabs_Qle_condition in D. lra.
Qed.
