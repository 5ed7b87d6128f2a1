(* Facts about rounding to double precision. *)
From Coq Require Import Qpower Qfield Lqa.
From Verif Require Import PyNum PyFloat S_Float L_Num.

Lemma two_to_pos e : 0 < two_to e.
Proof. apply Qpower_0_lt; lra. Qed.
Lemma two_to_nz e : ~ two_to e == 0.
Proof. pose proof (two_to_pos e); lra. Qed.
Lemma two_to_plus a b : two_to (a + b) == two_to a * two_to b.
Proof. apply Qpower_plus; lra. Qed.
Lemma two_to_le a b : (a <= b)%Z -> two_to a <= two_to b.
Proof. intro H. apply Qpower_le_compat_l; [exact H | lra]. Qed.
Lemma two_to_int n : (0 <= n)%Z -> two_to n == inject_Z (2 ^ n).
Proof. intro H. unfold two_to. rewrite Zpower_Qpower by exact H. reflexivity. Qed.
Lemma two_to_succ a : two_to (a + 1) == 2 * two_to a.
Proof. rewrite two_to_plus. change (two_to 1) with (2 # 1). ring. Qed.

Lemma nearest_near q : Qabs (inject_Z (nearest q) - q) <= 1 # 2.
Proof.
  unfold nearest. pose proof (Qfloor_le q) as L. pose proof (Qlt_floor q) as U.
  rewrite inject_Z_plus in U. change (inject_Z 1) with 1 in U.
  destruct (qlt (q - inject_Z (Qfloor q)) (1 # 2)) eqn:A.
  - apply qlt_iff in A. apply Qabs_Qle_condition. split; lra.
  - assert (1 # 2 <= q - inject_Z (Qfloor q)).
    { destruct (Qlt_le_dec (q - inject_Z (Qfloor q)) (1 # 2)) as [G|G]; [|exact G]. apply qlt_iff in G. congruence. }
    destruct (qlt (1 # 2) (q - inject_Z (Qfloor q))) eqn:B.
    + rewrite inject_Z_plus. change (inject_Z 1) with 1. apply Qabs_Qle_condition. split; lra.
    + assert (q - inject_Z (Qfloor q) <= 1 # 2).
      { destruct (Qlt_le_dec (1 # 2) (q - inject_Z (Qfloor q))) as [G|G]; [|exact G]. apply qlt_iff in G. congruence. }
      destruct (Z.even (Qfloor q)); [|rewrite inject_Z_plus; change (inject_Z 1) with 1]; apply Qabs_Qle_condition; split; lra.
Qed.
Lemma floor_eq x n : inject_Z n <= x -> x < inject_Z (n + 1) -> Qfloor x = n.
Proof.
  intros A B. pose proof (Qfloor_le x) as L. pose proof (Qlt_floor x) as U.
  assert (inject_Z n < inject_Z (Qfloor x + 1)) by lra. assert (inject_Z (Qfloor x) < inject_Z (n + 1)) by lra.
  rewrite <- Zlt_Qlt in *. lia.
Qed.
Lemma nearest_int x n : x == inject_Z n -> nearest x = n.
Proof.
  intro H. assert (F : Qfloor x = n). { apply floor_eq; rewrite ?inject_Z_plus; change (inject_Z 1) with 1; lra. }
  unfold nearest. rewrite F. replace (qlt (x - inject_Z n) (1 # 2)) with true; [reflexivity|]. symmetry. apply qlt_iff. lra.
Qed.
Lemma nearest_bounds x : (Qfloor x <= nearest x <= Qfloor x + 1)%Z.
Proof. unfold nearest. destruct (qlt _ _); [lia|]. destruct (qlt _ _); [lia|]. destruct (Z.even _); lia. Qed.
Lemma nearest_mono x y : x <= y -> (nearest x <= nearest y)%Z.
Proof.
  intro H. pose proof (nearest_bounds x) as A. pose proof (nearest_bounds y) as B. pose proof (Qfloor_resp_le _ _ H) as F.
  destruct (Z.eq_dec (Qfloor x) (Qfloor y)) as [E|E]; [|lia].
  unfold nearest in *. rewrite <- E in *. set (f := Qfloor x) in *.
  destruct (qlt (x - inject_Z f) (1 # 2)) eqn:A1; [lia|]. apply qlt_false in A1.
  destruct (qlt (y - inject_Z f) (1 # 2)) eqn:B1; [apply qlt_iff in B1; lra|].
  destruct (qlt (1 # 2) (y - inject_Z f)) eqn:B2; [lia|]. apply qlt_false in B2.
  destruct (qlt (1 # 2) (x - inject_Z f)) eqn:A2; [apply qlt_iff in A2; lra|]. lia.
Qed.

Lemma log2_spec q : 0 < q -> two_to (log2 q) <= q /\ q < two_to (log2 q + 1).
Proof.
  intro H. destruct q as [n d].
  assert (Hn : (0 < n)%Z). { unfold Qlt in H; simpl in H. lia. }
  destruct (Z.log2_spec n Hn) as [N1 N2]. destruct (Z.log2_spec (Zpos d) (eq_refl)) as [D1 D2].
  pose proof (Z.log2_nonneg n) as N0. pose proof (Z.log2_nonneg (Zpos d)) as D0.
  set (a := Z.log2 n) in *. set (b := Z.log2 (Zpos d)) in *.
  assert (EQ : (n # d) * inject_Z (Zpos d) == inject_Z n). { unfold Qeq; simpl. lia. }
  assert (P : 0 < inject_Z (Zpos d)) by (change 0 with (inject_Z 0); rewrite <- Zlt_Qlt; lia).
  rewrite Zle_Qle in N1, D1. rewrite Zlt_Qlt in N2, D2. rewrite <- Z.add_1_r in N2, D2.
  rewrite <- two_to_int in N1, N2, D1, D2 by lia.
  rewrite two_to_succ in N2, D2.
  assert (K : two_to (a - b) * two_to b == two_to a). { rewrite <- two_to_plus. replace (a - b + b)%Z with a by lia. reflexivity. }
  pose proof (two_to_pos (a - b)) as PK. pose proof (two_to_pos b) as PB.
  assert (UP : (n # d) < 2 * two_to (a - b)).
  { apply (Qmult_lt_r _ _ (inject_Z (Zpos d)) P). rewrite EQ. nra. }
  assert (LO : two_to (a - b) < 2 * (n # d)).
  { apply (Qmult_lt_r _ _ (inject_Z (Zpos d)) P). setoid_replace (2 * (n # d) * inject_Z (Zpos d)) with (2 * inject_Z n) by (rewrite <- EQ; ring). nra. }
  unfold log2. simpl Qnum. simpl Qden. fold a b.
  destruct (qle (two_to (a - b)) (n # d)) eqn:E.
  - apply qle_iff in E. rewrite two_to_succ. split; assumption.
  - apply qle_false in E. rewrite two_to_succ.
    assert (T : two_to (a - b) == 2 * two_to (a - b - 1)). { rewrite <- two_to_succ. replace (a - b - 1 + 1)%Z with (a - b)%Z by lia. reflexivity. }
    split; lra.
Qed.
Lemma log2_mono x y : 0 < x -> x <= y -> (log2 x <= log2 y)%Z.
Proof.
  intros H L. destruct (log2_spec x H) as [A _]. destruct (log2_spec y) as [_ B]; [lra|].
  destruct (Z_le_gt_dec (log2 x) (log2 y)) as [G|G]; [exact G|exfalso].
  assert (two_to (log2 y + 1) <= two_to (log2 x)) by (apply two_to_le; lia). lra.
Qed.
Lemma log2_compat x y : 0 < x -> x == y -> log2 x = log2 y.
Proof. intros H E. pose proof (log2_mono x y H). pose proof (log2_mono y x). lra || (assert (log2 x <= log2 y)%Z by (apply log2_mono; lra); assert (log2 y <= log2 x)%Z by (apply log2_mono; lra); lia). Qed.
Lemma round_q_def q : ~ q == 0 -> round_q q == inject_Z (nearest (q / two_to (last_digit q))) * two_to (last_digit q).
Proof. intro H. unfold round_q. destruct (qeq q 0) eqn:E; [apply qeq_iff in E; contradiction|]. apply Qred_correct. Qed.
Lemma round_q_0 q : q == 0 -> round_q q = 0.
Proof. intro H. unfold round_q. apply qeq_iff in H. rewrite H. reflexivity. Qed.
Lemma two_to_multiple k e : (e <= k)%Z -> two_to k == inject_Z (2 ^ (k - e)) * two_to e.
Proof. intro H. rewrite <- two_to_int by lia. rewrite <- two_to_plus. replace (k - e + e)%Z with k by lia. reflexivity. Qed.
Lemma round_q_le q c k : (last_digit q <= k)%Z -> q <= inject_Z c * two_to k -> round_q q <= inject_Z c * two_to k.
Proof.
  intros K H. destruct (Qeq_dec q 0) as [Z|N]; [rewrite (round_q_0 q Z); lra|].
  rewrite (round_q_def q N). set (e := last_digit q) in *. rewrite (two_to_multiple k e K) in *.
  pose proof (two_to_pos e) as P.
  assert (G : q / two_to e <= inject_Z (c * 2 ^ (k - e))).
  { apply Qle_shift_div_r; [exact P|]. rewrite inject_Z_mult. lra. }
  apply nearest_mono in G. rewrite (nearest_int (inject_Z (c * 2 ^ (k - e))) _ (Qeq_refl _)) in G.
  rewrite Zle_Qle, inject_Z_mult in G. rewrite Qmult_assoc. apply Qmult_le_compat_r; [exact G|lra].
Qed.
Lemma round_q_ge q c k : (last_digit q <= k)%Z -> inject_Z c * two_to k <= q -> inject_Z c * two_to k <= round_q q.
Proof.
  intros K H. destruct (Qeq_dec q 0) as [Z|N]; [rewrite (round_q_0 q Z); lra|].
  rewrite (round_q_def q N). set (e := last_digit q) in *. rewrite (two_to_multiple k e K) in *.
  pose proof (two_to_pos e) as P.
  assert (G : inject_Z (c * 2 ^ (k - e)) <= q / two_to e).
  { apply Qle_shift_div_l; [exact P|]. rewrite inject_Z_mult. lra. }
  apply nearest_mono in G. rewrite (nearest_int (inject_Z (c * 2 ^ (k - e))) _ (Qeq_refl _)) in G.
  rewrite Zle_Qle, inject_Z_mult in G. rewrite Qmult_assoc. apply Qmult_le_compat_r; [exact G|lra].
Qed.
Lemma round_q_neg q : q <= 0 -> round_q q <= 0.
Proof. intro H. pose proof (round_q_le q 0 (last_digit q) (Z.le_refl _)) as G. change (inject_Z 0) with 0 in G. lra. Qed.
Lemma round_q_pos q : 0 <= q -> 0 <= round_q q.
Proof. intro H. pose proof (round_q_ge q 0 (last_digit q) (Z.le_refl _)) as G. change (inject_Z 0) with 0 in G. lra. Qed.
Lemma round_q_same x y : ~ x == 0 -> ~ y == 0 -> x <= y -> last_digit x = last_digit y -> round_q x <= round_q y.
Proof.
  intros NX NY H E. rewrite (round_q_def x NX), (round_q_def y NY), E. pose proof (two_to_pos (last_digit y)) as P.
  apply Qmult_le_compat_r; [|lra]. rewrite <- Zle_Qle. apply nearest_mono. apply Qmult_le_compat_r; [exact H|]. apply Qinv_le_0_compat. lra.
Qed.
Lemma round_q_mono x y : x <= y -> round_q x <= round_q y.
Proof.
  intro H.
  destruct (Qlt_le_dec 0 x) as [PX|PX].
  - assert (AX : Qabs x == x) by (apply Qabs_pos; lra). assert (AY : Qabs y == y) by (apply Qabs_pos; lra).
    assert (LX : log2 (Qabs x) = log2 x) by (apply log2_compat; lra). assert (LY : log2 (Qabs y) = log2 y) by (apply log2_compat; lra).
    pose proof (log2_mono x y PX H) as M.
    destruct (Z.eq_dec (last_digit x) (last_digit y)) as [E|E]; [apply round_q_same; lra || exact E|].
    unfold last_digit in E. rewrite LX, LY in E. assert (log2 x < log2 y)%Z by lia.
    destruct (log2_spec x PX) as [_ U]. destruct (log2_spec y) as [D _]; [lra|].
    assert (T : two_to (log2 x + 1) <= two_to (log2 y)) by (apply two_to_le; lia).
    pose proof (round_q_le x 1 (log2 y)) as RX. pose proof (round_q_ge y 1 (log2 y)) as RY.
    unfold last_digit in RX, RY. rewrite LX in RX. rewrite LY in RY. change (inject_Z 1) with 1 in *.
    apply Qle_trans with (1 * two_to (log2 y)); [apply RX; [lia|lra]|apply RY; [lia|lra]].
  - destruct (Qlt_le_dec y 0) as [NY|NY].
    + assert (AX : Qabs x == - x) by (apply Qabs_neg; lra). assert (AY : Qabs y == - y) by (apply Qabs_neg; lra).
      assert (LX : log2 (Qabs x) = log2 (- x)) by (apply log2_compat; lra). assert (LY : log2 (Qabs y) = log2 (- y)) by (apply log2_compat; lra).
      assert (M : (log2 (- y) <= log2 (- x))%Z) by (apply log2_mono; lra).
      destruct (Z.eq_dec (last_digit x) (last_digit y)) as [E|E]; [apply round_q_same; lra || exact E|].
      unfold last_digit in E. rewrite LX, LY in E. assert (log2 (- y) < log2 (- x))%Z by lia.
      destruct (log2_spec (- y)) as [_ U]; [lra|]. destruct (log2_spec (- x)) as [D _]; [lra|].
      assert (T : two_to (log2 (- y) + 1) <= two_to (log2 (- x))) by (apply two_to_le; lia).
      pose proof (round_q_le x (-1) (log2 (- x))) as RX. pose proof (round_q_ge y (-1) (log2 (- x))) as RY.
      unfold last_digit in RX, RY. rewrite LX in RX. rewrite LY in RY. change (inject_Z (-1)) with (-(1)) in *.
      apply Qle_trans with (-(1) * two_to (log2 (- x))); [apply RX; [lia|lra]|apply RY; [lia|lra]].
    + apply Qle_trans with 0; [apply round_q_neg; exact PX|apply round_q_pos; exact NY].
Qed.
Lemma round_q_compat x y : x == y -> round_q x == round_q y.
Proof. intro H. apply Qle_antisym; apply round_q_mono; lra. Qed.
Lemma round_q_error q : Qabs (round_q q - q) <= two_to (last_digit q - 1).
Proof.
  destruct (Qeq_dec q 0) as [Z|N].
  - rewrite (round_q_0 q Z). pose proof (two_to_pos (last_digit q - 1)). setoid_replace (0 - q) with 0 by lra. change (Qabs 0) with 0. lra.
  - rewrite (round_q_def q N). set (u := two_to (last_digit q)). assert (P : 0 < u) by apply two_to_pos.
    assert (E : u == 2 * two_to (last_digit q - 1)). { unfold u. rewrite <- two_to_succ. replace (last_digit q - 1 + 1)%Z with (last_digit q) by lia. reflexivity. }
    setoid_replace (inject_Z (nearest (q / u)) * u - q) with ((inject_Z (nearest (q / u)) - q / u) * u) by (field; lra).
    rewrite Qabs_Qmult, (Qabs_pos u) by lra. pose proof (nearest_near (q / u)) as B.
    assert (Qabs (inject_Z (nearest (q / u)) - q / u) * u <= (1 # 2) * u) by (apply Qmult_le_compat_r; lra). lra.
Qed.
Lemma round_q_relative q : two_to (-1022) <= Qabs q -> Qabs (round_q q - q) <= two_to (-53) * Qabs q.
Proof.
  intro H. apply Qle_trans with (two_to (last_digit q - 1)); [apply round_q_error|].
  pose proof (two_to_pos (-1022)) as P. destruct (log2_spec (Qabs q)) as [A B]; [lra|].
  assert (L : (-1022 <= log2 (Qabs q))%Z).
  { destruct (Z_le_gt_dec (-1022) (log2 (Qabs q))) as [G|G]; [exact G|exfalso].
    assert (two_to (log2 (Qabs q) + 1) <= two_to (-1022)) by (apply two_to_le; lia). lra. }
  unfold last_digit. rewrite Z.max_r by lia. replace (log2 (Qabs q) - 52 - 1)%Z with (-53 + log2 (Qabs q))%Z by lia.
  rewrite two_to_plus. pose proof (two_to_pos (-53)). apply Qmult_le_l; assumption.
Qed.

(* ----- doubles ----- *)
Lemma last_digit_dyadic q m e : (Z.abs m < 2 ^ 53)%Z -> (-1074 <= e)%Z -> q == inject_Z m * two_to e -> (last_digit q <= e)%Z \/ q == 0.
Proof.
  intros M E H. destruct (Qeq_dec q 0) as [Z|N]; [now right|left].
  assert (P : 0 < Qabs q). { destruct (Qlt_le_dec 0 (Qabs q)) as [G|G]; [exact G|]. exfalso. apply N. pose proof (Qle_Qabs q). pose proof (Qle_Qabs (- q)) as B. rewrite Qabs_opp in B. lra. }
  destruct (log2_spec (Qabs q) P) as [A _].
  assert (U : Qabs q < two_to (53 + e)).
  { rewrite H, Qabs_Qmult, (Qabs_pos (two_to e)) by (pose proof (two_to_pos e); lra). rewrite two_to_plus.
    apply Qmult_lt_r; [apply two_to_pos|]. rewrite two_to_int by lia.
    change (Qabs (inject_Z m)) with (inject_Z (Z.abs m)). rewrite <- Zlt_Qlt. exact M. }
  assert (log2 (Qabs q) < 53 + e)%Z.
  { destruct (Z_lt_ge_dec (log2 (Qabs q)) (53 + e)) as [G|G]; [exact G|exfalso].
    assert (two_to (53 + e) <= two_to (log2 (Qabs q))) by (apply two_to_le; lia). lra. }
  unfold last_digit. lia.
Qed.
Lemma round_q_dyadic q : dyadic q -> round_q q == q.
Proof.
  intros (m & e & M & E & H). fold (two_to e) in H. destruct (last_digit_dyadic q m e M E H) as [L|Z].
  - apply Qle_antisym.
    + pose proof (round_q_le q m e L). lra.
    + pose proof (round_q_ge q m e L). lra.
  - rewrite (round_q_0 q Z). lra.
Qed.
Lemma nearest_size q : ~ q == 0 -> (Z.abs (nearest (q / two_to (last_digit q))) <= 2 ^ 53)%Z.
Proof.
  intro N. set (e := last_digit q). pose proof (two_to_pos e) as P.
  assert (PA : 0 < Qabs q). { destruct (Qlt_le_dec 0 (Qabs q)) as [G|G]; [exact G|]. exfalso. apply N. pose proof (Qle_Qabs q). pose proof (Qle_Qabs (- q)) as B. rewrite Qabs_opp in B. lra. }
  destruct (log2_spec (Qabs q) PA) as [_ U].
  assert (T : two_to (log2 (Qabs q) + 1) <= two_to (53 + e)) by (apply two_to_le; unfold e, last_digit; lia).
  rewrite (two_to_plus 53 e), (two_to_int 53) in T by lia.
  assert (B : Qabs q <= inject_Z (2 ^ 53) * two_to e) by lra. apply Qabs_Qle_condition in B. destruct B as [B1 B2].
  assert (G1 : q / two_to e <= inject_Z (2 ^ 53)) by (apply Qle_shift_div_r; assumption).
  assert (G2 : inject_Z (- 2 ^ 53) <= q / two_to e). { apply Qle_shift_div_l; [exact P|]. rewrite inject_Z_opp. lra. }
  apply nearest_mono in G1, G2. rewrite (nearest_int _ _ (Qeq_refl (inject_Z (2 ^ 53)))) in G1. rewrite (nearest_int _ _ (Qeq_refl (inject_Z (- 2 ^ 53)))) in G2. lia.
Qed.
Lemma dyadic_0 : dyadic 0.
Proof. exists 0%Z, 0%Z. repeat split; lia || reflexivity. Qed.
Lemma dyadic_compat p q : p == q -> dyadic p -> dyadic q.
Proof. intros H (m & e & M & E & G). exists m, e. repeat split; [exact M|exact E|rewrite <- H; exact G]. Qed.
Lemma round_q_is_dyadic q : dyadic (round_q q).
Proof.
  destruct (Qeq_dec q 0) as [Z|N]; [rewrite (round_q_0 q Z); exact dyadic_0|].
  apply dyadic_compat with (inject_Z (nearest (q / two_to (last_digit q))) * two_to (last_digit q)); [symmetry; apply round_q_def; exact N|].
  pose proof (nearest_size q N) as S. set (n := nearest _) in *. set (e := last_digit q). assert (E : (-1074 <= e)%Z) by (unfold e, last_digit; lia).
  destruct (Z.eq_dec (Z.abs n) (2 ^ 53)) as [B|B].
  - exists (Z.sgn n * 2 ^ 52)%Z, (e + 1)%Z. split; [|split; [lia|]].
    + destruct (Z.sgn_spec n) as [[A ->]|[[A ->]|[A ->]]]; lia.
    + fold (two_to (e + 1)). rewrite two_to_succ.
      assert (n = Z.sgn n * 2 ^ 52 * 2)%Z. { rewrite <- Z.mul_assoc. change (2 ^ 52 * 2)%Z with (2 ^ 53)%Z. rewrite <- B. lia. }
      rewrite H at 1. rewrite inject_Z_mult. change (inject_Z 2) with 2. ring.
  - exists n, e. repeat split; [lia|exact E].
Qed.

(* ----- rounding of num ----- *)
Lemma round_mono a b : nle a b = true -> nle (round a) (round b) = true.
Proof.
  intro H. destruct (nle_nonnan a b H) as [NA NB].
  destruct a as [x| | |], b as [y| | |]; try discriminate; try reflexivity; cbn [round].
  - simpl in H. apply qle_iff in H. apply round_q_mono in H.
    pose proof (two_to_pos 1024) as P. generalize dependent (two_to 1024). intros T P.
    destruct (qle T (round_q x)) eqn:A1; destruct (qle T (round_q y)) eqn:B1; try reflexivity;
      rewrite ?qle_iff, ?qle_false in *; try lra;
      destruct (qle (round_q x) (- T)) eqn:A2; destruct (qle (round_q y) (- T)) eqn:B2; try reflexivity; rewrite ?qle_iff, ?qle_false in *; try lra.
    simpl. now apply qle_iff.
  - destruct (qle _ _); [reflexivity|]. destruct (qle _ _); reflexivity.
  - destruct (qle _ (round_q y)); [reflexivity|]. destruct (qle (round_q y) _); reflexivity.
Qed.
Lemma round_double_eq q : double (Fin q) -> exists r, round (Fin q) = Fin r /\ r == q.
Proof.
  intros [D B]. apply round_q_dyadic in D. fold (two_to 1024) in B. cbn [round].
  apply Qabs_Qlt_condition in B. destruct B as [B1 B2].
  destruct (qle (two_to 1024) (round_q q)) eqn:A1; [apply qle_iff in A1; lra|].
  destruct (qle (round_q q) (- two_to 1024)) eqn:A2; [apply qle_iff in A2; lra|].
  exists (round_q q). auto.
Qed.
Lemma round_le_double a b : double b -> nle a b = true -> nle (round a) b = true.
Proof.
  intros D H. destruct b as [q| | |].
  - destruct (round_double_eq q D) as (r & R & E). apply round_mono in H. rewrite R in H.
    apply nle_trans with (Fin r); [exact H|]. simpl. apply qle_iff. lra.
  - apply round_mono in H. exact H.
  - apply round_mono in H. exact H.
  - destruct a; discriminate.
Qed.
Lemma round_ge_double a b : double a -> nle a b = true -> nle a (round b) = true.
Proof.
  intros D H. destruct a as [q| | |].
  - destruct (round_double_eq q D) as (r & R & E). apply round_mono in H. rewrite R in H.
    apply nle_trans with (Fin r); [|exact H]. simpl. apply qle_iff. lra.
  - apply round_mono in H. exact H.
  - apply round_mono in H. exact H.
  - discriminate.
Qed.
Lemma round_is_double a : double (round a).
Proof.
  destruct a as [q| | |]; cbn [round]; try exact I.
  destruct (qle (two_to 1024) (round_q q)) eqn:A; [exact I|]. destruct (qle (round_q q) (- two_to 1024)) eqn:B; [exact I|].
  apply qle_false in A, B. split; [apply round_q_is_dyadic|]. fold (two_to 1024). apply Qabs_Qlt_condition. split; assumption.
Qed.
Lemma round_nonnan a : is_nan (round a) = is_nan a.
Proof. destruct a as [q| | |]; try reflexivity. cbn [round]. destruct (qle _ _); [reflexivity|]. destruct (qle _ _); reflexivity. Qed.

Lemma nadd_nonneg_r a b : nle (Fin 0) b = true -> is_nan (nadd a b) = false -> nle a (nadd a b) = true.
Proof.
  destruct a as [x| | |], b as [y| | |]; simpl; intros H N; try discriminate; try reflexivity. apply qle_iff in H. apply qle_iff. lra.
Qed.
Lemma nsub_nonneg_r a b : nle (Fin 0) b = true -> is_nan (nsub a b) = false -> nle (nsub a b) a = true.
Proof.
  destruct a as [x| | |], b as [y| | |]; simpl; intros H N; try discriminate; try reflexivity. apply qle_iff in H. apply qle_iff. lra.
Qed.
Lemma fadd_grows a b : double a -> nle (Fin 0) b = true -> is_nan (fadd a b) = false -> nle a (fadd a b) = true.
Proof. intros D H N. unfold fadd in *. rewrite round_nonnan in N. apply round_ge_double; [exact D|]. now apply nadd_nonneg_r. Qed.
Lemma fsub_shrinks a b : double a -> nle (Fin 0) b = true -> is_nan (fsub a b) = false -> nle (fsub a b) a = true.
Proof. intros D H N. unfold fsub in *. rewrite round_nonnan in N. apply round_le_double; [exact D|]. now apply nsub_nonneg_r. Qed.
Lemma nadd_mono a b c : nle b c = true -> is_nan (nadd a b) = false -> is_nan (nadd a c) = false -> nle (nadd a b) (nadd a c) = true.
Proof. destruct a as [x| | |], b as [y| | |], c as [z| | |]; simpl; intros H N M; try discriminate; try reflexivity. apply qle_iff in H. apply qle_iff. lra. Qed.
Lemma nneg_mono b c : nle b c = true -> nle (nneg c) (nneg b) = true.
Proof. destruct b as [y| | |], c as [z| | |]; simpl; intros H; try discriminate; try reflexivity. apply qle_iff in H. apply qle_iff. lra. Qed.
Lemma fadd_mono a b c : nle b c = true -> is_nan (fadd a b) = false -> is_nan (fadd a c) = false -> nle (fadd a b) (fadd a c) = true.
Proof. unfold fadd. rewrite !round_nonnan. intros H N M. apply round_mono. now apply nadd_mono. Qed.
Lemma fsub_mono a b c : nle b c = true -> is_nan (fsub a b) = false -> is_nan (fsub a c) = false -> nle (fsub a c) (fsub a b) = true.
Proof. unfold fsub, nsub. rewrite !round_nonnan. intros H N M. apply round_mono. apply nadd_mono; [now apply nneg_mono|exact M|exact N]. Qed.
Lemma fdiv_pos a q : nle (Fin 0) a = true -> 0 < q -> nle (Fin 0) (fdiv a (Fin q)) = true.
Proof.
  intros H P. unfold fdiv. apply round_ge_double; [split; [exact dyadic_0|exact (two_to_pos 1024)]|].
  destruct a as [x| | |]; simpl in *; try discriminate.
  - destruct (qeq q 0) eqn:E; [apply qeq_iff in E; lra|]. simpl. apply qle_iff. apply qle_iff in H. apply Qle_shift_div_l; [exact P|lra].
  - destruct (qlt q 0) eqn:E; [apply qlt_iff in E; lra|reflexivity].
Qed.
