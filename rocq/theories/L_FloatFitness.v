(* Lemmas on volumes, errors and fitness values in double precision. *)
From Coq Require Import Permutation.
From Coq Require Import Lqa.
From Verif Require Import PyNum PyFloat PyList PyMon M_Matching M_Float M_FloatFitness S_Float L_Num L_Float L_FloatProps L_FloatMix.

(* ----- products ----- *)
Lemma amount_cases x : amount x -> x = PInf \/ exists q, x = Fin q /\ 0 <= q.
Proof. unfold amount. destruct x as [q| | |]; cbn; try discriminate; [right; exists q; split; [reflexivity|now apply qle_iff]|now left]. Qed.
Lemma one_double : double (Fin 1).
Proof. split; [exists 1%Z, 0%Z; repeat split; lia|]. apply qlt_iff. vm_compute. reflexivity. Qed.
Lemma zero_double : double (Fin 0).
Proof. split; [exact dyadic_0|exact (two_to_pos 1024)]. Qed.
Lemma prod_inf : forall ss, Forall amount ss -> is_fin (fold_left fmul ss PInf) = false /\ is_fin (fold_left fmul ss NaN) = false.
Proof.
  induction ss as [|s ss IH]; intros F; [split; reflexivity|]. inversion F as [|? ? F0 F']; subst. destruct (IH F') as [I1 I2]. cbn [fold_left].
  destruct (amount_cases s F0) as [->|(q & -> & Q)]; [now split|]. split; [|exact I2]. unfold fmul at 2. cbn [nmul].
  unfold nsgn_mul. destruct (qeq q 0) eqn:E1; [exact I2|]. assert (E : qlt 0 q = true) by (apply qlt_iff; apply qeq_false in E1; lra). rewrite E. exact I1.
Qed.
Lemma fmul_le a b c d : 0 <= a -> a <= b -> 0 <= c -> c <= d -> nle (fmul (Fin a) (Fin c)) (fmul (Fin b) (Fin d)) = true.
Proof. intros A B C D. unfold fmul. cbn [nmul]. apply round_mono. cbn. apply qle_iff. nra. Qed.
Lemma fmul_amount a b : 0 <= a -> 0 <= b -> amount (fmul (Fin a) (Fin b)).
Proof. intros A B. unfold fmul. cbn [nmul]. apply round_ge_double; [exact zero_double|]. cbn. apply qle_iff. nra. Qed.
Lemma prod_mono : forall ws ss a b, Forall2 (fun w s => amount w /\ nle w s = true) ws ss -> amount a -> nle a b = true -> is_fin (fold_left fmul ss b) = true ->
  amount (fold_left fmul ws a) /\ nle (fold_left fmul ws a) (fold_left fmul ss b) = true.
Proof.
  induction ws as [|w ws IH]; intros ss a b F A AB FI; inversion F as [|? s ? ss' [W WS] F']; subst; cbn [fold_left] in *; [now split|].
  assert (FS : Forall amount ss').
  { clear - F'. induction F' as [|x y l l' [H1 H2] F IH]; constructor; [|exact IH]. unfold amount in *. now apply nle_trans with x. }
  assert (B : amount b) by (unfold amount in *; now apply nle_trans with a).
  assert (S : amount s) by (unfold amount in *; now apply nle_trans with w).
  destruct (prod_inf ss' FS) as [P1 P2].
  destruct (amount_cases b B) as [->|(qb & -> & QB)].
  { exfalso. destruct (prod_inf (s :: ss')) as [X _]; [now constructor|]. cbn [fold_left] in X. congruence. }
  destruct (amount_cases s S) as [->|(qs & -> & QS)].
  { exfalso. unfold fmul at 2 in FI. cbn [nmul] in FI. unfold nsgn_mul in FI. destruct (qeq qb 0) eqn:E1; [cbn [round] in FI; congruence|]. assert (E : qlt 0 qb = true) by (apply qlt_iff; apply qeq_false in E1; lra).
    rewrite E in FI. cbn [round] in FI. congruence. }
  destruct (amount_cases a A) as [->|(qa & -> & QA)]; [discriminate AB|]. destruct (amount_cases w W) as [->|(qw & -> & QW)]; [discriminate WS|].
  cbn in AB, WS. apply qle_iff in AB, WS. apply IH; try assumption; [now apply fmul_amount|now apply fmul_le].
Qed.
(* the rule lies in the space *)
Lemma width_le lo hi slo shi : finite lo -> finite hi -> finite slo -> finite shi -> nle slo lo = true -> nle lo hi = true -> nle hi shi = true ->
  amount (fsub hi lo) /\ nle (fsub hi lo) (fsub shi slo) = true.
Proof.
  intros F1 F2 F3 F4 A B C. destruct (finite_inv _ F1) as (l & -> & _). destruct (finite_inv _ F2) as (h & -> & _). destruct (finite_inv _ F3) as (sl & -> & _). destruct (finite_inv _ F4) as (sh & -> & _).
  cbn in A, B, C. apply qle_iff in A, B, C. split.
  - unfold amount, fsub. apply round_ge_double; [exact zero_double|]. cbn. apply qle_iff. lra.
  - unfold fsub. apply round_mono. cbn. apply qle_iff. lra.
Qed.
Lemma widths_le space bs : Forall finite_pair space -> Forall finite_pair bs -> Forall2 lies_in space bs ->
  Forall2 (fun w s => amount w /\ nle w s = true) (map (fwidth OrderedBound) bs) (map (fun b => fsub (snd b) (fst b)) space).
Proof.
  intros F1 F2 I. induction I as [|s b space bs (A & B & C) I IH]; [constructor|]. inversion F1 as [|? ? [S1 S2] F1']; inversion F2 as [|? ? [B1 B2] F2']; subst. constructor; [|now apply IH].
  cbn [fwidth]. now apply width_le.
Qed.
Lemma one_nle : nle (Fin 1) (Fin 1) = true.
Proof. reflexivity. Qed.
Lemma volume_le_space space bs : Forall finite_pair space -> Forall finite_pair bs -> Forall2 lies_in space bs -> is_fin (fspace_volume space) = true ->
  amount (fvolume (mkF OrderedBound bs)) /\ nle (fvolume (mkF OrderedBound bs)) (fspace_volume space) = true.
Proof. intros F1 F2 I FI. apply prod_mono; [now apply widths_le|reflexivity|reflexivity|exact FI]. Qed.
Lemma share_range space bs : Forall finite_pair space -> Forall finite_pair bs -> Forall2 lies_in space bs ->
  is_fin (fspace_volume space) = true -> nlt (Fin 0) (fspace_volume space) = true ->
  within (Fin 0, Fin 1) (fshare (mkF OrderedBound bs) space).
Proof.
  intros F1 F2 I FI P. destruct (volume_le_space _ _ F1 F2 I FI) as [A B]. unfold fshare. set (v := fvolume (mkF OrderedBound bs)) in *. set (s := fspace_volume space) in *. clearbody v s.
  destruct s as [s| | |]; try discriminate FI. destruct (amount_cases v A) as [->|(q & -> & Q)]; [discriminate B|]. cbn in B, P. apply qle_iff in B. apply qlt_iff in P.
  assert (NZ : qeq s 0 = false) by (apply qeq_false; lra). unfold fdiv. cbn [ndiv]. rewrite NZ.
  split; cbn [fst snd].
  - apply round_ge_double; [exact zero_double|]. cbn. apply qle_iff. apply Qle_shift_div_l; lra.
  - apply round_le_double; [exact one_double|]. cbn. apply qle_iff. apply Qle_shift_div_r; lra.
Qed.
Lemma volume_mono outer bs : Forall finite_pair outer -> Forall finite_pair bs -> Forall2 lies_in outer bs -> is_fin (fvolume (mkF OrderedBound outer)) = true ->
  nle (fvolume (mkF OrderedBound bs)) (fvolume (mkF OrderedBound outer)) = true.
Proof. intros F1 F2 I FI. apply (prod_mono (map (fwidth OrderedBound) bs)); [now apply widths_le|reflexivity|reflexivity|exact FI]. Qed.

(* ----- the weighted sum ----- *)
Lemma fin_within lo hi x : within (Fin lo, Fin hi) x -> exists q, x = Fin q /\ lo <= q <= hi.
Proof. intros [A B]. cbn [fst snd] in *. destruct x as [q| | |]; try discriminate. exists q. cbn in A, B. apply qle_iff in A, B. auto. Qed.
Lemma within_fin lo hi q : lo <= q <= hi -> within (Fin lo, Fin hi) (Fin q).
Proof. intros [A B]. split; cbn; now apply qle_iff. Qed.
Lemma round_within lo hi q : double (Fin lo) -> double (Fin hi) -> lo <= q <= hi -> within (Fin lo, Fin hi) (round (Fin q)).
Proof. intros D1 D2 [A B]. split; cbn [fst snd]; [apply round_ge_double|apply round_le_double]; try assumption; cbn; now apply qle_iff. Qed.
Lemma round_q_of lo hi q : double (Fin lo) -> double (Fin hi) -> lo <= q <= hi -> round (Fin q) = Fin (round_q q) /\ lo <= round_q q <= hi.
Proof.
  intros D1 D2 H. destruct (fin_within _ _ _ (round_within lo hi q D1 D2 H)) as (r & E & R). pose proof (fin_round _ _ E). subst r. now split.
Qed.
Lemma hundred_double : double (Fin 100).
Proof. split; [exists 100%Z, 0%Z; repeat split; lia|]. apply qlt_iff. vm_compute. reflexivity. Qed.
Lemma emary_range alpha x1 x2 : finite alpha -> within (Fin 0, Fin 1) alpha -> within (Fin 0, Fin 1) x1 -> within (Fin 0, Fin 1) x2 -> within (Fin 0, Fin 1) (femary alpha x1 x2).
Proof.
  intros FA WA W1 W2. destruct (fin_within _ _ _ WA) as (a & -> & A). destruct (fin_within _ _ _ W1) as (p & -> & P). destruct (fin_within _ _ _ W2) as (q & -> & Q).
  destruct FA as [DA _]. unfold femary, fsub, fmul, nsub. cbn [nneg nadd nmul].
  destruct (round_q_of 0 1 (1 + - a) zero_double one_double) as [E1 R1]; [lra|]. rewrite E1. cbn [nmul].
  assert (D1 : double (Fin (round_q (1 + - a)))) by (rewrite <- E1; apply round_is_double). set (b := round_q (1 + - a)) in *.
  destruct (round_q_of 0 a (a * p) zero_double DA) as [E2 R2]; [split; nra|]. destruct (round_q_of 0 b (b * q) zero_double D1) as [E3 R3]; [split; nra|]. rewrite E2, E3. unfold fadd. cbn [nadd].
  assert (EB : Qabs (b - (1 + - a)) <= two_to (-53)).
  { assert (X : Qabs (b - (1 + - a)) <= two_to (-53) * Qabs (1 + - a)). { apply add_error; [apply one_double|apply dyadic_opp; apply DA]. }
    rewrite (Qabs_pos (1 + - a)) in X by lra. pose proof (two_to_pos (-53)) as PU. assert (two_to (-53) * (1 + - a) <= two_to (-53) * 1) by (apply Qmult_le_l; [exact PU|lra]). lra. }
  apply Qabs_Qle_condition in EB.
  assert (TOP : round (Fin (1 + two_to (-53))) = Fin 1) by (vm_compute; reflexivity).
  split; cbn [fst snd].
  - apply round_ge_double; [exact zero_double|]. cbn. apply qle_iff. lra.
  - rewrite <- TOP. apply round_mono. cbn [nle]. apply qle_iff. lra.
Qed.
Lemma hundred x : within (Fin 0, Fin 1) x -> within (Fin 0, Fin 100) (fmul x (Fin 100)).
Proof. intros W. destruct (fin_within _ _ _ W) as (q & -> & Q). unfold fmul. cbn [nmul]. apply round_within; [exact zero_double|exact hundred_double|lra]. Qed.
Lemma c_norm_range k n : (0 < n)%nat -> (k <= n)%nat -> within (Fin 0, Fin 1) (fc_norm (Fin (qofnat k)) (Fin (qofnat n))).
Proof.
  intros N K. pose proof (qofnat_pos n N) as P. apply qofnat_le in K. pose proof (qofnat_nonneg k) as K0. unfold fc_norm, fdiv. cbn [ndiv].
  assert (NZ : qeq (qofnat n) 0 = false) by (apply qeq_false; lra). rewrite NZ.
  destruct (round_q_of 0 1 (qofnat k / qofnat n) zero_double one_double) as [E R]; [split; [apply Qle_shift_div_l; lra|apply Qle_shift_div_r; lra]|]. rewrite E.
  unfold fsub, nsub. cbn [nneg nadd]. apply round_within; [exact zero_double|exact one_double|lra].
Qed.

(* ----- the quotient ----- *)
Lemma two_double : double (Fin 2).
Proof. split; [exists 1%Z, 1%Z; repeat split; lia|]. apply qlt_iff. vm_compute. reflexivity. Qed.
Lemma wu_num_den a2 x1 x2 s c num t den : dyadic a2 -> dyadic x2 -> 0 <= a2 <= 1 -> 0 <= x1 <= 1 - two_to (-13) -> 0 <= x2 <= 1 ->
  s == round_q (1 + a2) -> c == round_q (s * x1) -> num == round_q (c * x2) -> t == round_q (a2 * x1) -> dyadic t -> den == round_q (t + x2) -> 1 < c -> 0 <= num -> num <= den.
Proof.
  intros DA DX A X1 X2 ES EC EN ET DT ED C1 N0. pose proof u_pos as U. pose proof (two_to_pos (-1075)) as PE.
  assert (U50 : u <= two_to (-50)) by (apply two_to_le; lia). assert (ETA : two_to (-1075) <= u) by (apply two_to_le; lia).
  assert (N13 : two_to (-13) == 1 # 8192) by reflexivity. assert (N50 : two_to (-50) == 1 # 1125899906842624) by reflexivity. rewrite N13 in X1. rewrite N50 in U50.
  assert (S1 : Qabs (s - (1 + a2)) <= u * (1 + a2)).
  { rewrite ES. pose proof (add_error 1 a2 (proj1 one_double) DA) as X. rewrite (Qabs_pos (1 + a2)) in X by lra. exact X. }
  apply Qabs_Qle_condition in S1.
  assert (S2 : s <= 1 + a2 + 2 * u) by nra. assert (S0 : 1 <= s <= 2).
  { destruct (round_q_of 1 2 (1 + a2) one_double two_double) as [_ R]; [lra|]. rewrite ES. exact R. }
  assert (SX : 1 <= s * x1).
  { destruct (Qlt_le_dec (s * x1) 1) as [L|L]; [|exact L]. exfalso. destruct (round_q_of 0 1 (s * x1) zero_double one_double) as [_ R]; [split; [nra|lra]|]. rewrite <- EC in R. lra. }
  assert (X1h : 1 # 2 <= x1) by nra.
  assert (A2 : 1 # 16384 <= a2) by nra.
  assert (AX : 1 # 32768 <= a2 * x1) by nra.
  assert (C2 : c <= s * x1 + u * 2).
  { assert (X : Qabs (round_q (s * x1) - s * x1) <= u * Qabs (s * x1)). { apply round_q_relative. rewrite Qabs_pos by lra. apply Qle_trans with 1; [|exact SX]. change 1 with (two_to 0). apply two_to_le. lia. }
    rewrite (Qabs_pos (s * x1)) in X by lra. apply Qabs_Qle_condition in X. rewrite EC. assert (s * x1 <= 2) by nra. nra. }
  assert (T2 : a2 * x1 - u <= t).
  { assert (X : Qabs (round_q (a2 * x1) - a2 * x1) <= u * Qabs (a2 * x1)). { apply round_q_relative. rewrite Qabs_pos by lra. apply Qle_trans with (1 # 32768); [|exact AX]. change (1 # 32768) with (two_to (-15)). apply two_to_le. lia. }
    rewrite (Qabs_pos (a2 * x1)) in X by lra. apply Qabs_Qle_condition in X. rewrite ET. assert (a2 * x1 <= 1) by nra. nra. }
  assert (T1 : t <= 1). { destruct (round_q_of 0 1 (a2 * x1) zero_double one_double) as [_ R]; [split; nra|]. rewrite ET. lra. }
  assert (T0 : 0 <= t). { destruct (round_q_of 0 1 (a2 * x1) zero_double one_double) as [_ R]; [split; nra|]. rewrite ET. lra. }
  assert (D2 : t + x2 - 2 * u <= den).
  { pose proof (add_error t x2 DT DX) as X. rewrite (Qabs_pos (t + x2)) in X by lra. apply Qabs_Qle_condition in X. rewrite ED. nra. }
  assert (N2 : num <= c * x2 + 3 * u + two_to (-1075)).
  { pose proof (round_q_slack (c * x2)) as X. assert (c <= 3) by nra. assert (0 <= c * x2 <= 3) by (split; nra). rewrite (Qabs_pos (c * x2)) in X by lra. apply Qabs_Qle_condition in X. rewrite EN. nra. }
  assert (CX : c * x2 <= (1 + a2) * x1 * x2 + 4 * u).
  { assert (c <= (1 + a2) * x1 + 4 * u) by nra. nra. }
  assert (G : (1 # 32768) <= a2 * x1 + x2 - (1 + a2) * x1 * x2).
  { setoid_replace (a2 * x1 + x2 - (1 + a2) * x1 * x2) with (a2 * x1 * (1 - x2) + (1 - x1) * x2) by ring.
    assert ((1 # 32768) * (1 - x2) <= a2 * x1 * (1 - x2)) by (apply Qmult_le_compat_r; lra). assert ((1 # 8192) * x2 <= (1 - x1) * x2) by (apply Qmult_le_compat_r; lra). lra. }
  lra.
Qed.
Lemma wu_range alpha x1 x2 : finite alpha -> within (Fin 0, Fin 1) alpha -> within (Fin 0, Fin (1 - (2 # 1) ^ (-13))) x1 -> finite x2 -> within (Fin 0, Fin 1) x2 ->
  is_nan (fwu alpha x1 x2) = false -> within (Fin 0, Fin 1) (fwu alpha x1 x2).
Proof.
  intros FA WA W1 F2 W2 NN. destruct (fin_within _ _ _ WA) as (a & -> & A). destruct (fin_within _ _ _ W1) as (p & -> & P). destruct (fin_within _ _ _ W2) as (q & -> & Q).
  destruct F2 as [DX _]. fold (two_to (-13)) in P. pose proof (two_to_pos (-13)) as P13.
  revert NN. unfold fwu, fmul, fadd. cbv zeta. cbn [nmul].
  destruct (round_q_of 0 1 (a * a) zero_double one_double) as [E1 R1]; [split; nra|]. rewrite E1. set (a2 := round_q (a * a)) in *.
  assert (DA : dyadic a2) by apply round_q_is_dyadic.
  cbn [nadd nmul].
  destruct (round_q_of 1 2 (1 + a2) one_double two_double) as [E2 R2]; [lra|]. rewrite E2. set (s := round_q (1 + a2)) in *. cbn [nmul].
  destruct (round_q_of 0 2 (s * p) zero_double two_double) as [E3 R3]; [split; nra|]. rewrite E3. set (c := round_q (s * p)) in *. cbn [nmul].
  destruct (round_q_of 0 2 (c * q) zero_double two_double) as [E4 R4]; [split; nra|]. rewrite E4. set (n := round_q (c * q)) in *.
  destruct (round_q_of 0 1 (a2 * p) zero_double one_double) as [E5 R5]; [split; nra|]. rewrite E5. set (t := round_q (a2 * p)) in *.
  assert (DT : dyadic t) by apply round_q_is_dyadic. cbn [nadd].
  destruct (round_q_of 0 2 (t + q) zero_double two_double) as [E6 R6]; [split; lra|]. rewrite E6. set (d := round_q (t + q)) in *.
  assert (LE : n <= d).
  { destruct (Qlt_le_dec 1 c) as [C|C].
    - apply (wu_num_den a2 p q s c n t d); try reflexivity; try assumption; try lra. apply DX.
    - destruct (round_q_of 0 q (c * q) zero_double DX) as [_ X]; [split; nra|]. fold n in X.
      destruct (round_q_of q 2 (t + q) DX two_double) as [_ Y]; [lra|]. fold d in Y. lra. }
  intros NN. unfold fdiv in *. cbn [ndiv] in *. destruct (qeq d 0) eqn:EZ.
  - exfalso. apply qeq_iff in EZ. assert (NZ : qeq n 0 = true) by (apply qeq_iff; lra). rewrite NZ in NN. discriminate NN.
  - apply qeq_false in EZ. assert (0 < d) by lra. apply round_within; [exact zero_double|exact one_double|]. split; [apply Qle_shift_div_l|apply Qle_shift_div_r]; lra.
Qed.

(* ----- sums in any order ----- *)
Lemma asum_app a b : asum (a ++ b) == asum a + asum b.
Proof. induction a as [|x a IH]; [change (asum ([] ++ b)) with (asum b); change (asum []) with 0; lra|]. change (asum ((x :: a) ++ b)) with (Qabs x + asum (a ++ b)). change (asum (x :: a)) with (Qabs x + asum a). lra. Qed.
Lemma qsum_asum l : Qabs (qsum l) <= asum l.
Proof. induction l as [|a l IH]; [change (Qabs (qsum [])) with 0; change (asum []) with 0; lra|]. change (asum (a :: l)) with (Qabs a + asum l). change (qsum (a :: l)) with (a + qsum l). pose proof (Qabs_triangle a (qsum l)). lra. Qed.
Definition count (l : list Q) : Q := inject_Z (Z.of_nat (length l)).
Lemma count_app a b : count (a ++ b) == count a + count b.
Proof. unfold count. rewrite app_length, Nat2Z.inj_add, inject_Z_plus. reflexivity. Qed.
Lemma count_nonneg l : 0 <= count l.
Proof. unfold count. change 0 with (inject_Z 0). rewrite <- Zle_Qle. lia. Qed.
Lemma tree_error : forall t vs, leaves t = map Fin vs -> Forall dyadic vs -> 2 * count vs * u <= 1 -> asum vs <= two_to 900 ->
  1 <= count vs /\ exists r, fsum_by t = Fin r /\ dyadic r /\ Qabs (r - qsum vs) <= 2 * (count vs - 1) * u * asum vs.
Proof.
  pose proof u_pos as U. induction t as [v|a IHa b IHb]; intros vs L D N A; cbn [leaves fsum_by] in *.
  - destruct vs as [|q [|? ?]]; try discriminate L. injection L as ->. split; [change (count [q]) with 1; lra|]. exists q. split; [reflexivity|]. inversion D; subst. split; [assumption|].
    change (qsum [q]) with (q + 0). setoid_replace (q - (q + 0)) with 0 by ring. change (Qabs 0) with 0. change (count [q]) with 1. setoid_replace (2 * (1 - 1) * u * asum [q]) with 0 by ring. lra.
  - symmetry in L. apply map_eq_app in L. destruct L as (v1 & v2 & -> & L1 & L2). apply Forall_app in D. destruct D as [D1 D2]. rewrite count_app in N. rewrite asum_app in A.
    pose proof (asum_nonneg v1) as A1. pose proof (asum_nonneg v2) as A2. pose proof (count_nonneg v1) as C1. pose proof (count_nonneg v2) as C2.
    assert (N1 : 2 * count v1 * u <= 1) by nra. assert (N2 : 2 * count v2 * u <= 1) by nra.
    destruct (IHa v1 (eq_sym L1) D1 N1) as (K1 & r1 & E1 & DR1 & R1); [lra|]. destruct (IHb v2 (eq_sym L2) D2 N2) as (K2 & r2 & E2 & DR2 & R2); [lra|].
    split; [rewrite count_app; lra|]. rewrite E1, E2.
    assert (Q1 : Qabs r1 <= 2 * asum v1).
    { pose proof (Qabs_triangle (r1 - qsum v1) (qsum v1)) as T. setoid_replace (r1 - qsum v1 + qsum v1) with r1 in T by ring. pose proof (qsum_asum v1).
      assert (2 * (count v1 - 1) * u * asum v1 <= 1 * asum v1) by (apply Qmult_le_compat_r; nra). lra. }
    assert (Q2 : Qabs r2 <= 2 * asum v2).
    { pose proof (Qabs_triangle (r2 - qsum v2) (qsum v2)) as T. setoid_replace (r2 - qsum v2 + qsum v2) with r2 in T by ring. pose proof (qsum_asum v2).
      assert (2 * (count v2 - 1) * u * asum v2 <= 1 * asum v2) by (apply Qmult_le_compat_r; nra). lra. }
    assert (Q : Qabs (r1 + r2) <= 2 * (asum v1 + asum v2)) by (pose proof (Qabs_triangle r1 r2); lra).
    assert (SM : round (Fin (r1 + r2)) = Fin (round_q (r1 + r2))).
    { apply round_small. apply Qle_trans with (2 * two_to 900); [lra|]. rewrite <- (two_to_succ 900). apply two_to_le. lia. }
    exists (round_q (r1 + r2)). split; [unfold fadd; cbn [nadd]; exact SM|]. split; [apply round_q_is_dyadic|].
    pose proof (add_error r1 r2 DR1 DR2) as AE. rewrite qsum_app, count_app, asum_app.
    assert (UQ : u * Qabs (r1 + r2) <= u * (2 * (asum v1 + asum v2))) by (apply Qmult_le_l; [exact U|exact Q]).
    pose proof (Qabs_triangle (round_q (r1 + r2) - (r1 + r2)) (r1 - qsum v1 + (r2 - qsum v2))) as T1. pose proof (Qabs_triangle (r1 - qsum v1) (r2 - qsum v2)) as T2.
    setoid_replace (round_q (r1 + r2) - (r1 + r2) + (r1 - qsum v1 + (r2 - qsum v2))) with (round_q (r1 + r2) - (qsum v1 + qsum v2)) in T1 by ring.
    assert (M1 : 2 * (count v1 - 1) * u * asum v1 <= 2 * (count v1 + count v2 - 2) * u * asum v1) by (apply Qmult_le_compat_r; [nra|exact A1]).
    assert (M2 : 2 * (count v2 - 1) * u * asum v2 <= 2 * (count v1 + count v2 - 2) * u * asum v2) by (apply Qmult_le_compat_r; [nra|exact A2]).
    setoid_replace (2 * (count v1 + count v2 - 1) * u * (asum v1 + asum v2)) with (2 * (count v1 + count v2 - 2) * u * asum v1 + 2 * (count v1 + count v2 - 2) * u * asum v2 + u * (2 * (asum v1 + asum v2))) by ring.
    lra.
Qed.

(* ----- the mean squared error ----- *)
Definition sq (a b : Q) : Q := let d := round_q (a - b) in round_q (d * d).
Definition ex (a b : Q) : Q := (a - b) * (a - b).
Lemma qsq_le a b : 0 <= a -> a <= b -> a * a <= b * b.
Proof. intros. apply Qle_trans with (b * a); [now apply Qmult_le_compat_r|]. rewrite (Qmult_comm b a). apply Qmult_le_compat_r; lra. Qed.
Lemma square_error a b : moderate_value a -> moderate_value b ->
  (let d := fsub (Fin a) (Fin b) in fmul d d) = Fin (sq a b) /\ Qabs (sq a b - ex a b) <= 4 * u * ex a b + two_to (-1075) /\ 0 <= sq a b /\ 0 <= ex a b <= two_to 802.
Proof.
  intros [DA BA] [DB BB]. fold (two_to 400) in BA, BB. pose proof u_pos as U. pose proof (two_to_pos 400) as P4. pose proof (two_to_pos (-1075)) as PE.
  pose proof (Qabs_triangle a (- b)) as TR. rewrite Qabs_opp in TR. setoid_replace (a + - b) with (a - b) in TR by ring.
  assert (B1 : Qabs (a - b) <= two_to 401) by (change 401%Z with (400 + 1)%Z; rewrite two_to_succ; lra).
  assert (AE : Qabs (round_q (a - b) - (a - b)) <= u * Qabs (a - b)).
  { assert (X : Qabs (round_q (a + - b) - (a + - b)) <= u * Qabs (a + - b)) by (apply add_error; [exact DA|now apply dyadic_opp]). exact X. }
  assert (S1 : fsub (Fin a) (Fin b) = Fin (round_q (a - b))).
  { unfold fsub, nsub. cbn [nneg nadd]. change (a + - b) with (a - b). apply round_small. apply Qle_trans with (two_to 401); [exact B1|apply two_to_le; lia]. }
  set (d := round_q (a - b)) in *. set (e := a - b) in *.
  assert (U1 : u <= 1 # 8) by (change (1 # 8) with (two_to (-3)); apply two_to_le; lia).
  assert (AD : Qabs d <= (1 + u) * Qabs e). { pose proof (Qabs_triangle (d - e) e) as T. setoid_replace (d - e + e) with d in T by ring. lra. }
  pose proof (Qabs_nonneg d) as D0. pose proof (Qabs_nonneg e) as E0.
  assert (DD : Qabs (d * d) == Qabs d * Qabs d) by apply Qabs_Qmult. assert (EE : e * e == Qabs e * Qabs e) by (rewrite <- Qabs_Qmult; symmetry; apply Qabs_pos; nra).
  assert (EX : 0 <= ex a b <= two_to 802).
  { unfold ex. fold e. rewrite EE. split; [nra|]. apply Qle_trans with (two_to 401 * two_to 401); [nra|]. rewrite <- two_to_plus. apply two_to_le. lia. }
  assert (BD : Qabs (d * d) <= 2 * (Qabs e * Qabs e)) by (rewrite DD; assert (A9 : Qabs d <= (9 # 8) * Qabs e) by nra; pose proof (qsq_le _ _ D0 A9); assert (0 <= Qabs e * Qabs e) by nra; lra).
  split; [|split; [|split; [|exact EX]]].
  - rewrite S1. unfold fmul. cbn [nmul]. cbv zeta. apply round_small. apply Qle_trans with (2 * two_to 802); [unfold ex in EX; fold e in EX; lra|]. rewrite <- (two_to_succ 802). apply two_to_le. lia.
  - unfold sq. fold e d. cbv zeta. pose proof (round_q_slack (d * d)) as RS.
    assert (X1 : Qabs (d * d - e * e) <= (2 * u + u * u) * (Qabs e * Qabs e)).
    { setoid_replace (d * d - e * e) with ((d - e) * (d + e)) by ring. rewrite Qabs_Qmult. pose proof (Qabs_triangle d e) as T. pose proof (Qabs_nonneg (d - e)). pose proof (Qabs_nonneg (d + e)).
      apply Qle_trans with (u * Qabs e * ((2 + u) * Qabs e)); [|lra].
      apply Qle_trans with (u * Qabs e * Qabs (d + e)); [apply Qmult_le_compat_r; assumption|]. rewrite (Qmult_comm (u * Qabs e)), (Qmult_comm (u * Qabs e)). apply Qmult_le_compat_r; [lra|nra]. }
    assert (X2 : u * Qabs (d * d) <= u * ((1 + u) * (1 + u) * (Qabs e * Qabs e))). { apply Qmult_le_l; [exact U|]. rewrite DD. pose proof (qsq_le _ _ D0 AD). lra. }
    unfold ex. fold e. rewrite EE at 2. pose proof (Qabs_triangle (round_q (d * d) - d * d) (d * d - e * e)) as T. setoid_replace (round_q (d * d) - d * d + (d * d - e * e)) with (round_q (d * d) - e * e) in T by ring.
    set (q := Qabs e * Qabs e) in *. assert (q0 : 0 <= q) by (unfold q; nra).
    assert (X3 : (2 * u + u * u) * q + u * ((1 + u) * (1 + u) * q) <= 4 * u * q).
    { setoid_replace ((2 * u + u * u) * q + u * ((1 + u) * (1 + u) * q)) with ((2 * u + u * u + u * (1 + u) * (1 + u)) * q) by ring. apply Qmult_le_compat_r; [nra|exact q0]. }
    lra.
  - unfold sq. cbv zeta. fold e. fold d. apply round_q_pos. nra.
Qed.
Lemma squares_error : forall y p, length y = length p -> Forall moderate_value y -> Forall moderate_value p ->
  fsquares (map Fin y) (map Fin p) = map Fin (map2 sq y p) /\ Forall dyadic (map2 sq y p) /\ length (map2 sq y p) = length y /\
  asum (map2 sq y p) == qsum (map2 sq y p) /\
  Qabs (qsum (map2 sq y p) - qsum (map2 ex y p)) <= 4 * u * qsum (map2 ex y p) + count y * two_to (-1075) /\
  0 <= qsum (map2 ex y p) <= count y * two_to 802 /\ 0 <= qsum (map2 sq y p).
Proof.
  induction y as [|a y IH]; intros [|b p] L FY FP; try discriminate L.
  - change (qsum (map2 sq [] [])) with 0. change (qsum (map2 ex [] [])) with 0. change (asum (map2 sq [] [])) with 0. change (count []) with 0. change (Qabs (0 - 0)) with 0.
    split; [reflexivity|]. split; [constructor|]. split; [reflexivity|]. split; [reflexivity|]. split; [lra|]. split; [split; lra|lra].
  - injection L as L. inversion FY as [|? ? MA FY']; inversion FP as [|? ? MB FP']; subst. destruct (IH p L FY' FP') as (I1 & I2 & I3 & I4 & I5 & I6 & I7).
    destruct (square_error a b MA MB) as (S1 & S2 & S3 & S4). unfold fsquares in *. cbn [map map2]. rewrite I1, S1.
    change (qsum (sq a b :: map2 sq y p)) with (sq a b + qsum (map2 sq y p)). change (qsum (ex a b :: map2 ex y p)) with (ex a b + qsum (map2 ex y p)).
    change (asum (sq a b :: map2 sq y p)) with (Qabs (sq a b) + asum (map2 sq y p)). rewrite (Qabs_pos (sq a b) S3).
    assert (C : count (a :: y) == count y + 1). { unfold count. cbn [length]. replace (Z.of_nat (S (length y))) with (Z.of_nat (length y) + 1)%Z by lia. now rewrite inject_Z_plus. }
    rewrite C. pose proof (two_to_pos 802). pose proof (two_to_pos (-1075)). pose proof (count_nonneg y).
    split; [reflexivity|]. split; [constructor; [apply round_q_is_dyadic|exact I2]|]. split; [cbn [length]; now rewrite I3|]. split; [lra|]. split; [|split; [split|]; nra].
    pose proof (Qabs_triangle (sq a b - ex a b) (qsum (map2 sq y p) - qsum (map2 ex y p))) as T.
    setoid_replace (sq a b - ex a b + (qsum (map2 sq y p) - qsum (map2 ex y p))) with (sq a b + qsum (map2 sq y p) - (ex a b + qsum (map2 ex y p))) in T by ring. lra.
Qed.
Lemma qsum_perm a b : Permutation a b -> qsum a == qsum b.
Proof. induction 1 as [|x l l' P IH|x y l|l l' l'' P1 IH1 P2 IH2]; [reflexivity| | |].
  - change (x + qsum l == x + qsum l'). lra.
  - change (y + (x + qsum l) == x + (y + qsum l)). lra.
  - lra.
Qed.
Lemma least_is_round : exists f, round (Fin (1 # 10000)) = Fin f /\ f == least_error.
Proof. exists (round_q (1 # 10000)). split; vm_compute; reflexivity. Qed.
Lemma least_room : 4 * two_to (-1075) <= u * least_error.
Proof. apply Qle_trans with (u * two_to (-14)); [|apply Qmult_le_l; [exact u_pos|vm_compute; discriminate]]. change 4 with (two_to 2). rewrite <- !two_to_plus. apply two_to_le. lia. Qed.
Lemma mse_error t y p : y <> [] -> length y = length p -> (Z.of_nat (length y) <= 2 ^ 50)%Z -> Forall moderate_value y -> Forall moderate_value p ->
  Permutation (leaves t) (fsquares (map Fin y) (map Fin p)) ->
  exists e, ferror_by t (length y) = Fin e /\ least_error <= e /\
    let exact := qmax (mean_squared y p) least_error in Qabs (e - exact) <= (2 * qofnat (length y) + 6) * u * exact.
Proof.
  intros NE L BN FY FP PM. destruct (squares_error y p L FY FP) as (I1 & I2 & I3 & I4 & I5 & I6 & I7). rewrite I1 in PM.
  apply Permutation_map_inv in PM. destruct PM as (vs & LV & PV).
  set (V := qsum (map2 sq y p)) in *. set (E := qsum (map2 ex y p)) in *.
  assert (C : count vs = count y) by (unfold count; rewrite <- (Permutation_length PV), I3; reflexivity).
  assert (SV : qsum vs == V) by (symmetry; now apply qsum_perm).
  assert (AV : asum vs == V) by (rewrite <- I4; unfold asum; symmetry; apply qsum_perm; now apply Permutation_map).
  pose proof u_pos as U. pose proof (two_to_pos (-1075)) as PE. set (eta := two_to (-1075)) in *.
  assert (C1 : 1 <= count y). { unfold count. change 1 with (inject_Z 1). rewrite <- Zle_Qle. destruct y; [congruence|]. cbn [length]. lia. }
  assert (CU : count y * u <= 1 # 8). { apply Qle_trans with (two_to 50 * u); [apply Qmult_le_compat_r; [|lra]|rewrite <- two_to_plus; vm_compute; discriminate]. rewrite two_to_int by lia. unfold count. rewrite <- Zle_Qle. exact BN. }
  set (n := count y) in *.
  assert (HE : E <= two_to 852). { apply Qle_trans with (n * two_to 802); [apply I6|]. change 852%Z with (50 + 802)%Z. rewrite two_to_plus. apply Qmult_le_compat_r; [|pose proof (two_to_pos 802); lra]. unfold n, count. rewrite two_to_int by lia. rewrite <- Zle_Qle. exact BN. }
  destruct I6 as [E0 _].
  assert (UE : 4 * u * E <= 1 * E) by (apply Qmult_le_compat_r; [nra|exact E0]).
  assert (NETA : n * eta <= 1). { apply Qle_trans with (two_to 50 * eta); [apply Qmult_le_compat_r; [|lra]|unfold eta; rewrite <- two_to_plus; change 1 with (two_to 0); apply two_to_le; lia]. unfold n, count. rewrite two_to_int by lia. rewrite <- Zle_Qle. exact BN. }
  apply Qabs_Qle_condition in I5. destruct I5 as [V1 V2].
  assert (HV : V <= two_to 900). { assert (two_to 854 == 4 * two_to 852) by (change 854%Z with (852 + 1 + 1)%Z; rewrite !two_to_succ; ring). assert (1 <= two_to 852) by (change 1 with (two_to 0); apply two_to_le; lia). assert (two_to 854 <= two_to 900) by (apply two_to_le; lia). lra. }
  destruct (tree_error t vs LV) as (_ & S & ES & DS & RS).
  { apply (Permutation_Forall PV I2). } { rewrite C. lra. } { now rewrite AV. }
  rewrite C, SV, AV in RS.
  assert (X1 : Qabs (S - E) <= (2 * n + 3) * u * E + 2 * n * eta).
  { pose proof (Qabs_triangle (S - V) (V - E)) as T. setoid_replace (S - V + (V - E)) with (S - E) in T by ring.
    assert (VE : Qabs (V - E) <= 4 * u * E + n * eta) by (apply Qabs_Qle_condition; split; lra).
    assert (Y : 2 * (n - 1) * u * V <= 2 * (n - 1) * u * (E + 4 * u * E + n * eta)). { rewrite (Qmult_comm _ V), (Qmult_comm _ (E + _ + _)). apply Qmult_le_compat_r; [lra|nra]. }
    assert (Y1 : 8 * (n - 1) * u * u * E <= u * E). { apply Qmult_le_compat_r; [|exact E0]. assert (8 * (n - 1) * u <= 1) by lra. nra. }
    assert (Y2 : 2 * (n - 1) * u * (n * eta) <= 1 * (n * eta)) by (apply Qmult_le_compat_r; [lra|nra]).
    assert (Y3 : 2 * (n - 1) * u * (E + 4 * u * E + n * eta) == 2 * (n - 1) * u * E + 8 * (n - 1) * u * u * E + 2 * (n - 1) * u * (n * eta)) by ring.
    assert (Y4 : (2 * n + 3) * u * E == 2 * (n - 1) * u * E + u * E + 4 * u * E) by ring. lra. }
  assert (NZ : ~ n == 0) by lra.
  set (M := E / n). set (x := S / n).
  assert (EM : E == M * n) by (unfold M; field; exact NZ). assert (SX : S == x * n) by (unfold x; field; exact NZ).
  assert (M0 : 0 <= M). { unfold M. apply Qle_shift_div_l; lra. }
  assert (X2 : Qabs (x - M) <= (2 * n + 3) * u * M + 2 * eta).
  { assert (Z : Qabs (S - E) == Qabs (x - M) * n). { rewrite SX, EM. setoid_replace (x * n - M * n) with ((x - M) * n) by ring. rewrite Qabs_Qmult, (Qabs_pos n) by lra. reflexivity. }
    rewrite Z, EM in X1. apply Qmult_le_r with n; [lra|]. setoid_replace (((2 * n + 3) * u * M + 2 * eta) * n) with ((2 * n + 3) * u * (M * n) + 2 * n * eta) by ring. exact X1. }
  assert (K : (2 * n + 3) * u <= 1) by nra.
  assert (KM : (2 * n + 3) * u * M <= 1 * M) by (apply Qmult_le_compat_r; assumption).
  assert (X3 : Qabs x <= 2 * M + 2 * eta). { pose proof (Qabs_triangle (x - M) M) as T. setoid_replace (x - M + M) with x in T by ring. rewrite (Qabs_pos M M0) in T. lra. }
  assert (MB : M <= two_to 852). { unfold M. apply Qle_shift_div_r; [lra|]. pose proof (two_to_pos 852). nra. }
  assert (E1 : eta <= 1) by (unfold eta; change 1 with (two_to 0); apply two_to_le; lia).
  assert (SM : round (Fin x) = Fin (round_q x)).
  { apply round_small. assert (two_to 854 == 4 * two_to 852) by (change 854%Z with (852 + 1 + 1)%Z; rewrite !two_to_succ; ring). assert (1 <= two_to 852) by (change 1 with (two_to 0); apply two_to_le; lia). assert (two_to 854 <= two_to 1000) by (apply two_to_le; lia). lra. }
  pose proof (round_q_slack x) as RX. fold eta in RX.
  assert (UX : u * Qabs x <= u * (2 * M + 2 * eta)) by (apply Qmult_le_l; assumption).
  assert (U8 : u <= 1 # 8) by nra.
  assert (X4 : Qabs (round_q x - M) <= (2 * n + 5) * u * M + 4 * eta).
  { pose proof (Qabs_triangle (round_q x - x) (x - M)) as T. setoid_replace (round_q x - x + (x - M)) with (round_q x - M) in T by ring.
    assert (u * (2 * M + 2 * eta) == 2 * u * M + 2 * u * eta) by ring. assert (2 * u * eta <= 1 * eta) by (apply Qmult_le_compat_r; lra).
    assert ((2 * n + 5) * u * M == (2 * n + 3) * u * M + 2 * u * M) by ring. lra. }
  destruct least_is_round as (f & EF & FF).
  pose proof least_room as F4. fold eta in F4.
  unfold ferror_by. rewrite ES, EF. unfold fdiv. cbn [ndiv]. change (qofnat (length y)) with n.
  assert (QZ : qeq n 0 = false) by (apply qeq_false; exact NZ). rewrite QZ. fold x. rewrite SM. cbn [nlt].
  change (mean_squared y p) with M. set (F := least_error) in *. clearbody F n.
  assert (MX : qmax M F == M /\ F <= M \/ qmax M F == F /\ M <= F). { unfold qmax. destruct (qle M F) eqn:Q; [apply qle_iff in Q; right|apply qle_false in Q; left]; split; lra || reflexivity. }
  assert (UN : 0 <= (2 * n + 5) * u) by nra.
  assert (B1 : (2 * n + 5) * u * M <= (2 * n + 5) * u * qmax M F). { rewrite (Qmult_comm _ M), (Qmult_comm _ (qmax M F)). apply Qmult_le_compat_r; [|exact UN]. destruct MX as [[-> ?]|[-> ?]]; lra. }
  assert (B2 : u * F <= u * qmax M F). { apply Qmult_le_l; [exact U|]. destruct MX as [[-> ?]|[-> ?]]; lra. }
  assert (B3 : (2 * n + 6) * u * qmax M F == (2 * n + 5) * u * qmax M F + u * qmax M F) by ring.
  apply Qabs_Qle_condition in X4. destruct X4 as [X5 X6].
  destruct (qlt (round_q x) f) eqn:Q; [apply qlt_iff in Q|apply qlt_false in Q].
  - exists f. split; [reflexivity|]. split; [lra|]. cbv zeta. apply Qabs_Qle_condition. destruct MX as [[H ?]|[H ?]]; split; lra.
  - exists (round_q x). split; [reflexivity|]. split; [lra|]. cbv zeta. apply Qabs_Qle_condition. destruct MX as [[H ?]|[H ?]]; split; lra.
Qed.

(* ----- fitness ----- *)
Lemma round_in lo hi x : double (Fin lo) -> double (Fin hi) -> within (Fin lo, Fin hi) x -> within (Fin lo, Fin hi) (round x).
Proof. intros A B W. destruct (fin_within _ _ _ W) as (q & -> & Q). now apply round_within. Qed.
Lemma wu_defined alpha x1 x2 : within (Fin 0, Fin 1) alpha -> within (Fin 0, Fin 1) x1 -> finite x2 -> within (Fin 0, Fin 1) x2 -> nlt (Fin 0) x2 = true -> is_nan (fwu alpha x1 x2) = false.
Proof.
  intros WA W1 F2 W2 P. destruct (fin_within _ _ _ WA) as (a & -> & A). destruct (fin_within _ _ _ W1) as (p & -> & PP). destruct (fin_within _ _ _ W2) as (q & -> & Q). cbn [nlt] in P. apply qlt_iff in P.
  unfold fwu, fmul, fadd, fdiv. cbn [nmul]. cbv zeta. rewrite round_nonnan.
  destruct (round_q_of 0 1 (a * a) zero_double one_double) as [E1 R1]; [split; nra|]. rewrite E1. set (a2 := round_q (a * a)) in *. clearbody a2. cbn [nadd nmul].
  destruct (round_q_of 0 2 (1 + a2) zero_double two_double) as [E2 R2]; [lra|]. rewrite E2. set (s := round_q (1 + a2)) in *. clearbody s. cbn [nmul].
  destruct (round_q_of 0 2 (s * p) zero_double two_double) as [E3 R3]; [split; nra|]. rewrite E3. set (c := round_q (s * p)) in *. clearbody c. cbn [nmul].
  destruct (round_q_of 0 2 (c * q) zero_double two_double) as [E4 R4]; [split; nra|]. rewrite E4. set (m := round_q (c * q)) in *. clearbody m.
  destruct (round_q_of 0 1 (a2 * p) zero_double one_double) as [E5 R5]; [split; nra|]. rewrite E5. set (t := round_q (a2 * p)) in *. clearbody t. cbn [nadd].
  destruct (round_q_of q 2 (t + q) (proj1 F2) two_double) as [E6 R6]; [lra|]. rewrite E6. set (d := round_q (t + q)) in *. clearbody d.
  cbn [ndiv]. assert (NZ : qeq d 0 = false) by (apply qeq_false; lra). rewrite NZ. reflexivity.
Qed.
Lemma share_finite space bs : Forall finite_pair space -> Forall finite_pair bs -> Forall2 lies_in space bs ->
  is_fin (fspace_volume space) = true -> nlt (Fin 0) (fspace_volume space) = true -> finite (fshare (mkF OrderedBound bs) space).
Proof. intros F1 F2 I FI P. destruct (fin_within _ _ _ (share_range _ _ F1 F2 I FI P)) as (q & E & Q). split; [unfold fshare, fdiv; apply round_is_double|rewrite E; reflexivity]. Qed.
Lemma c_norm_finite k n : (0 < n)%nat -> (k <= n)%nat -> finite (fc_norm (Fin (qofnat k)) (Fin (qofnat n))).
Proof. intros N K. destruct (fin_within _ _ _ (c_norm_range k n N K)) as (q & E & Q). split; [unfold fc_norm, fsub; apply round_is_double|rewrite E; reflexivity]. Qed.
(* the accuracy of an error that is not below the least one *)
Lemma accuracy_range exp error : (forall x, nle x (fmul (Fin (-(2))) (Fin least_error)) = true -> within (Fin 0, Fin (1 - (2 # 1) ^ (-13))) (exp x)) ->
  nle (Fin least_error) error = true -> within (Fin 0, Fin (1 - (2 # 1) ^ (-13))) (fpseudo_accuracy exp (Fin 2) error).
Proof.
  intros H L. unfold fpseudo_accuracy. apply H. unfold fmul. apply round_mono. destruct error as [e| | |]; cbn [nle] in L; try discriminate L; [|reflexivity].
  cbn [nneg nmul nle]. apply qle_iff in L. apply qle_iff. change (- (2)) with (-(2)) in *. lra.
Qed.
Lemma accuracy_below_one x : within (Fin 0, Fin (1 - (2 # 1) ^ (-13))) x -> within (Fin 0, Fin 1) x.
Proof. intros W. destruct (fin_within _ _ _ W) as (q & -> & Q). apply within_fin. pose proof (two_to_pos (-13)). unfold two_to in *. lra. Qed.
Lemma volume_fitness_range exp error space bs alpha :
  (forall x, nle x (fmul (Fin (-(2))) (Fin least_error)) = true -> within (Fin 0, Fin (1 - (2 # 1) ^ (-13))) (exp x)) -> nle (Fin least_error) error = true ->
  Forall finite_pair space -> Forall finite_pair bs -> Forall2 lies_in space bs -> is_fin (fspace_volume space) = true -> nlt (Fin 0) (fspace_volume space) = true ->
  finite alpha -> within (Fin 0, Fin 1) alpha ->
  within (Fin 0, Fin 100) (fvolume_fitness (femary alpha) (fpseudo_accuracy exp (Fin 2) error) (mkF OrderedBound bs) space) /\
  (nlt (Fin 0) (fshare (mkF OrderedBound bs) space) = true ->
   within (Fin 0, Fin 100) (fvolume_fitness (fwu alpha) (fpseudo_accuracy exp (Fin 2) error) (mkF OrderedBound bs) space)).
Proof.
  intros H L F1 F2 I FI P FA WA. pose proof (share_range _ _ F1 F2 I FI P) as W. pose proof (share_finite _ _ F1 F2 I FI P) as F. pose proof (accuracy_range _ _ H L) as W1.
  unfold fvolume_fitness. split; [|intros PS]; apply hundred.
  - apply emary_range; auto. now apply accuracy_below_one.
  - apply wu_range; auto. apply wu_defined; auto. now apply accuracy_below_one.
Qed.
Lemma complexity_fitness_range exp error k n alpha :
  (forall x, nle x (fmul (Fin (-(2))) (Fin least_error)) = true -> within (Fin 0, Fin (1 - (2 # 1) ^ (-13))) (exp x)) -> nle (Fin least_error) error = true ->
  (k <= n)%nat -> (0 < n)%nat -> finite alpha -> within (Fin 0, Fin 1) alpha ->
  within (Fin 0, Fin 100) (fcomplexity_fitness (femary alpha) (fpseudo_accuracy exp (Fin 2) error) (Fin (qofnat k)) (Fin (qofnat n))) /\
  (nlt (Fin 0) (fc_norm (Fin (qofnat k)) (Fin (qofnat n))) = true ->
   within (Fin 0, Fin 100) (fcomplexity_fitness (fwu alpha) (fpseudo_accuracy exp (Fin 2) error) (Fin (qofnat k)) (Fin (qofnat n)))).
Proof.
  intros H L K N FA WA. pose proof (c_norm_range k n N K) as W. pose proof (c_norm_finite k n N K) as F. pose proof (accuracy_range _ _ H L) as W1.
  unfold fcomplexity_fitness. split; [|intros PS]; apply hundred.
  - apply emary_range; auto. now apply accuracy_below_one.
  - apply wu_range; auto. apply wu_defined; auto. now apply accuracy_below_one.
Qed.
(* two orders of adding *)
Lemma orders_close t1 t2 y p : y <> [] -> length y = length p -> (Z.of_nat (length y) <= 2 ^ 50)%Z -> Forall moderate_value y -> Forall moderate_value p ->
  Permutation (leaves t1) (fsquares (map Fin y) (map Fin p)) -> Permutation (leaves t2) (fsquares (map Fin y) (map Fin p)) ->
  exists e1 e2, ferror_by t1 (length y) = Fin e1 /\ ferror_by t2 (length y) = Fin e2 /\
    Qabs (e1 - e2) <= (4 * qofnat (length y) + 12) * u * qmax (mean_squared y p) least_error.
Proof.
  intros NE L B FY FP P1 P2. destruct (mse_error t1 y p NE L B FY FP P1) as (e1 & E1 & _ & R1). destruct (mse_error t2 y p NE L B FY FP P2) as (e2 & E2 & _ & R2).
  exists e1, e2. split; [exact E1|]. split; [exact E2|]. cbv zeta in R1, R2. apply Qabs_Qle_condition in R1. apply Qabs_Qle_condition in R2. apply Qabs_Qle_condition. split; lra.
Qed.
