(* Lemmas on rates, pheromones and means in double precision. *)
From Coq Require Import Permutation Lqa.
From Verif Require Import PyNum PyFloat PyList PyMon M_Matching M_Float M_FloatFitness M_FloatDraw M_FloatRates S_Float S_FloatDraw S_FloatRates L_Num L_Float L_FloatProps L_FloatMix L_FloatFitness L_FloatDraw.

Lemma fin_of x : is_fin x = true -> exists q, x = Fin q.
Proof. destruct x; intros H; try discriminate H. now eexists. Qed.
(* ----- saga1 ----- *)
Lemma grow_mult r m : double (Fin r) -> 0 <= r -> 1 <= m -> nle (Fin r) (fmul (Fin r) (Fin m)) = true.
Proof. intros D R M. unfold fmul. apply round_ge_double; [exact D|]. cbn [nmul nle]. apply qle_iff. nra. Qed.
Lemma shrink_mult r m : double (Fin r) -> 0 <= r -> 1 <= m -> pyfdiv (Fin r) (Fin m) = Ok (fdiv (Fin r) (Fin m)) /\ nle (fdiv (Fin r) (Fin m)) (Fin r) = true.
Proof.
  intros D R M. assert (Z : qeq m 0 = false) by (apply qeq_false; lra). split; [unfold pyfdiv; cbn [neqb]; now rewrite Z|].
  unfold fdiv. apply round_le_double; [exact D|]. cbn [ndiv]. rewrite Z. cbn [nle]. apply qle_iff. apply Qle_shift_div_r; [lra|]. nra.
Qed.
Lemma nlt_false_nle a b : is_nan a = false -> is_nan b = false -> nlt a b = false -> nle b a = true.
Proof. destruct a, b; cbn; try discriminate; try reflexivity; intros _ _ H. apply qlt_false in H. now apply qle_iff. Qed.
Lemma pymin_up lo hi r x : within (lo, hi) r -> nle r x = true -> within (lo, hi) (pymin hi x) /\ nle r (pymin hi x) = true.
Proof.
  intros [A B] X. cbn [fst snd] in *. unfold pymin. destruct (nlt x hi) eqn:E.
  - split; [split; cbn [fst snd]; [now apply nle_trans with r|now apply nlt_nle]|exact X].
  - split; [split; cbn [fst snd]; [now apply nle_trans with r|]|exact B]. apply nle_refl. destruct hi; try reflexivity. destruct r; discriminate B.
Qed.
Lemma pymax_down lo hi r x : within (lo, hi) r -> nle x r = true -> within (lo, hi) (pymax lo x) /\ nle (pymax lo x) r = true.
Proof.
  intros [A B] X. cbn [fst snd] in *. unfold pymax. destruct (nlt lo x) eqn:E.
  - split; [split; cbn [fst snd]; [now apply nlt_nle|now apply nle_trans with r]|exact X].
  - split; [split; cbn [fst snd]; [|now apply nle_trans with r]|exact A]. apply nle_refl. destruct lo; try reflexivity. destruct r; discriminate A.
Qed.
Lemma between_finite lo hi x : finite lo -> finite hi -> double x -> within (lo, hi) x -> finite x.
Proof. intros [_ L] [_ H] D [A B]. split; [exact D|]. cbn [fst snd] in *. destruct lo, hi, x; try discriminate; reflexivity. Qed.
Lemma pymin_double a b : double a -> double b -> double (pymin a b).
Proof. intros; unfold pymin; destruct (nlt b a); assumption. Qed.
Lemma pymax_double a b : double a -> double b -> double (pymax a b).
Proof. intros; unfold pymax; destruct (nlt a b); assumption. Qed.
Lemma adjust_one c v r : sane_range c -> rates_within c r -> double (fst r) -> double (snd r) ->
  exists r', fadjust c v r = Ok r' /\ rates_within c r' /\ double (fst r') /\ double (snd r') /\
    (nlt (v_max c) v = true -> nle (fst r) (fst r') = true /\ nle (snd r') (snd r) = true) /\
    (nlt (v_max c) v = false -> nlt v (v_min c) = true -> nle (fst r') (fst r) = true /\ nle (snd r) (snd r') = true) /\
    (nlt (v_max c) v = false -> nlt v (v_min c) = false -> r' = r).
Proof.
  intros ((FM & FM' & _) & (FC & FC' & _) & (AM & AC) & (FMM & M1) & (FCM & C1)) [WM WC] DM DC. destruct r as [m x]. cbn [fst snd] in *.
  destruct (finite_inv _ (between_finite _ _ _ FM FM' DM WM)) as (qm & -> & _). destruct (finite_inv _ (between_finite _ _ _ FC FC' DC WC)) as (qc & -> & _).
  assert (M0 : 0 <= qm) by (destruct WM as [A _]; cbn [fst] in A; apply qle_iff; apply (nle_trans _ _ _ AM A)).
  assert (C0 : 0 <= qc) by (destruct WC as [A _]; cbn [fst] in A; apply qle_iff; apply (nle_trans _ _ _ AC A)).
  destruct (finite_inv _ FMM) as (mm & EM & _). destruct (finite_inv _ FCM) as (cm & EC & _). rewrite EM in M1. rewrite EC in C1. cbn [nle] in M1, C1. apply qle_iff in M1, C1.
  unfold fadjust. rewrite EM, EC. cbn [fst snd]. destruct (nlt (v_max c) v) eqn:V1.
  - destruct (shrink_mult qc cm DC C0 C1) as [-> S]. cbn [bind]. pose proof (grow_mult qm mm DM M0 M1) as G.
    destruct (pymin_up _ _ _ _ WM G) as [A1 A2]. destruct (pymax_down _ _ _ _ WC S) as [B1 B2]. eexists. split; [reflexivity|]. cbn [fst snd].
    split; [split; assumption|]. split; [apply pymin_double; [apply FM'|apply round_is_double]|]. split; [apply pymax_double; [apply FC|apply round_is_double]|]. split; [now split|split; discriminate].
  - destruct (nlt v (v_min c)) eqn:V2.
    + destruct (shrink_mult qm mm DM M0 M1) as [-> S]. cbn [bind]. pose proof (grow_mult qc cm DC C0 C1) as G.
      destruct (pymin_up _ _ _ _ WC G) as [A1 A2]. destruct (pymax_down _ _ _ _ WM S) as [B1 B2]. eexists. split; [reflexivity|]. cbn [fst snd].
      split; [split; assumption|]. split; [apply pymax_double; [apply FM|apply round_is_double]|]. split; [apply pymin_double; [apply FC'|apply round_is_double]|]. split; [discriminate|split; [now split|discriminate]].
    + eexists. split; [reflexivity|]. split; [split; assumption|]. split; [exact DM|]. split; [exact DC|]. split; [discriminate|split; [discriminate|reflexivity]].
Qed.
Lemma adjusts_all c : sane_range c -> forall vs r, rates_within c r -> double (fst r) -> double (snd r) -> exists r', fadjusts c vs r = Ok r' /\ rates_within c r'.
Proof.
  intros S. induction vs as [|v vs IH]; intros r W D1 D2; cbn [fadjusts]; [now exists r|]. destruct (adjust_one c v r S W D1 D2) as (r' & -> & W' & D1' & D2' & _). cbn [bind]. now apply IH.
Qed.
Lemma adjust_direction c v r r' : sane_range c -> rates_within c r -> double (fst r) -> double (snd r) -> fadjust c v r = Ok r' ->
    (nlt (v_max c) v = true -> nle (fst r) (fst r') = true /\ nle (snd r') (snd r) = true) /\
    (nlt (v_max c) v = false -> nlt v (v_min c) = true -> nle (fst r') (fst r) = true /\ nle (snd r) (snd r') = true) /\
    (nlt (v_max c) v = false -> nlt v (v_min c) = false -> r' = r).
Proof. intros S W D1 D2 E. destruct (adjust_one c v r S W D1 D2) as (r2 & E2 & _ & _ & _ & H). rewrite E in E2. injection E2 as <-. exact H. Qed.

(* ----- saga2 ----- *)
Lemma upto_inv b x : double_upto b x -> exists q, x = Fin q /\ dyadic q /\ 0 <= q <= b.
Proof. intros [F W]. destruct (fin_within _ _ _ W) as (q & -> & R). exists q. split; [reflexivity|]. split; [apply F|exact R]. Qed.
Lemma grid_positive a b : dyadic a -> dyadic b -> a < b -> 0 < round_q (b - a).
Proof.
  intros DA DB L. destruct (dyadic_grid a DA) as (i & EA). destruct (dyadic_grid b DB) as (j & EB). pose proof (two_to_pos (-1074)) as P.
  assert (IJ : (i < j)%Z) by (rewrite Zlt_Qlt; rewrite EA, EB in L; apply Qmult_lt_r in L; assumption).
  assert (GE : two_to (-1074) <= b - a). { rewrite EA, EB. assert (O : 1 <= inject_Z j - inject_Z i) by (assert (W : inject_Z (i + 1) <= inject_Z j) by (rewrite <- Zle_Qle; lia); rewrite inject_Z_plus in W; change (inject_Z 1) with 1 in W; lra). assert (1 * two_to (-1074) <= (inject_Z j - inject_Z i) * two_to (-1074)) by (apply Qmult_le_compat_r; lra). lra. }
  assert (DT : dyadic (two_to (-1074))) by (exists 1%Z, (-1074)%Z; split; [lia|split; [lia|unfold two_to; ring]]).
  apply Qlt_le_trans with (two_to (-1074)); [exact P|]. rewrite <- (round_q_dyadic _ DT). now apply round_q_mono.
Qed.
Lemma thousand : 1024 <= two_to 1000.
Proof. change 1024 with (two_to 10). apply two_to_le. lia. Qed.
Lemma sub_upto a b : 0 <= a -> a <= b -> b <= 100 -> fsub (Fin b) (Fin a) = Fin (round_q (b - a)) /\ 0 <= round_q (b - a).
Proof.
  intros A L B. split; [|apply round_q_pos; lra]. unfold fsub, nsub. cbn [nneg nadd]. change (b + - a) with (b - a). apply round_small. rewrite Qabs_pos by lra. pose proof thousand. lra.
Qed.
Lemma one_dyadic : dyadic 1.
Proof. exists 1%Z, 0%Z. split; [lia|split; [lia|reflexivity]]. Qed.
Lemma quotient_upto a b : 0 <= a -> a <= b -> 0 < b -> exists q, fdiv (Fin a) (Fin b) = Fin q /\ 0 <= q <= 1.
Proof.
  intros A L B. assert (Z : qeq b 0 = false) by (apply qeq_false; lra). assert (Q0 : 0 <= a / b) by (apply Qle_shift_div_l; lra). assert (Q1 : a / b <= 1) by (apply Qle_shift_div_r; lra).
  exists (round_q (a / b)). split; [unfold fdiv; cbn [ndiv]; rewrite Z; apply round_small; rewrite Qabs_pos by exact Q0; pose proof thousand; lra|].
  split; [now apply round_q_pos|]. rewrite <- (round_q_dyadic 1 one_dyadic). now apply round_q_mono.
Qed.
Lemma product_upto d q : dyadic d -> 0 <= d <= 100 -> 0 <= q <= 1 -> exists e, fmul (Fin d) (Fin q) = Fin e /\ dyadic e /\ 0 <= e <= d.
Proof.
  intros D [D0 D1] [Q0 Q1]. assert (P0 : 0 <= d * q) by nra. assert (P1 : d * q <= d) by nra. exists (round_q (d * q)).
  split; [unfold fmul; cbn [nmul]; apply round_small; rewrite Qabs_pos by exact P0; pose proof thousand; lra|]. split; [apply round_q_is_dyadic|]. split; [now apply round_q_pos|].
  rewrite <- (round_q_dyadic d D) at 2. now apply round_q_mono.
Qed.
Lemma u_le_1 : u <= 1 # 2.
Proof. change (1 # 2) with (two_to (-1)). apply two_to_le. lia. Qed.
(* lo + (part of hi - lo) *)
Lemma rise lo hi q : dyadic lo -> dyadic hi -> 0 <= lo -> lo <= hi -> hi <= 1 -> 0 <= q <= 1 ->
  exists r, fadd (Fin lo) (fmul (fsub (Fin hi) (Fin lo)) (Fin q)) = Fin r /\ lo <= r /\ r <= hi + 3 * u * hi.
Proof.
  intros DL DH L0 LH H1 Q. destruct (sub_upto lo hi L0 LH) as [-> D0]; [lra|]. set (d := round_q (hi - lo)) in *. pose proof u_pos as U. pose proof u_le_1 as U1.
  pose proof (add_error hi (- lo) DH (dyadic_opp _ DL)) as E1. change (hi + - lo) with (hi - lo) in E1. fold d in E1. rewrite (Qabs_pos (hi - lo)) in E1 by lra. abs_in E1.
  assert (UH : u * (hi - lo) <= u * hi) by (apply Qmult_le_l; lra).
  assert (UH1 : u * hi <= (1 # 2) * 1) by (apply Qle_trans with ((1 # 2) * hi); [apply Qmult_le_compat_r; lra|lra]).
  destruct (product_upto d q (round_q_is_dyadic _)) as (e & -> & DE & E0 & ED); [split; [exact D0|lra]|exact Q|].
  destruct (add_small lo e 100 DL DE) as [-> _]; [rewrite Qabs_pos; lra|pose proof thousand; lra|]. eexists. split; [reflexivity|]. split.
  - rewrite <- (round_q_dyadic lo DL) at 1. apply round_q_mono. lra.
  - pose proof (add_error lo e DL DE) as E2. rewrite (Qabs_pos (lo + e)) in E2 by lra. abs_in E2. assert (LE : lo + e <= hi + u * hi) by lra. assert (U2 : u * (lo + e) <= u * (hi + u * hi)) by (apply Qmult_le_l; assumption).
    assert (U3 : u * (u * hi) <= (1 # 2) * (u * hi)) by (apply Qmult_le_compat_r; [lra|apply Qmult_le_0_compat; lra]). lra.
Qed.
(* hi - (part of hi - lo) *)
Lemma fall lo hi q : dyadic lo -> dyadic hi -> 0 <= lo -> lo <= hi -> hi <= 1 -> 0 <= q <= 1 ->
  exists r, fsub (Fin hi) (fmul (fsub (Fin hi) (Fin lo)) (Fin q)) = Fin r /\ lo - 3 * u * hi <= r /\ r <= hi.
Proof.
  intros DL DH L0 LH H1 Q. destruct (sub_upto lo hi L0 LH) as [-> D0]; [lra|]. set (d := round_q (hi - lo)) in *. pose proof u_pos as U. pose proof u_le_1 as U1.
  pose proof (add_error hi (- lo) DH (dyadic_opp _ DL)) as E1. change (hi + - lo) with (hi - lo) in E1. fold d in E1. rewrite (Qabs_pos (hi - lo)) in E1 by lra. abs_in E1.
  assert (UH : u * (hi - lo) <= u * hi) by (apply Qmult_le_l; lra).
  assert (UH1 : u * hi <= (1 # 2) * 1) by (apply Qle_trans with ((1 # 2) * hi); [apply Qmult_le_compat_r; lra|lra]).
  destruct (product_upto d q (round_q_is_dyadic _)) as (e & -> & DE & E0 & ED); [split; [exact D0|lra]|exact Q|].
  assert (DH' : d <= hi). { rewrite <- (round_q_dyadic hi DH) at 1. apply round_q_mono. lra. }
  destruct (sub_upto e hi E0) as [-> R0]; [lra|lra|]. eexists. split; [reflexivity|]. split.
  - pose proof (add_error hi (- e) DH (dyadic_opp _ DE)) as E2. change (hi + - e) with (hi - e) in E2. rewrite (Qabs_pos (hi - e)) in E2 by lra. abs_in E2. assert (U2 : u * (hi - e) <= u * hi) by (apply Qmult_le_l; lra).
    assert (0 <= u * hi) by (apply Qmult_le_0_compat; lra). lra.
  - rewrite <- (round_q_dyadic hi DH) at 2. apply round_q_mono. lra.
Qed.
Lemma part b m x : dyadic m -> dyadic x -> 0 <= m -> m < x -> x <= 100 -> m <= b <= x -> exists q, fdiv (fsub (Fin x) (Fin b)) (fsub (Fin x) (Fin m)) = Fin q /\ 0 <= q <= 1.
Proof.
  intros DM DX M0 MX X1 B. destruct (sub_upto b x) as [-> A0]; [lra|lra|exact X1|]. destruct (sub_upto m x) as [-> B0]; [lra|lra|exact X1|].
  apply quotient_upto; [exact A0|apply round_q_mono; lra|now apply grid_positive].
Qed.
Lemma mutation_rate_bound lo hi mean fmx f : double_upto 1 lo -> double_upto 1 hi -> nle lo hi = true -> double_upto 100 mean -> double_upto 100 fmx -> double_upto 100 f -> nle f fmx = true ->
  nle lo (fmrate lo hi mean fmx f) = true /\ nle (fmrate lo hi mean fmx f) (nadd hi (nmul (Fin (3 * (2 # 1) ^ (-53))) hi)) = true.
Proof.
  intros L H LH M X F FX. destruct (upto_inv _ _ L) as (l & -> & DL & L0 & L1). destruct (upto_inv _ _ H) as (h & -> & DH & H0 & H1). destruct (upto_inv _ _ M) as (m & -> & DM & M0 & M1).
  destruct (upto_inv _ _ X) as (x & -> & DX & X0 & X1). destruct (upto_inv _ _ F) as (q & -> & DQ & Q0 & Q1). cbn [nle] in LH, FX. apply qle_iff in LH, FX. change ((2 # 1) ^ (-53)) with u. cbn [nmul nadd].
  assert (UH : 0 <= 3 * u * h) by (pose proof u_pos; apply Qmult_le_0_compat; lra).
  unfold fmrate. cbn [neqb nlt]. destruct (qeq x m) eqn:E1; [cbn [nle]; split; apply qle_iff; lra|]. destruct (qlt m q) eqn:E2; [|cbn [nle]; split; apply qle_iff; lra].
  apply qlt_iff in E2. destruct (part q m x DM DX M0) as (s & -> & S); [lra|lra|lra|]. destruct (rise l h s DL DH L0 LH H1 S) as (r & -> & R1 & R2). cbn [nle]. split; apply qle_iff; lra.
Qed.
Lemma half_between lo hi a b : dyadic lo -> dyadic hi -> 0 <= lo -> hi <= 100 -> lo <= a <= hi -> lo <= b <= hi -> exists m, fdiv (fadd (Fin a) (Fin b)) (Fin 2) = Fin m /\ dyadic m /\ lo <= m <= hi.
Proof.
  intros DL DH L0 H1 A B. assert (TW : forall q, dyadic q -> dyadic (2 * q)).
  { intros q (m & e & M & E & Q). exists m, (e + 1)%Z. split; [exact M|split; [lia|]]. rewrite Q. change ((2 # 1) ^ (e + 1)) with (two_to (e + 1)). rewrite two_to_succ. unfold two_to. ring. }
  assert (ES : fadd (Fin a) (Fin b) = Fin (round_q (a + b))) by (unfold fadd; cbn [nadd]; apply round_small; rewrite Qabs_pos by lra; pose proof thousand; lra). rewrite ES. set (s := round_q (a + b)).
  assert (S0 : 2 * lo <= s) by (rewrite <- (round_q_dyadic _ (TW _ DL)); apply round_q_mono; lra). assert (S1 : s <= 2 * hi) by (rewrite <- (round_q_dyadic _ (TW _ DH)); apply round_q_mono; lra).
  assert (H : lo <= s / 2 <= hi) by (split; [apply Qle_shift_div_l; lra|apply Qle_shift_div_r; lra]).
  exists (round_q (s / 2)). split; [unfold fdiv; cbn [ndiv]; change (qeq 2 0) with false; cbv iota; apply round_small; rewrite Qabs_pos by lra; pose proof thousand; lra|]. split; [apply round_q_is_dyadic|].
  split; [rewrite <- (round_q_dyadic _ DL); apply round_q_mono; lra|rewrite <- (round_q_dyadic _ DH); apply round_q_mono; lra].
Qed.
Lemma crossover_rate_bound lo hi mean fmn fmx fa fb : double_upto 1 lo -> double_upto 1 hi -> nle lo hi = true -> double_upto 100 mean -> double_upto 100 fmn -> double_upto 100 fmx ->
  within (fmn, fmx) fa -> within (fmn, fmx) fb ->
  nle (nsub lo (nmul (Fin (3 * (2 # 1) ^ (-53))) hi)) (fxrate lo hi mean fmn fmx fa fb) = true /\ nle (fxrate lo hi mean fmn fmx fa fb) hi = true.
Proof.
  intros L H LH M N X FA FB. destruct (upto_inv _ _ L) as (l & -> & DL & L0 & L1). destruct (upto_inv _ _ H) as (h & -> & DH & H0 & H1). destruct (upto_inv _ _ M) as (m & -> & DM & M0 & M1).
  destruct (upto_inv _ _ N) as (n & -> & DN & N0 & N1). destruct (upto_inv _ _ X) as (x & -> & DX & X0 & X1). cbn [nle] in LH. apply qle_iff in LH.
  destruct (fin_within _ _ _ FA) as (a & -> & A). destruct (fin_within _ _ _ FB) as (b & -> & B). change ((2 # 1) ^ (-53)) with u. unfold nsub. cbn [nmul nneg nadd].
  assert (UH : 0 <= 3 * u * h) by (pose proof u_pos; apply Qmult_le_0_compat; lra).
  destruct (half_between n x a b DN DX N0 X1 A B) as (p & EP & DP & P). unfold fxrate. rewrite EP. cbv zeta. cbn [neqb nle]. destruct (qeq n m || qeq m x) eqn:E; [cbn [nle]; split; apply qle_iff; lra|].
  apply orb_false_iff in E. destruct E as [E1 E2]. apply qeq_false in E1, E2. destruct (qle p m) eqn:PM.
  - apply qle_iff in PM. destruct (part p n m DN DM N0) as (s & -> & S); [lra|lra|lra|]. destruct (fall l h s DL DH L0 LH H1 S) as (r & -> & R1 & R2). cbn [nle]. split; apply qle_iff; lra.
  - apply qle_false in PM. assert (EX : exists s, fdiv (fsub (Fin p) (Fin m)) (fsub (Fin x) (Fin m)) = Fin s /\ 0 <= s <= 1).
    { destruct (sub_upto m p) as [-> A0]; [lra|lra|lra|]. destruct (sub_upto m x) as [-> B0]; [lra|lra|lra|]. apply quotient_upto; [exact A0|apply round_q_mono; lra|apply grid_positive; [assumption..|lra]]. }
    destruct EX as (s & -> & S). destruct (fall l h s DL DH L0 LH H1 S) as (r & -> & R1 & R2). cbn [nle]. split; apply qle_iff; lra.
Qed.

(* ----- pheromones ----- *)
Lemma sum_amounts : forall ds p, Forall amount ds -> amount p -> amount (fold_left fadd ds p).
Proof.
  induction ds as [|d ds IH]; intros p D P; [exact P|]. inversion D as [|? ? D1 D2]; subst. cbn [fold_left]. apply IH; [exact D2|]. unfold fadd. apply round_ge_double; [apply zero_double|].
  destruct (amount_cases _ P) as [->|(a & -> & A)], (amount_cases _ D1) as [->|(b & -> & B)]; cbn; try reflexivity. apply qle_iff. lra.
Qed.
Lemma pheromone_bound ev lo hi ds p : double_upto 1 ev -> finite lo -> finite hi -> nle lo hi = true -> amount lo -> finite p -> amount p -> Forall amount ds ->
  within (lo, hi) (fpheromone ev lo hi ds p).
Proof.
  intros E L H LH AL FP P D. unfold fpheromone. apply clip_region; [|exact LH]. destruct (upto_inv _ _ E) as (e & -> & DE & E0 & E1).
  assert (A : amount (fmul p (fsub (Fin 1) (Fin e)))).
  { destruct (sub_upto e 1 E0 E1) as [-> R]; [lra|]. destruct (finite_inv _ FP) as (q & -> & _). apply fmul_amount; [apply qle_iff; exact P|exact R]. }
  pose proof (sum_amounts ds _ D A) as S. destruct (amount_cases _ S) as [->|(q & -> & _)]; reflexivity.
Qed.
Lemma sum_grows : forall ds p, Forall amount ds -> amount p -> double p -> nle p (fold_left fadd ds p) = true.
Proof.
  induction ds as [|d ds IH]; intros p D P DP; [apply nle_refl; destruct (amount_cases _ P) as [->|(q & -> & _)]; reflexivity|]. inversion D as [|? ? D1 D2]; subst. cbn [fold_left].
  assert (A : amount (fadd p d)) by (apply (sum_amounts [d] p); [constructor; [exact D1|constructor]|exact P]).
  apply nle_trans with (fadd p d); [|apply IH; [exact D2|exact A|apply round_is_double]]. apply fadd_grows; [exact DP|exact D1|]. destruct (amount_cases _ A) as [E|(q & E & _)]; rewrite E; reflexivity.
Qed.
Lemma pheromone_direction ev lo hi ds p : double_upto 1 ev -> finite lo -> finite hi -> nle lo hi = true -> amount lo -> finite p -> within (lo, hi) p -> Forall amount ds ->
  nle (fpheromone ev lo hi [] p) p = true /\ nle (fpheromone ev lo hi [] p) (fpheromone ev lo hi ds p) = true.
Proof.
  intros E L H LH AL FP W D. destruct (upto_inv _ _ E) as (e & -> & DE & E0 & E1). assert (P : amount p) by (destruct W as [A _]; apply (nle_trans _ _ _ AL A)).
  unfold fpheromone. cbn [fold_left]. destruct (sub_upto e 1 E0 E1) as [-> R]; [lra|]. assert (R1 : round_q (1 - e) <= 1) by (rewrite <- (round_q_dyadic 1 one_dyadic) at 2; apply round_q_mono; lra).
  destruct (finite_inv _ FP) as (q & -> & DQ). assert (Q0 : 0 <= q) by (apply qle_iff; exact P).
  assert (A : amount (fmul (Fin q) (Fin (round_q (1 - e))))) by now apply fmul_amount.
  assert (LE : nle (fmul (Fin q) (Fin (round_q (1 - e)))) (Fin q) = true) by (unfold fmul; apply round_le_double; [exact DQ|]; cbn [nmul nle]; apply qle_iff; nra).
  assert (NN : is_nan (fmul (Fin q) (Fin (round_q (1 - e)))) = false) by (destruct (amount_cases _ A) as [X|(y & X & _)]; rewrite X; reflexivity).
  split; [now apply clip_within|]. apply clip_order; [|exact LH]. apply sum_grows; [exact D|exact A|apply round_is_double].
Qed.

(* ----- means ----- *)
Lemma sum_between lo hi : forall l, Forall (fun q => lo <= q <= hi) l -> count l * lo <= qsum l <= count l * hi.
Proof.
  induction 1 as [|x l X F IH]; [change (qsum []) with 0; change (count []) with 0; lra|]. change (qsum (x :: l)) with (x + qsum l). change (x :: l) with ([x] ++ l). rewrite count_app. change (count [x]) with 1. cbv beta in X. lra.
Qed.
Lemma mean_close t (fs : list Q) lo hi : fs <> [] -> (Z.of_nat (length fs) <= 2 ^ 20)%Z -> Forall dyadic fs -> 0 <= lo -> hi <= 100 -> Forall (fun q => lo <= q <= hi) fs -> Permutation (leaves t) (map Fin fs) ->
  exists m, fmean t (length fs) = Fin m /\ Qabs (m - qsum fs / qofnat (length fs)) <= 2 * qofnat (length fs) * (2 # 1) ^ (-53) * hi + (2 # 1) ^ (-1075) /\
    lo - 2 * qofnat (length fs) * (2 # 1) ^ (-53) * hi - (2 # 1) ^ (-1075) <= m <= hi + 2 * qofnat (length fs) * (2 # 1) ^ (-53) * hi + (2 # 1) ^ (-1075).
Proof.
  intros NE FEW D L0 H1 B P. change (qofnat (length fs)) with (count fs). change ((2 # 1) ^ (-53)) with u. change ((2 # 1) ^ (-1075)) with (two_to (-1075)). set (n := count fs) in *. pose proof u_pos as U. pose proof u_le_1 as U1.
  assert (N1 : 1 <= n) by (unfold n, count; change 1 with (inject_Z 1); rewrite <- Zle_Qle; destruct fs; [contradiction|cbn [length]; lia]).
  assert (NT : n <= two_to 20) by (rewrite two_to_int by lia; unfold n, count; rewrite <- Zle_Qle; exact FEW).
  assert (NU : n * u <= 1 # 1024). { apply Qle_trans with (two_to 20 * u); [apply Qmult_le_compat_r; lra|]. rewrite <- two_to_plus. change (1 # 1024) with (two_to (-10)). apply two_to_le. lia. }
  destruct (sum_between lo hi fs B) as [S0 S1]. fold n in S0, S1. assert (HH : lo <= hi) by (destruct fs as [|f fs']; [contradiction|]; inversion B; subst; lra).
  assert (SP : Forall (fun w => 0 <= w) fs) by (eapply Forall_impl; [|exact B]; intros q Q; cbv beta in Q; lra).
  destruct (Permutation_map_inv _ _ P) as (vs & LV & PV). assert (C : count vs = n) by (unfold n, count; now rewrite (Permutation_length PV)).
  assert (AV : asum vs == qsum fs). { rewrite <- (asum_amounts fs SP). unfold asum. symmetry. apply qsum_perm. now apply Permutation_map. }
  assert (NH : n * hi <= two_to 20 * 100). { apply Qle_trans with (n * 100); [apply Qmult_le_l_weak; lra|apply Qmult_le_compat_r; lra]. }
  assert (T27 : two_to 20 * 100 <= two_to 27). { change 27%Z with (20 + 7)%Z. rewrite two_to_plus. apply Qmult_le_l_weak; [apply Qlt_le_weak, two_to_pos|]. apply qle_iff. reflexivity. }
  assert (T900 : two_to 27 <= two_to 900) by (apply two_to_le; lia).
  destruct (tree_error t vs LV) as (_ & s & ES & _ & RS); [apply (Permutation_Forall PV D)|rewrite C; lra|rewrite AV; lra|].
  rewrite C, AV in RS. assert (SV : qsum vs == qsum fs) by (symmetry; now apply qsum_perm). rewrite SV in RS. set (S := qsum fs) in *.
  assert (NZ : qeq (qofnat (length fs)) 0 = false) by (apply qeq_false; change (qofnat (length fs)) with n; lra).
  assert (S00 : 0 <= S) by (assert (0 <= n * lo) by (apply Qmult_le_0_compat; lra); lra).
  assert (RSN : Qabs (s / n - S / n) <= 2 * (n - 1) * u * hi).
  { setoid_replace (s / n - S / n) with ((s - S) * / n) by (field; lra). rewrite Qabs_Qmult. assert (I0 : 0 < / n) by (apply Qinv_lt_0_compat; lra). rewrite (Qabs_pos (/ n)) by lra.
    apply Qle_trans with (2 * (n - 1) * u * S * / n); [apply Qmult_le_compat_r; lra|]. setoid_replace (2 * (n - 1) * u * S * / n) with (2 * (n - 1) * u * (S / n)) by (field; lra).
    apply Qmult_le_l_weak; [apply Qmult_le_0_compat; lra|]. apply Qle_shift_div_r; lra. }
  assert (MN : lo <= S / n <= hi) by (split; [apply Qle_shift_div_l; lra|apply Qle_shift_div_r; lra]).
  assert (UH : u * hi <= (1 # 1024) * 100). { apply Qle_trans with (n * u * hi); [assert (1 * (u * hi) <= n * (u * hi)) by (apply Qmult_le_compat_r; [exact N1|apply Qmult_le_0_compat; lra]); lra|]. apply Qle_trans with ((1 # 1024) * hi); [apply Qmult_le_compat_r; lra|lra]. }
  assert (N2 : 2 * (n - 1) * u * hi <= 2 * (1 # 1024) * hi). { apply Qmult_le_compat_r; [|lra]. assert (0 <= u) by lra. lra. }
  abs_in RSN. set (x := s / n) in *. assert (XA : Qabs x <= 2 * hi) by (apply abs_le; lra).
  exists (round_q x). assert (E : fmean t (length fs) = Fin (round_q x)). { unfold fmean. rewrite ES. unfold fdiv. cbn [ndiv]. rewrite NZ. apply round_small. change (s / qofnat (length fs)) with x. pose proof thousand. lra. }
  pose proof (round_q_slack x) as RX. assert (XX : u * Qabs x <= u * (2 * hi)) by (apply Qmult_le_l; assumption). abs_in RX.
  assert (SPL : 2 * n * u * hi == 2 * (n - 1) * u * hi + u * (2 * hi)) by ring. split; [exact E|]. split; [apply abs_le; lra|]. lra.
Qed.
