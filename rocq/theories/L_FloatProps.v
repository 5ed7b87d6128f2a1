(* Conditions of rules in double precision. *)
From Coq Require Import Qpower Qfield Lqa.
From Verif Require Import PyNum PyFloat PyList PyMon M_Matching M_Float S_Float L_Num L_Float.

(* ----- numpy's uniform ----- *)
Lemma dyadic_grid q : dyadic q -> exists n, q == inject_Z n * two_to (-1074).
Proof.
  intros (m & e & _ & E & H). fold (two_to e) in H. exists (m * 2 ^ (e - -1074))%Z.
  rewrite H, (two_to_multiple e (-1074) E), inject_Z_mult. ring.
Qed.
Lemma below_one d u D : 0 < D -> d == round_q D -> (exists n, D == inject_Z n * two_to (-1074)) -> 0 <= u -> u <= 1 - two_to (-53) -> round_q (d * u) <= D.
Proof.
  intros PD Hd (g & Hg) U0 U1.
  pose proof (two_to_pos (-53)) as P53.
  assert (d0 : 0 <= d) by (rewrite Hd; apply round_q_pos; lra).
  assert (ND : ~ D == 0) by lra.
  set (e := last_digit D) in *. pose proof (two_to_pos e) as PE.
  assert (HN := round_q_def D ND). fold e in HN. set (x := D / two_to e) in *.
  assert (HD : D == x * two_to e) by (unfold x; field; lra).
  set (n := nearest x) in *.
  destruct (Qlt_le_dec D d) as [UP|OK].
  2:{ apply Qle_trans with (round_q d); [apply round_q_mono; nra|]. rewrite (round_q_compat d _ Hd).
      pose proof (round_q_dyadic _ (round_q_is_dyadic D)). lra. }
  assert (LT : x < inject_Z n). { apply (Qmult_lt_r _ _ _ PE). lra. }
  assert (FL : Qfloor x = (n - 1)%Z).
  { pose proof (nearest_bounds x) as B. fold n in B. pose proof (Qfloor_le x) as F.
    assert (inject_Z (Qfloor x) < inject_Z n) by lra. rewrite <- Zlt_Qlt in H. lia. }
  assert (LO : inject_Z (n - 1) * two_to e <= D).
  { rewrite HD. apply Qmult_le_compat_r; [|lra]. rewrite <- FL. apply Qfloor_le. }
  (* the last digit of D is above the smallest one *)
  assert (AD : Qabs D == D) by (apply Qabs_pos; lra).
  assert (LD : log2 (Qabs D) = log2 D) by (apply log2_compat; lra).
  assert (E52 : e = (log2 D - 52)%Z).
  { unfold e, last_digit. rewrite LD. destruct (Z_le_gt_dec (-1074) (log2 D - 52)) as [G|G]; [apply Z.max_r; exact G|].
    exfalso. assert (e1 : e = (-1074)%Z) by (unfold e, last_digit; rewrite LD; lia).
    assert (X : x == inject_Z g). { apply (Qmult_inj_r _ _ (two_to e)); [lra|]. rewrite <- HD, e1. exact Hg. }
    apply nearest_int in X. fold n in X. rewrite e1 in *. rewrite X in HN. lra. }
  destruct (log2_spec D PD) as [KL KU]. set (k := log2 D) in *.
  assert (P52 : two_to k == inject_Z (2 ^ 52) * two_to e). { rewrite E52, (two_to_multiple k (k - 52)) by lia. replace (k - (k - 52))%Z with 52%Z by lia. reflexivity. }
  assert (NB : (2 ^ 52 < n)%Z).
  { rewrite Zlt_Qlt. apply (Qmult_lt_r _ _ _ PE). lra. }
  assert (DU : d * u <= inject_Z n * two_to e - inject_Z n * two_to (e - 53)).
  { assert (two_to (e - 53) == two_to e * two_to (-53)) as -> by (rewrite <- two_to_plus; reflexivity). rewrite Hd, HN in *. nra. }
  assert (S53 : two_to e == inject_Z (2 ^ 53) * two_to (e - 53)). { rewrite (two_to_multiple e (e - 53)) by lia. replace (e - (e - 53))%Z with 53%Z by lia. reflexivity. }
  apply Qle_trans with (inject_Z (n - 1) * two_to e); [|exact LO].
  destruct (Qlt_le_dec (d * u) (two_to k)) as [SMALL|BIG].
  - apply Qle_trans with (1 * two_to k).
    + destruct (Qeq_dec (d * u) 0) as [Z0|NZ]; [rewrite (round_q_0 _ Z0); pose proof (two_to_pos k); lra|].
      change 1 with (inject_Z 1). apply round_q_le; [|change (inject_Z 1) with 1; lra].
      assert (P0 : 0 < d * u) by nra. unfold last_digit. rewrite (log2_compat (Qabs (d * u)) (d * u)); [|rewrite Qabs_pos by lra; exact P0|apply Qabs_pos; lra].
      assert (log2 (d * u) <= k)%Z by (apply log2_mono; [exact P0|]; fold k; pose proof (log2_mono (d * u) D P0); lra). 
      assert (-1074 <= k)%Z by (unfold k in *; lia || (unfold e, last_digit in E52; lia)). lia.
    + rewrite Qmult_1_l, P52. apply Qmult_le_compat_r; [|lra]. rewrite <- Zle_Qle. lia.
  - assert (PU : 0 < d * u) by (pose proof (two_to_pos k); lra).
    assert (DK : d * u < two_to (k + 1)).
    { apply Qle_lt_trans with (inject_Z n * two_to e - inject_Z n * two_to (e - 53)); [exact DU|].
      assert (NS : (Z.abs n <= 2 ^ 53)%Z) by exact (nearest_size D ND).
      assert (inject_Z n <= inject_Z (2 ^ 53)) by (rewrite <- Zle_Qle; lia).
      assert (0 < inject_Z n) by (change 0 with (inject_Z 0); rewrite <- Zlt_Qlt; lia).
      pose proof (two_to_pos (e - 53)).
      assert (two_to (k + 1) == inject_Z (2 ^ 53) * two_to e) as ->. { rewrite two_to_succ, P52. change (2 ^ 53)%Z with (2 * 2 ^ 52)%Z. rewrite inject_Z_mult. change (inject_Z 2) with 2. ring. }
      nra. }
    assert (LG : log2 (d * u) = k).
    { destruct (log2_spec (d * u) PU) as [A B]. assert (~ (log2 (d * u) < k)%Z).
      { intro G. assert (two_to (log2 (d * u) + 1) <= two_to k) by (apply two_to_le; lia). lra. }
      assert (~ (k < log2 (d * u))%Z). { intro G. assert (two_to (k + 1) <= two_to (log2 (d * u))) by (apply two_to_le; lia). lra. }
      lia. }
    assert (LE : last_digit (d * u) = e).
    { unfold last_digit. rewrite (log2_compat (Qabs (d * u)) (d * u)); [|rewrite Qabs_pos by lra; exact PU|apply Qabs_pos; lra]. rewrite LG, E52.
      assert (-1074 <= e)%Z by (unfold e, last_digit; lia). lia. }
    rewrite (round_q_def (d * u)) by lra. rewrite LE. apply Qmult_le_compat_r; [|lra]. rewrite <- Zle_Qle.
    (* below the middle between n - 1 and n, or n = 2^53 *)
    assert (Y : d * u / two_to e <= inject_Z n - inject_Z n * two_to (-53)).
    { apply Qle_shift_div_r; [exact PE|]. assert (two_to (e - 53) == two_to (-53) * two_to e) as T by (rewrite <- two_to_plus; replace (-53 + e)%Z with (e - 53)%Z by lia; reflexivity). rewrite T in DU. lra. }
    assert (H52 : (1 # 2) < inject_Z n * two_to (-53)).
    { assert (inject_Z (2 ^ 52) < inject_Z n) by (rewrite <- Zlt_Qlt; exact NB).
      assert ((1 # 2) == inject_Z (2 ^ 52) * two_to (-53)) as -> by reflexivity. apply Qmult_lt_r; [apply two_to_pos|assumption]. }
    pose proof (nearest_near (d * u / two_to e)) as NN. apply Qabs_Qle_condition in NN. destruct NN as [_ NN].
    assert (inject_Z (nearest (d * u / two_to e)) < inject_Z n) by lra. rewrite <- Zlt_Qlt in H. lia.
Qed.
Lemma finite_inv x : finite x -> exists q, x = Fin q /\ double (Fin q).
Proof. intros [D F]. destruct x; try discriminate. eauto. Qed.
Lemma uniform_inside low high u : finite low -> finite high -> nle low high = true -> is_fin (fsub high low) = true ->
  nle (Fin 0) u = true -> nle u (Fin (1 - (2 # 1) ^ (-53))) = true -> within (low, high) (funiform low high u).
Proof.
  intros FL FH LE NO U0 U1. destruct (finite_inv _ FL) as (l & -> & DL). destruct (finite_inv _ FH) as (h & -> & DH).
  destruct u as [u| | |]; try discriminate. simpl in LE, U0, U1. apply qle_iff in LE, U0, U1. fold (two_to (-53)) in U1.
  unfold funiform. destruct (fsub (Fin h) (Fin l)) as [d| | |] eqn:ED; try discriminate.
  assert (Hd : d == round_q (h - l)).
  { unfold fsub, nsub in ED. cbn [nneg nadd round] in ED. destruct (qle _ _) in ED; [discriminate|]. destruct (qle _ _) in ED; [discriminate|]. injection ED as <-. reflexivity. }
  assert (d0 : 0 <= d) by (rewrite Hd; apply round_q_pos; lra).
  pose proof (two_to_pos (-53)) as P53.
  assert (AM : nle (Fin 0) (fmul (Fin d) (Fin u)) = true).
  { unfold fmul. apply round_ge_double; [split; [exact dyadic_0|exact (two_to_pos 1024)]|]. simpl. apply qle_iff. nra. }
  assert (NN : is_nan (fadd (Fin l) (fmul (Fin d) (Fin u))) = false).
  { unfold fadd. rewrite round_nonnan. destruct (fmul (Fin d) (Fin u)); try reflexivity; discriminate. }
  split; cbn [fst snd].
  - apply fadd_grows; [exact DL|exact AM|exact NN].
  - unfold fadd. apply round_le_double; [exact DH|].
    assert (MU : nle (fmul (Fin d) (Fin u)) (Fin (h - l)) = true).
    { assert (B : round_q (d * u) <= h - l).
      { destruct (Qeq_dec (h - l) 0) as [Z|N].
        - assert (d == 0) as D0 by (rewrite Hd, (round_q_0 _ Z); reflexivity). rewrite (round_q_0 (d * u)); [lra|]. rewrite D0. ring.
        - apply below_one; try assumption; [lra|].
          destruct (dyadic_grid h (proj1 DH)) as (a & A). destruct (dyadic_grid l (proj1 DL)) as (b & B). exists (a - b)%Z.
          rewrite A, B. unfold Zminus. rewrite inject_Z_plus, inject_Z_opp. ring. }
      assert (B0 : 0 <= round_q (d * u)) by (apply round_q_pos; nra).
      unfold fmul. cbn [nmul round]. pose proof (two_to_pos 1024) as P.
      destruct (qle (two_to 1024) (round_q (d * u))) eqn:A1.
      - exfalso. apply qle_iff in A1. unfold fsub, nsub in ED. cbn [nneg nadd round] in ED.
        assert (two_to 1024 <= round_q (h + - l)).
        { pose proof (round_q_ge (h + - l) 1 1024) as G. change (inject_Z 1) with 1 in G. destruct (Z_le_gt_dec (last_digit (h + - l)) 1024) as [K|K].
          - apply Qle_trans with (1 * two_to 1024); [lra|apply G; [exact K|lra]].
          - assert (two_to 1024 <= round_q (two_to 1024)). { rewrite (round_q_dyadic (two_to 1024)); [lra|]. exists 1%Z, 1024%Z. repeat split; lia || (unfold two_to; ring). }
            apply Qle_trans with (round_q (two_to 1024)); [assumption|]. apply round_q_mono. lra. }
        apply qle_iff in H. rewrite H in ED. discriminate.
      - destruct (qle (round_q (d * u)) (- two_to 1024)) eqn:A2; [apply qle_iff in A2; lra|]. simpl. apply qle_iff. exact B. }
    destruct (fmul (Fin d) (Fin u)) as [w| | |]; try discriminate. simpl in *. apply qle_iff in MU. apply qle_iff. lra.
Qed.

(* ----- comparisons do not round ----- *)
Lemma fmin_fin a b : fmin (Fin a) (Fin b) = Fin (qmin a b).
Proof. unfold fmin, qmin. simpl. destruct (qle a b); reflexivity. Qed.
Lemma fmax_fin a b : fmax (Fin a) (Fin b) = Fin (qmax a b).
Proof. unfold fmax, qmax. simpl. destruct (qle a b); reflexivity. Qed.
Lemma fclip_fin lo hi x : fclip (Fin lo) (Fin hi) (Fin x) = Fin (qclip lo hi x).
Proof. unfold fclip, qclip. now rewrite fmax_fin, fmin_fin. Qed.
Lemma row_matches_exact t bs : forall x, t = OrderedBound \/ t = UnorderedBound -> frow_matches t (map inj bs) (map Fin x) = row_matches t bs x.
Proof.
  induction bs as [|b bs IH]; intros [|xi x] H; try reflexivity. cbn [map frow_matches row_matches]. rewrite (IH x H).
  destruct H as [-> | ->]; cbn [flimits limits inj fst snd]; rewrite ?fmin_fin, ?fmax_fin; reflexivity.
Qed.
Lemma clipped_exact m space : fclipped (mkF (mt m) (map inj (bnd m))) (map inj space) = let c := clip m space in mkF (mt c) (map inj (bnd c)).
Proof.
  unfold fclipped, clip. cbn [fmt fbnd mt bnd]. f_equal. generalize (bnd m). induction space as [|s space IH]; intros [|b bs]; try reflexivity.
  cbn [map map2]. f_equal; [|apply IH]. destruct (mt m); cbn [fclip_pair clip_pair inj fst snd]; rewrite ?fclip_fin; reflexivity.
Qed.

(* ----- what only enlarges ----- *)
Lemma matches_all t bs x : length bs = length x -> (frow_matches t bs x = true <-> Forall2 (fun b xi => within (flimits t b) xi) bs x).
Proof.
  revert x. induction bs as [|b bs IH]; intros [|xi x] L; try discriminate.
  - split; constructor.
  - injection L as L. cbn [frow_matches]. rewrite !andb_true_iff. rewrite (IH x L). split.
    + intros [[A B] C]. constructor; [split; assumption|exact C].
    + intro H. inversion H as [|? ? ? ? [A B] C]; subst. auto.
Qed.
Lemma half_amount mr : nlt (Fin 0) mr = true -> amount (fdiv mr (Fin 2)).
Proof. intro H. apply fdiv_pos; [apply nlt_nle; exact H|reflexivity]. Qed.
Lemma fin_plus_amount a h : finite a -> amount h -> is_nan (fadd a h) = false /\ is_nan (fsub a h) = false.
Proof.
  intros F A. destruct (finite_inv a F) as (q & -> & _). unfold fadd, fsub, nsub. rewrite !round_nonnan.
  destruct h; try discriminate A; split; reflexivity.
Qed.
Lemma fadd_amount a h : finite a -> amount h -> nle a (fadd a h) = true.
Proof. intros F A. apply fadd_grows; [apply F|exact A|apply (fin_plus_amount a h F A)]. Qed.
Lemma fsub_amount a h : finite a -> amount h -> nle (fsub a h) a = true.
Proof. intros F A. apply fsub_shrinks; [apply F|exact A|apply (fin_plus_amount a h F A)]. Qed.
Lemma min_range_pair_keeps t mr b x : t = OrderedBound \/ t = CenterSpread -> finite_pair b -> nlt (Fin 0) mr = true ->
  within (flimits t b) x -> within (flimits t (fmin_range_pair t mr b)) x.
Proof.
  intros T [F1 F2] P [A B]. unfold fmin_range_pair. destruct (nlt (fwidth t b) mr); [|now split].
  pose proof (half_amount mr P) as H. set (h := fdiv mr (Fin 2)) in *.
  destruct T as [-> | ->]; cbn [flimits fst snd] in *; split; cbn [fst snd].
  - apply nle_trans with (fst b); [now apply fsub_amount|exact A].
  - apply nle_trans with (snd b); [exact B|now apply fadd_amount].
  - apply nle_trans with (fsub (fst b) (snd b)); [|exact A].
    destruct (finite_inv _ F1) as (c & E1 & _). destruct (finite_inv _ F2) as (s & E2 & _).
    apply fsub_mono; [now apply fadd_amount| |]; rewrite E1; unfold fsub, nsub; rewrite round_nonnan.
    + rewrite E2. reflexivity.
    + destruct (fadd (snd b) h) eqn:EF; try reflexivity. pose proof (proj1 (fin_plus_amount _ h F2 H)) as N. rewrite EF in N. discriminate.
  - apply nle_trans with (fadd (fst b) (snd b)); [exact B|].
    destruct (finite_inv _ F1) as (c & E1 & _). destruct (finite_inv _ F2) as (s & E2 & _).
    apply fadd_mono; [now apply fadd_amount| |]; rewrite E1; unfold fadd at 1; rewrite round_nonnan.
    + rewrite E2. reflexivity.
    + destruct (fadd (snd b) h) eqn:EF; try reflexivity. pose proof (proj1 (fin_plus_amount _ h F2 H)) as N. rewrite EF in N. discriminate.
Qed.
Lemma Forall2_map_l {A B C} (P : C -> B -> Prop) (f : A -> C) l l' : Forall2 (fun a b => P (f a) b) l l' <-> Forall2 P (map f l) l'.
Proof. split. - induction 1; constructor; assumption. - revert l'. induction l as [|a l IH]; intros l' H; inversion H; subst; constructor; auto. Qed.
Lemma Forall2_imp_l {A B} (P Q : A -> B -> Prop) (R : A -> Prop) l l' : Forall R l -> (forall a b, R a -> P a b -> Q a b) -> Forall2 P l l' -> Forall2 Q l l'.
Proof. intros HR H F. induction F; inversion HR; subst; constructor; auto. Qed.
Lemma min_range_keeps m mr x : fmt m = OrderedBound \/ fmt m = CenterSpread -> Forall finite_pair (fbnd m) -> length (fbnd m) = length x ->
  frow_matches (fmt m) (fbnd m) x = true -> frow_matches (fmt m) (fbnd (fmin_range m mr)) x = true.
Proof.
  intros T F L H. cbn [fmin_range fbnd]. destruct (nlt (Fin 0) mr) eqn:P; [|exact H].
  apply matches_all in H; [|exact L]. apply matches_all; [now rewrite map_length|].
  apply (Forall2_map_l (fun b xi => within (flimits (fmt m) b) xi) (fmin_range_pair (fmt m) mr)).
  apply (Forall2_imp_l _ _ _ _ _ F) with (2 := H). intros b xi Fb W. now apply min_range_pair_keeps.
Qed.
Lemma sort_enlarged l h x : within (l, h) x -> fsort (l, h) = (l, h).
Proof.
  intros [A B]. unfold fsort. cbn [fst snd] in *. destruct (nlt h l) eqn:E; [|reflexivity].
  pose proof (nle_not_nlt _ _ (nle_trans _ _ _ A B)). congruence.
Qed.
Lemma increase_keeps_f m noise x : fmt m = OrderedBound -> Forall finite_pair (fbnd m) -> Forall (fun n => amount (fst n) /\ amount (snd n)) noise ->
  length noise = length (fbnd m) -> length (fbnd m) = length x ->
  frow_matches (fmt m) (fbnd m) x = true -> frow_matches (fmt m) (fbnd (fincrease m noise)) x = true.
Proof.
  intros T F N LN L H. cbn [fincrease fbnd]. rewrite T in *. apply matches_all in H; [|exact L]. clear T.
  revert noise x LN L N H. induction F as [|b bs [F1 F2] F IH]; intros [|n noise] [|xi x] LN L N H; try discriminate; [reflexivity|].
  inversion N as [|? ? [N1 N2] N']; subst. inversion H as [|? ? ? ? [A B] H']; subst. injection LN as LN. injection L as L.
  cbn [flimits] in A, B. assert (W : within (fsub (fst b) (fst n), fadd (snd b) (snd n)) xi).
  { split; cbn [fst snd]; [apply nle_trans with (fst b)|apply nle_trans with (snd b)]; try assumption; [now apply fsub_amount|now apply fadd_amount]. }
  cbn [map2 map frow_matches]. rewrite (sort_enlarged _ _ _ W). destruct W as [W1 W2]. cbn [flimits]. cbn [fst snd] in *. rewrite W1, W2. simpl. apply IH; assumption.
Qed.
(* clipping to a region that contains the sample *)
Lemma clip_within lo hi a x : is_nan a = false -> within (lo, hi) x -> nle a x = true -> nle (fclip lo hi a) x = true.
Proof.
  intros N [A B] H. cbn [fst snd] in *. destruct (nle_nonnan _ _ A) as [NL NX]. destruct (nle_nonnan _ _ B) as [_ NH]. unfold fclip.
  assert (M : nle (fmax a lo) x = true). { unfold fmax. rewrite N, NL. simpl. destruct (nle a lo); assumption. }
  unfold fmin. rewrite (proj1 (nle_nonnan _ _ M)), NH. simpl. destruct (nle (fmax a lo) hi) eqn:E; [exact M|].
  apply nle_false_nlt in E; [|apply (nle_nonnan _ _ M)|exact NH]. apply nle_trans with (fmax a lo); [now apply nlt_nle|exact M].
Qed.
Lemma clip_within' lo hi a x : is_nan a = false -> within (lo, hi) x -> nle x a = true -> nle x (fclip lo hi a) = true.
Proof.
  intros N [A B] H. cbn [fst snd] in *. destruct (nle_nonnan _ _ A) as [NL NX]. destruct (nle_nonnan _ _ B) as [_ NH]. unfold fclip.
  assert (M : nle x (fmax a lo) = true).
  { unfold fmax. rewrite N, NL. simpl. destruct (nle a lo) eqn:E; [apply nle_trans with a; assumption|assumption]. }
  unfold fmin. rewrite (proj2 (nle_nonnan _ _ M)), NH. simpl. destruct (nle (fmax a lo) hi); assumption.
Qed.
Lemma clip_region lo hi a : is_nan a = false -> nle lo hi = true -> within (lo, hi) (fclip lo hi a).
Proof.
  intros N H. destruct (nle_nonnan _ _ H) as [NL NH]. unfold fclip, fmin, fmax, within. rewrite N, NL. cbn [orb fst snd].
  destruct (nle a lo) eqn:E; [rewrite NL, NH, H; simpl; split; [now apply nle_refl|exact H]|]. rewrite N, NH. simpl.
  apply nle_false_nlt in E; [|exact N|exact NL]. destruct (nle a hi) eqn:E2; [split; [now apply nlt_nle|exact E2]|split; [exact H|now apply nle_refl]].
Qed.
Lemma clip_order lo hi a b : nle a b = true -> nle lo hi = true -> nle (fclip lo hi a) (fclip lo hi b) = true.
Proof.
  intros AB H. destruct (nle_nonnan _ _ H) as [NL NH]. destruct (nle_nonnan _ _ AB) as [NA NB].
  destruct (clip_region lo hi a NA H) as [A1 A2]. destruct (clip_region lo hi b NB H) as [B1 B2]. cbn [fst snd] in *.
  revert A1 A2 B1 B2. unfold fclip, fmax. rewrite NA, NB, NL. cbn [orb].
  destruct (nle a lo) eqn:EA; destruct (nle b lo) eqn:EB; intros A1 A2 B1 B2.
  - apply nle_refl. unfold fmin. rewrite NL, NH. simpl. destruct (nle lo hi); assumption.
  - unfold fmin at 1. rewrite NL, NH. simpl. rewrite H. exact B1.
  - exfalso. rewrite (nle_trans _ _ _ AB EB) in EA. discriminate.
  - unfold fmin. rewrite NA, NB, NH. simpl. destruct (nle a hi) eqn:E1; destruct (nle b hi) eqn:E2; try assumption.
    + now apply nle_refl || (apply nle_false_nlt in E1; [|assumption|assumption]; exfalso; pose proof (nle_nlt_trans _ _ _ AB (nle_nlt_trans _ _ _ E2 E1)); rewrite nlt_irrefl in *; discriminate).
    + now apply nle_refl.
Qed.
Lemma min_range_ordered_keeps mr b x : double (fst b) -> double (snd b) -> is_fin x = true -> nlt (Fin 0) mr = true ->
  within b x -> within (fmin_range_pair OrderedBound mr b) x.
Proof.
  intros D1 D2 FX P [A B]. unfold fmin_range_pair. destruct (nlt (fwidth OrderedBound b) mr); [|now split].
  pose proof (half_amount mr P) as H. set (h := fdiv mr (Fin 2)) in *. destruct x as [x| | |]; try discriminate.
  split; cbn [fst snd].
  - apply nle_trans with (fst b); [|exact A]. apply fsub_shrinks; [exact D1|exact H|]. unfold fsub, nsub. rewrite round_nonnan.
    destruct (fst b), h; try discriminate; reflexivity.
  - apply nle_trans with (snd b); [exact B|]. apply fadd_grows; [exact D2|exact H|]. unfold fadd. rewrite round_nonnan.
    destruct (snd b), h; try discriminate; reflexivity.
Qed.
Lemma min_range_pair_double t mr b : double (fst b) -> double (snd b) -> double (fst (fmin_range_pair t mr b)) /\ double (snd (fmin_range_pair t mr b)).
Proof. intros A B. unfold fmin_range_pair. destruct (nlt _ _); [|now split]. destruct t; cbn [fst snd]; split; try assumption; apply round_is_double. Qed.
Lemma map2_length_eq {A B C} (f : A -> B -> C) l l' : length l = length l' -> length (map2 f l l') = length l.
Proof. revert l'. induction l as [|a l IH]; intros [|b l'] H; try discriminate; [reflexivity|]. cbn [map2 length]. f_equal. apply IH. now injection H. Qed.
Lemma constrain_covers mr space bs x : Forall (fun b => double (fst b) /\ double (snd b)) bs -> Forall2 within bs x -> Forall2 within space x -> Forall finite x ->
  frow_matches OrderedBound (fbnd (fconstrain mr space (mkF OrderedBound bs))) x = true.
Proof.
  intros D W S F. unfold fconstrain, fclipped, fmin_range. cbn [fmt fbnd].
  enough (G : forall bs', Forall2 within bs' x -> frow_matches OrderedBound (map2 (fclip_pair OrderedBound) space bs') x = true).
  { apply G. destruct (nlt (Fin 0) mr) eqn:P; [|exact W]. clear - D W F P. induction W as [|b xi bs0 x W0 W IH]; [constructor|].
    inversion D as [|? ? [D1 D2] D']; subst. inversion F as [|? ? F0 F']; subst. cbn [map]. constructor; [|apply IH; assumption].
    apply min_range_ordered_keeps; try assumption. apply F0. }
  intros bs' W'. clear - W' S. revert space S. induction W' as [|b xi bs0 x0 [W1 W2] W IH]; intros space S; inversion S as [|s ? space' ? S0 S']; subst; [reflexivity|].
  cbn [map2 frow_matches fclip_pair flimits fst snd]. destruct s as [lo hi]. cbn [fst snd] in *.
  rewrite (clip_within lo hi (fst b) xi), (clip_within' lo hi (snd b) xi); try assumption; try apply (nle_nonnan _ _ W1); try apply (nle_nonnan _ _ W2).
  simpl. apply IH. exact S'.
Qed.
Lemma fresh_covers x down up mr space : Forall finite x -> Forall amount down -> Forall amount up -> length down = length x -> length up = length x ->
  Forall2 within space x -> frow_matches OrderedBound (fbnd (fconstrain mr space (fhalfnorm_init x down up))) x = true.
Proof.
  intros F A B LA LB S. apply constrain_covers; try assumption.
  - clear S. revert down up A B LA LB. induction F as [|xi x F0 F IH]; intros [|a down] [|b up] A B LA LB; try discriminate; [constructor|].
    inversion A; inversion B; subst. cbn [map2 combine]. constructor; [split; apply round_is_double|]. apply IH; [assumption|assumption|now injection LA|now injection LB].
  - clear S. revert down up A B LA LB. induction F as [|xi x F0 F IH]; intros [|a down] [|b up] A B LA LB; try discriminate; [constructor|].
    inversion A; inversion B; subst. cbn [map2 combine]. constructor; [split; [now apply fsub_amount|now apply fadd_amount]|].
    apply IH; [assumption|assumption|now injection LA|now injection LB].
Qed.
Lemma mean_covers x mr space : Forall finite x -> Forall2 within space x -> frow_matches OrderedBound (fbnd (fconstrain mr space (fmean_init x))) x = true.
Proof.
  intros F S. apply constrain_covers; try assumption; clear S; induction F as [|xi x F0 F IH]; cbn [combine]; constructor; try assumption.
  - split; apply F0.
  - destruct F0 as [D F0]. destruct xi as [q| | |]; try discriminate. split; now apply nle_refl.
Qed.
(* the region a condition is clipped to *)
Lemma constrained_region mr space bs : Forall finite_pair bs -> Forall (fun b => nle (fst b) (snd b) = true) bs -> Forall (fun s => nle (fst s) (snd s) = true) space ->
  length space = length bs ->
  Forall2 (fun s b => nle (fst s) (fst b) = true /\ nle (fst b) (snd b) = true /\ nle (snd b) (snd s) = true) space (fbnd (fconstrain mr space (mkF OrderedBound bs))).
Proof.
  intros F O S L. unfold fconstrain, fclipped, fmin_range. cbn [fmt fbnd].
  enough (G : forall bs', Forall (fun b => nle (fst b) (snd b) = true) bs' -> length space = length bs' ->
    Forall2 (fun s b => nle (fst s) (fst b) = true /\ nle (fst b) (snd b) = true /\ nle (snd b) (snd s) = true) space (map2 (fclip_pair OrderedBound) space bs')).
  { destruct (nlt (Fin 0) mr) eqn:P; [|now apply G]. apply G; [|now rewrite map_length]. clear - F O P.
    induction F as [|b bs [F1 F2] F IH]; [constructor|]. inversion O; subst. cbn [map]. constructor; [|now apply IH].
    unfold fmin_range_pair. destruct (nlt (fwidth OrderedBound b) mr); [|assumption]. pose proof (half_amount mr P) as H. cbn [fst snd].
    apply nle_trans with (fst b); [now apply fsub_amount|]. apply nle_trans with (snd b); [assumption|now apply fadd_amount]. }
  clear - S. induction S as [|s space S0 S IH]; intros [|b bs] O L; try discriminate; [constructor|]. inversion O as [|? ? O0 O']; subst. cbn [map2].
  constructor; [|apply IH; [assumption|now injection L]].
  cbn [fclip_pair fst snd]. destruct (nle_nonnan _ _ O0) as [N1 N2].
  destruct (clip_region (fst s) (snd s) (fst b) N1 S0) as [A1 A2]. destruct (clip_region (fst s) (snd s) (snd b) N2 S0) as [B1 B2]. cbn [fst snd] in *.
  repeat split; [exact A1|now apply clip_order|exact B2].
Qed.

(* ----- how far rounding shortens the minimum range ----- *)
Lemma add_error a b : dyadic a -> dyadic b -> Qabs (round_q (a + b) - (a + b)) <= two_to (-53) * Qabs (a + b).
Proof.
  intros DA DB. destruct (Qlt_le_dec (Qabs (a + b)) (two_to (-1022))) as [S|B]; [|now apply round_q_relative].
  assert (D : dyadic (a + b)).
  { destruct (dyadic_grid a DA) as (n & HA). destruct (dyadic_grid b DB) as (k & HB).
    assert (E : a + b == inject_Z (n + k) * two_to (-1074)) by (rewrite HA, HB, inject_Z_plus; ring).
    exists (n + k)%Z, (-1074)%Z. split; [|split; [lia|exact E]].
    pose proof (two_to_pos (-1074)) as P. rewrite E, Qabs_Qmult, (Qabs_pos (two_to (-1074))) in S by lra.
    assert (T : two_to (-1022) == inject_Z (2 ^ 52) * two_to (-1074)) by (rewrite (two_to_multiple (-1022) (-1074)) by lia; reflexivity).
    rewrite T in S. apply Qmult_lt_r in S; [|exact P]. change (Qabs (inject_Z (n + k))) with (inject_Z (Z.abs (n + k))) in S. rewrite <- Zlt_Qlt in S. lia. }
  apply round_q_dyadic in D. setoid_replace (round_q (a + b) - (a + b)) with 0 by lra. change (Qabs 0) with 0.
  pose proof (Qabs_nonneg (a + b)). pose proof (two_to_pos (-53)). nra.
Qed.
Lemma fin_round q r : round (Fin q) = Fin r -> r = round_q q.
Proof. cbn [round]. destruct (qle _ _); [discriminate|]. destruct (qle _ _); [discriminate|]. now injection 1. Qed.
Lemma dyadic_opp q : dyadic q -> dyadic (- q).
Proof. intros (m & e & M & E & H). exists (- m)%Z, e. rewrite Z.abs_opp. repeat split; [exact M|exact E|]. rewrite H, inject_Z_opp. ring. Qed.
Lemma half_exact mr : dyadic mr -> two_to (-1021) <= mr -> round_q (mr / 2) == mr / 2.
Proof.
  intros D B. pose proof (two_to_pos (-1021)) as P.
  pose proof (round_q_dyadic mr D) as R. assert (N : ~ mr == 0) by lra. rewrite (round_q_def mr N) in R.
  assert (LG : log2 (Qabs mr) = log2 mr) by (apply log2_compat; [rewrite Qabs_pos by lra; lra|apply Qabs_pos; lra]).
  assert (K : (-1021 <= log2 mr)%Z).
  { destruct (log2_spec mr) as [_ U]; [lra|]. destruct (Z_le_gt_dec (-1021) (log2 mr)) as [G|G]; [exact G|exfalso].
    assert (two_to (log2 mr + 1) <= two_to (-1021)) by (apply two_to_le; lia). lra. }
  assert (L : last_digit mr = (log2 mr - 52)%Z) by (unfold last_digit; rewrite LG; lia).
  pose proof (nearest_size mr N) as S. set (n := nearest _) in *.
  apply round_q_dyadic.
  destruct (Z.eq_dec (Z.abs n) (2 ^ 53)) as [B53|B53].
  - exists (Z.sgn n * 2 ^ 52)%Z, (last_digit mr). split; [|split; [lia|]].
    + destruct (Z.sgn_spec n) as [[A ->]|[[A ->]|[A ->]]]; lia.
    + fold (two_to (last_digit mr)). rewrite <- R at 1.
      assert (n = Z.sgn n * 2 ^ 52 * 2)%Z. { rewrite <- Z.mul_assoc. change (2 ^ 52 * 2)%Z with (2 ^ 53)%Z. rewrite <- B53. lia. }
      rewrite H at 1. rewrite inject_Z_mult. change (inject_Z 2) with 2. field.
  - exists n, (last_digit mr - 1)%Z. split; [lia|split; [lia|]]. fold (two_to (last_digit mr - 1)). rewrite <- R at 1.
    assert (two_to (last_digit mr) == 2 * two_to (last_digit mr - 1)) as ->. { rewrite <- two_to_succ. replace (last_digit mr - 1 + 1)%Z with (last_digit mr) by lia. reflexivity. }
    field.
Qed.
Lemma min_range_width lo hi mr l h : double (Fin lo) -> double (Fin hi) -> double (Fin mr) -> two_to (-1021) <= mr -> lo <= hi ->
  fmin_range_pair OrderedBound (Fin mr) (Fin lo, Fin hi) = (Fin l, Fin h) ->
  mr - two_to (-53) * (Qabs lo + Qabs hi + mr) <= h - l.
Proof.
  intros [DL BL] [DH BH] [DM BM] PM O E. pose proof (two_to_pos (-1021)) as P. pose proof (two_to_pos (-53)) as P53.
  assert (ABS : forall q, - Qabs q <= q <= Qabs q). { intro q. pose proof (Qle_Qabs q). pose proof (Qle_Qabs (- q)) as B. rewrite Qabs_opp in B. split; lra. }
  unfold fmin_range_pair in E. cbn [fst snd] in E. destruct (nlt (fwidth OrderedBound (Fin lo, Fin hi)) (Fin mr)) eqn:W.
  - injection E as EL EH.
    assert (HF : exists h0, fdiv (Fin mr) (Fin 2) = Fin h0 /\ h0 == mr / 2).
    { unfold fdiv, ndiv. change (qeq 2 0) with false. cbv iota. pose proof (half_exact mr DM PM) as HE. cbn [round].
      fold (two_to 1024) in BM. rewrite Qabs_pos in BM by lra. pose proof (two_to_pos 1024) as P1.
      assert (M2 : mr / 2 == mr * (1 # 2)) by field.
      destruct (qle (two_to 1024) (round_q (mr / 2))) eqn:A1; [apply qle_iff in A1; lra|].
      destruct (qle (round_q (mr / 2)) (- two_to 1024)) eqn:A2; [apply qle_iff in A2; lra|]. eauto. }
    destruct HF as (h0 & HF & HE). rewrite HF in EL, EH. unfold fsub, nsub, fadd in EL, EH. cbn [nneg nadd] in EL, EH.
    apply fin_round in EL, EH.
    assert (D0 : dyadic h0). { apply dyadic_compat with (round_q (mr / 2)); [|apply round_q_is_dyadic]. rewrite half_exact by assumption. symmetry. exact HE. }
    pose proof (add_error lo (- h0) DL (dyadic_opp _ D0)) as E1. pose proof (add_error hi h0 DH D0) as E2. rewrite <- EL in E1. rewrite <- EH in E2.
    apply Qabs_Qle_condition in E1, E2. destruct E1 as [_ E1]. destruct E2 as [E2 _].
    pose proof (Qabs_triangle lo (- h0)) as T1. pose proof (Qabs_triangle hi h0) as T2. rewrite Qabs_opp in T1.
    assert (Q0 : Qabs h0 == mr / 2) by (rewrite Qabs_pos; [exact HE|]; assert (mr / 2 == mr * (1 # 2)) by field; lra). rewrite Q0 in T1, T2.
    assert (M2 : mr / 2 == mr * (1 # 2)) by field.
    assert (two_to (-53) * Qabs (lo + - h0) <= two_to (-53) * (Qabs lo + mr * (1 # 2))) by (apply Qmult_le_l; [exact P53|lra]).
    assert (two_to (-53) * Qabs (hi + h0) <= two_to (-53) * (Qabs hi + mr * (1 # 2))) by (apply Qmult_le_l; [exact P53|lra]).
    lra.
  - injection E as <- <-. cbn [fwidth fst snd] in W. unfold fsub, nsub in W. cbn [nneg nadd] in W.
    destruct (ABS lo) as [L1 L2]. destruct (ABS hi) as [H1 H2].
    assert (G : mr <= round_q (hi + - lo) \/ two_to 1024 <= round_q (hi + - lo)).
    { cbn [round] in W. destruct (qle (two_to 1024) (round_q (hi + - lo))) eqn:A1; [right; now apply qle_iff|].
      destruct (qle (round_q (hi + - lo)) (- two_to 1024)) eqn:A2; [discriminate|]. left. now apply qlt_false in W. }
    assert (G' : mr <= round_q (hi + - lo)). { destruct G as [G|G]; [exact G|]. fold (two_to 1024) in BM. rewrite Qabs_pos in BM by lra. lra. }
    pose proof (add_error hi (- lo) DH (dyadic_opp _ DL)) as E1. apply Qabs_Qle_condition in E1. destruct E1 as [_ E1].
    rewrite (Qabs_pos (hi + - lo)) in E1 by lra.
    assert (two_to (-53) * (hi + - lo) <= two_to (-53) * (Qabs lo + Qabs hi)) by (apply Qmult_le_l; [exact P53|lra]).
    assert (0 <= two_to (-53) * mr) by nra. lra.
Qed.
