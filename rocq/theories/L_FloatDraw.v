(* Lemmas on drawing by weights in double precision. *)
From Coq Require Import Permutation Lqa.
From Verif Require Import PyNum PyFloat PyList PyMon M_Matching M_Float M_FloatFitness M_FloatDraw S_Float S_FloatDraw L_Num L_Float L_FloatProps L_FloatMix L_FloatFitness.

(* ----- rounding of numbers that are not large ----- *)
Lemma add_small a b m : dyadic a -> dyadic b -> Qabs (a + b) <= m -> m <= two_to 1000 -> fadd (Fin a) (Fin b) = Fin (round_q (a + b)) /\ Qabs (round_q (a + b) - (a + b)) <= u * m.
Proof.
  intros A B H M. split; [unfold fadd; cbn [nadd]; apply round_small; lra|]. pose proof u_pos. apply Qle_trans with (u * Qabs (a + b)); [now apply add_error|]. apply Qmult_le_l; [apply u_pos|exact H].
Qed.
Lemma sub_small a b m : dyadic a -> dyadic b -> Qabs (a - b) <= m -> m <= two_to 1000 -> fsub (Fin a) (Fin b) = Fin (round_q (a - b)) /\ Qabs (round_q (a - b) - (a - b)) <= u * m.
Proof. intros A B H M. unfold fsub, nsub. cbn [nneg]. apply (add_small a (- b) m A (dyadic_opp _ B) H M). Qed.
Lemma four_small : 4 <= two_to 1000.
Proof. change 4 with (two_to 2). apply two_to_le. lia. Qed.
Lemma eight_u_dyadic : dyadic (8 * u).
Proof. exists 1%Z, (-50)%Z. split; [lia|split; [lia|]]. vm_compute. reflexivity. Qed.
Lemma round_abs_le q d : dyadic d -> Qabs q <= d -> Qabs (round_q q) <= d.
Proof.
  intros D H. apply Qabs_Qle_condition in H. destruct H as [A B]. apply round_q_mono in A, B. rewrite (round_q_dyadic _ D) in B. rewrite (round_q_dyadic _ (dyadic_opp _ D)) in A. apply Qabs_Qle_condition. split; lra.
Qed.
Lemma abs_le a m : - m <= a -> a <= m -> Qabs a <= m.
Proof. intros. apply Qabs_Qle_condition. split; lra. Qed.
Ltac abs_in H := apply Qabs_Qle_condition in H; destruct H.

(* ----- the compensated sum ----- *)
Lemma kahan_error : forall l s c V k, Forall dyadic l -> Forall (fun x => 0 <= x) l -> dyadic s -> dyadic c -> 0 <= V -> V + qsum l <= 3 # 2 ->
  Qabs c <= 8 * u -> Qabs (s - V) <= 15 * inject_Z (Z.of_nat k) * u -> 15 * inject_Z (Z.of_nat (k + length l)) * u <= 1 # 4 ->
  exists r, fkahan_from (Fin s) (Fin c) (map Fin l) = Fin r /\ Qabs (r - (V + qsum l)) <= 15 * inject_Z (Z.of_nat (k + length l)) * u.
Proof.
  pose proof u_pos as U. assert (U8 : u <= 1 # 256) by (change (1 # 256) with (two_to (-8)); apply two_to_le; lia).
  induction l as [|x l IH]; intros s c V k FD FP DS DC V0 VL HC HS HK.
  - exists s. split; [reflexivity|]. change (qsum []) with 0. rewrite Nat.add_0_r. setoid_replace (s - (V + 0)) with (s - V) by ring. exact HS.
  - inversion FD as [|? ? DX FD']; inversion FP as [|? ? PX FP']; subst. change (qsum (x :: l)) with (x + qsum l) in *. cbn [map fkahan_from].
    assert (QL : 0 <= qsum l). { clear - FP'. induction FP' as [|y l P F IHF]; [change (qsum []) with 0; lra|]. change (qsum (y :: l)) with (y + qsum l). lra. }
    assert (KN : inject_Z (Z.of_nat k) <= inject_Z (Z.of_nat (k + length (x :: l)))) by (rewrite <- Zle_Qle; lia).
    assert (KS : inject_Z (Z.of_nat (S k)) == inject_Z (Z.of_nat k) + 1) by (replace (Z.of_nat (S k)) with (Z.of_nat k + 1)%Z by lia; rewrite inject_Z_plus; reflexivity).
    assert (K0 : 0 <= inject_Z (Z.of_nat k)) by (change 0 with (inject_Z 0); rewrite <- Zle_Qle; lia).
    assert (HS4 : 15 * inject_Z (Z.of_nat k) * u <= 1 # 4) by nra. abs_in HC. abs_in HS.
    destruct (sub_small x c 2 DX DC) as [EY RY]; [apply abs_le; lra|pose proof four_small; lra|]. rewrite EY. set (y := round_q (x - c)) in *.
    assert (DY : dyadic y) by apply round_q_is_dyadic. abs_in RY.
    destruct (add_small s y 4 DS DY) as [ET RT]; [apply abs_le; lra|apply four_small|]. cbv zeta. rewrite ET. set (t := round_q (s + y)) in *.
    assert (DT : dyadic t) by apply round_q_is_dyadic. abs_in RT.
    destruct (sub_small t s 4 DT DS) as [ER RR]; [apply abs_le; lra|apply four_small|]. rewrite ER. set (r := round_q (t - s)) in *.
    assert (DR : dyadic r) by apply round_q_is_dyadic. abs_in RR.
    assert (RY8 : Qabs (r - y) <= 8 * u) by (apply abs_le; lra).
    destruct (sub_small r y (8 * u) DR DY RY8) as [EC _]; [pose proof four_small; lra|]. rewrite EC.
    destruct (IH t (round_q (r - y)) (V + x) (S k)) as (z & EZ & RZ); auto.
    + apply round_q_is_dyadic.
    + lra.
    + lra.
    + now apply round_abs_le; [apply eight_u_dyadic|].
    + rewrite KS. apply abs_le; lra.
    + replace (S k + length l)%nat with (k + length (x :: l))%nat by (cbn [length]; lia). exact HK.
    + exists z. split; [exact EZ|]. replace (k + length (x :: l))%nat with (S k + length l)%nat by (cbn [length]; lia). setoid_replace (z - (V + (x + qsum l))) with (z - (V + x + qsum l)) by ring. exact RZ.
Qed.

(* ----- probabilities ----- *)
Lemma dev_sum a e : forall ps qs, Forall2 (fun p q => Qabs (p - q) <= a * q + e) ps qs -> Qabs (qsum ps - qsum qs) <= a * qsum qs + count ps * e.
Proof.
  induction 1 as [|p q ps qs H F IH].
  - change (qsum (@nil Q)) with 0. change (count []) with 0. change (Qabs (0 - 0)) with 0. lra.
  - change (qsum (p :: ps)) with (p + qsum ps). change (qsum (q :: qs)) with (q + qsum qs).
    assert (C : count (p :: ps) == count ps + 1). { unfold count. cbn [length]. replace (Z.of_nat (S (length ps))) with (Z.of_nat (length ps) + 1)%Z by lia. now rewrite inject_Z_plus. }
    rewrite C. abs_in H. abs_in IH. apply abs_le; lra.
Qed.
Lemma Forall2_firstn {A B} (R : A -> B -> Prop) : forall k l m, Forall2 R l m -> Forall2 R (firstn k l) (firstn k m).
Proof. induction k; intros l m H; [constructor|]. inversion H; subst; cbn; constructor; auto. Qed.
Lemma qsum_nonneg l : Forall (fun x => 0 <= x) l -> 0 <= qsum l.
Proof. induction 1 as [|x l P F IH]; [change (qsum []) with 0; lra|]. change (qsum (x :: l)) with (x + qsum l). lra. Qed.
Lemma Forall_firstn {A} (P : A -> Prop) k l : Forall P l -> Forall P (firstn k l).
Proof. intros F. revert k. induction F; intros [|k]; cbn; constructor; auto. Qed.
Lemma Forall_skipn {A} (P : A -> Prop) k l : Forall P l -> Forall P (skipn k l).
Proof. intros F. revert k. induction F; intros [|k]; cbn; auto. Qed.
Lemma qsum_split k l : qsum l == qsum (firstn k l) + qsum (skipn k l).
Proof. rewrite <- (firstn_skipn k l) at 1. apply qsum_app. Qed.
Lemma qsum_firstn_le k l : Forall (fun x => 0 <= x) l -> 0 <= qsum (firstn k l) <= qsum l.
Proof. intros F. pose proof (qsum_split k l). pose proof (qsum_nonneg _ (Forall_firstn _ k l F)). pose proof (qsum_nonneg _ (Forall_skipn _ k l F)). lra. Qed.
Lemma qsum_scaled T l : qsum (map (fun w => w / T) l) == qsum l / T.
Proof. induction l as [|x l IH]; [change (qsum (map (fun w => w / T) [])) with 0; change (qsum []) with 0; unfold Qdiv; ring|]. change (qsum (map (fun w => w / T) (x :: l))) with (x / T + qsum (map (fun w => w / T) l)). rewrite IH. change (qsum (x :: l)) with (x + qsum l). unfold Qdiv. ring. Qed.
Lemma count_firstn k (l : list Q) : count (firstn k l) <= count l.
Proof. unfold count. rewrite <- Zle_Qle. rewrite firstn_length. lia. Qed.

(* ----- the cumulative sum ----- *)
Fixpoint csum_from (s : Q) (l : list Q) : list Q := match l with [] => [] | x :: l' => let s' := round_q (s + x) in s' :: csum_from s' l' end.
Lemma csum_length l : forall s, length (csum_from s l) = length l.
Proof. induction l; intros s; cbn; auto. Qed.
Lemma csum_error : forall l s V k, Forall dyadic l -> Forall (fun x => 0 <= x) l -> dyadic s -> 0 <= V -> V + qsum l <= 3 # 2 ->
  Qabs (s - V) <= 2 * inject_Z (Z.of_nat k) * u -> 2 * inject_Z (Z.of_nat (k + length l)) * u <= 1 # 4 ->
  fcumsum_from (Fin s) (map Fin l) = map Fin (csum_from s l) /\
  forall j c, nth_error (csum_from s l) j = Some c -> Qabs (c - (V + qsum (firstn (S j) l))) <= 2 * inject_Z (Z.of_nat (k + length l)) * u.
Proof.
  pose proof u_pos as U.
  induction l as [|x l IH]; intros s V k FD FP DS V0 VL HS HK.
  - split; [reflexivity|]. intros j c E. destruct j; discriminate E.
  - inversion FD as [|? ? DX FD']; inversion FP as [|? ? PX FP']; subst. change (qsum (x :: l)) with (x + qsum l) in *. cbn [map fcumsum_from csum_from]. cbv zeta.
    pose proof (qsum_nonneg _ FP') as QL.
    assert (KN : inject_Z (Z.of_nat (S k)) <= inject_Z (Z.of_nat (k + length (x :: l)))) by (rewrite <- Zle_Qle; cbn [length]; lia).
    assert (KS : inject_Z (Z.of_nat (S k)) == inject_Z (Z.of_nat k) + 1) by (replace (Z.of_nat (S k)) with (Z.of_nat k + 1)%Z by lia; rewrite inject_Z_plus; reflexivity).
    assert (KU : inject_Z (Z.of_nat (S k)) * u <= inject_Z (Z.of_nat (k + length (x :: l))) * u) by (apply Qmult_le_compat_r; lra). rewrite KS in KU.
    abs_in HS. destruct (add_small s x 2 DS DX) as [ET RT]; [apply abs_le; lra|pose proof four_small; lra|]. rewrite ET. set (t := round_q (s + x)) in *. abs_in RT.
    assert (HT : Qabs (t - (V + x)) <= 2 * inject_Z (Z.of_nat (S k)) * u) by (rewrite KS; apply abs_le; lra).
    destruct (IH t (V + x) (S k)) as [EF RF]; auto.
    + apply round_q_is_dyadic.
    + lra.
    + lra.
    + replace (S k + length l)%nat with (k + length (x :: l))%nat by (cbn [length]; lia). exact HK.
    + split; [now rewrite EF|]. replace (S k + length l)%nat with (k + length (x :: l))%nat in RF by (cbn [length]; lia).
      intros [|j] c E; cbn [nth_error] in E.
      * injection E as <-. change (firstn 1 (x :: l)) with [x]. change (qsum [x]) with (x + 0). setoid_replace (t - (V + (x + 0))) with (t - (V + x)) by ring.
        eapply Qle_trans; [exact HT|]. rewrite KS. lra.
      * specialize (RF j c E). change (firstn (S (S j)) (x :: l)) with (x :: firstn (S j) l). change (qsum (x :: firstn (S j) l)) with (x + qsum (firstn (S j) l)).
        setoid_replace (c - (V + (x + qsum (firstn (S j) l)))) with (c - (V + x + qsum (firstn (S j) l))) by ring. exact RF.
Qed.
(* it does not fall, and stays where nothing is added *)
Lemma csum_steps : forall l s j a b, dyadic s -> Forall (fun x => 0 <= x) l -> nth_error (s :: csum_from s l) j = Some a -> nth_error (csum_from s l) j = Some b ->
  a <= b /\ (forall x, nth_error l j = Some x -> x == 0 -> a == b).
Proof.
  induction l as [|x l IH]; intros s j a b DS FP EA EB; [destruct j; discriminate EB|]. inversion FP as [|? ? PX FP']; subst. cbn [csum_from] in *. cbv zeta in *.
  destruct j as [|j]; cbn [nth_error] in *.
  - injection EA as <-. injection EB as <-. split.
    + apply Qle_trans with (round_q s); [rewrite (round_q_dyadic _ DS); apply Qle_refl|apply round_q_mono; lra].
    + intros y E Y. injection E as <-. rewrite <- (round_q_dyadic _ DS) at 1. apply round_q_compat. rewrite Y. ring.
  - apply (IH (round_q (s + x)) j a b (round_q_is_dyadic _) FP' EA EB).
Qed.

(* ----- searching ----- *)
Lemma position_first : forall cdf v i, (i < length cdf)%nat -> (fposition (map Fin cdf) (Fin v) = i <-> (forall j c, (j < i)%nat -> nth_error cdf j = Some c -> c <= v) /\ (forall c, nth_error cdf i = Some c -> v < c)).
Proof.
  induction cdf as [|c cdf IH]; intros v i L; [cbn in L; lia|]. cbn [map fposition nlt]. destruct (qlt v c) eqn:Q.
  - apply qlt_iff in Q. split.
    + intros <-. split; [intros j c' LT; lia|]. intros c' E. injection E as <-. exact Q.
    + intros [H _]. destruct i as [|i]; [reflexivity|]. assert (c <= v) by (apply (H 0%nat c); [lia|reflexivity]). lra.
  - apply qlt_false in Q. destruct i as [|i].
    + split; [discriminate|]. intros [_ H]. specialize (H c eq_refl). lra.
    + cbn [length] in L. assert (L' : (i < length cdf)%nat) by lia. specialize (IH v i L'). split.
      * intros E. injection E as E. apply IH in E. destruct E as [A B]. split; [|exact B]. intros [|j] c' LT E; [injection E as <-; exact Q|]. apply (A j c'); [lia|exact E].
      * intros [A B]. f_equal. apply IH. split; [|exact B]. intros j c' LT E. apply (A (S j) c'); [lia|exact E].
Qed.
Definition rising (l : list Q) : Prop := forall j a b, nth_error l j = Some a -> nth_error l (S j) = Some b -> a <= b.
Lemma rising_far l : rising l -> forall k j a b, nth_error l j = Some a -> nth_error l (j + k) = Some b -> a <= b.
Proof.
  intros R. induction k as [|k IH]; intros j a b EA EB; [rewrite Nat.add_0_r in EB; rewrite EA in EB; injection EB as <-; apply Qle_refl|].
  destruct (nth_error l (j + k)) as [m|] eqn:EM; [|apply nth_error_None in EM; assert (nth_error l (j + S k) <> None) by (rewrite EB; discriminate); apply nth_error_Some in H; lia].
  apply Qle_trans with m; [exact (IH j a m EA EM)|]. replace (j + S k)%nat with (S (j + k)) in EB by lia. exact (R _ _ _ EM EB).
Qed.
Definition lower_end (cdf : list Q) (i : nat) : Q := match i with 0%nat => 0 | S j => nth j cdf 0 end.
Lemma position_between cdf v i : rising cdf -> 0 <= v -> (i < length cdf)%nat -> (fposition (map Fin cdf) (Fin v) = i <-> lower_end cdf i <= v < nth i cdf 0).
Proof.
  intros R V L. rewrite (position_first cdf v i L). destruct (nth_error cdf i) as [c|] eqn:EC; [|apply nth_error_None in EC; lia]. rewrite (nth_error_nth cdf i 0 EC).
  split.
  - intros [A B]. split; [|now apply B]. destruct i as [|i]; [exact V|]. cbn [lower_end]. destruct (nth_error cdf i) as [d|] eqn:ED; [|apply nth_error_None in ED; lia]. rewrite (nth_error_nth cdf i 0 ED). apply (A i d); [lia|exact ED].
  - intros [A B]. split; [|intros c' E; injection E as <-; exact B]. intros j d LT E. destruct i as [|i]; [lia|]. cbn [lower_end] in A.
    destruct (nth_error cdf i) as [m|] eqn:EM; [|apply nth_error_None in EM; lia]. rewrite (nth_error_nth cdf i 0 EM) in A. apply Qle_trans with m; [|exact A].
    apply (rising_far cdf R (i - j) j); [exact E|]. replace (j + (i - j))%nat with i by lia. exact EM.
Qed.
Lemma Qmult_le_l_weak a b c : 0 <= a -> b <= c -> a * b <= a * c.
Proof. intros. rewrite (Qmult_comm a b), (Qmult_comm a c). now apply Qmult_le_compat_r. Qed.
Section Wheel.
Variables (ws : list Q) (t : M_FloatFitness.order).
Hypothesis dyadics : Forall dyadic ws.
Hypothesis amounts : Forall (fun w => 0 <= w) ws.
Hypothesis few : (Z.of_nat (length ws) <= 2 ^ 20)%Z.
Hypothesis some_weight : 0 < qsum ws.
Hypothesis bounded : qsum ws <= two_to 900.
Hypothesis same_weights : Permutation (leaves t) (map Fin ws).
Notation n := (count ws).
Notation T := (qsum ws).
Lemma few_q : n * u <= two_to (-33).
Proof.
  assert (H : n <= two_to 20).
  { rewrite two_to_int by lia. unfold count. rewrite <- Zle_Qle. exact few. }
  apply Qle_trans with (two_to 20 * u); [apply Qmult_le_compat_r; [exact H|pose proof u_pos; lra]|]. rewrite <- two_to_plus. apply Qle_refl.
Qed.
Lemma one_q : 1 <= n.
Proof. unfold count. change 1 with (inject_Z 1). rewrite <- Zle_Qle. destruct ws; [change (qsum []) with 0 in some_weight; lra|]. cbn [length]. lia. Qed.
Lemma few_small : two_to (-33) <= 1 # 1024.
Proof. change (1 # 1024) with (two_to (-10)). apply two_to_le. lia. Qed.
Lemma asum_amounts l : Forall (fun w => 0 <= w) l -> asum l == qsum l.
Proof. induction 1 as [|x l P F IH]; [reflexivity|]. change (asum (x :: l)) with (Qabs x + asum l). change (qsum (x :: l)) with (x + qsum l). rewrite (Qabs_pos x P). lra. Qed.
Lemma total_error : exists s, fsum_by t = Fin s /\ Qabs (s - T) <= 2 * n * u * T.
Proof.
  pose proof u_pos as U. pose proof few_q as FQ. pose proof few_small as FS. pose proof one_q as N1.
  destruct (Permutation_map_inv _ _ same_weights) as (vs & LV & PV).
  assert (C : count vs = n) by (unfold count; now rewrite (Permutation_length PV)).
  assert (AV : asum vs == T). { rewrite <- (asum_amounts ws amounts). unfold asum. symmetry. apply qsum_perm. now apply Permutation_map. }
  destruct (tree_error t vs LV) as (_ & s & ES & _ & RS).
  - apply (Permutation_Forall PV dyadics).
  - rewrite C. lra.
  - now rewrite AV.
  - exists s. split; [exact ES|]. rewrite C, AV in RS. assert (SV : qsum vs == T) by (symmetry; now apply qsum_perm). rewrite SV in RS.
    apply Qle_trans with (2 * (n - 1) * u * T); [exact RS|]. apply Qmult_le_compat_r; [nra|lra].
Qed.
(* what is asked of numpy *)
Definition probs (s : Q) : list Q := map (fun w => round_q (w / s)) ws.
Lemma probs_error s : Qabs (s - T) <= 2 * n * u * T -> 0 < s /\
  fprobabilities (Fin s) (map Fin ws) = map Fin (probs s) /\ Forall2 (fun p q => Qabs (p - q) <= (4 * n + 2) * u * q + two_to (-1075)) (probs s) (map (fun w => w / T) ws).
Proof.
  intros H. pose proof u_pos as U. pose proof few_q as FQ. pose proof few_small as FS. pose proof one_q as N1. abs_in H.
  assert (NU : 2 * n * u * T <= (1 # 512) * T) by (apply Qmult_le_compat_r; lra).
  assert (S0 : 0 < s) by lra. split; [exact S0|].
  assert (NZ : qeq s 0 = false) by (apply qeq_false; lra).
  assert (EACH : forall w, In w ws -> 0 <= w <= T).
  { intros w I. split; [now apply (proj1 (Forall_forall _ _) amounts)|]. apply in_split in I. destruct I as (l1 & l2 & E). assert (F := amounts). rewrite E in F |- *. rewrite qsum_app. change (qsum (w :: l2)) with (w + qsum l2). apply Forall_app in F. destruct F as [F1 F2]. inversion F2; subst. pose proof (qsum_nonneg _ F1). pose proof (qsum_nonneg _ H4). lra. }
  split.
  - unfold fprobabilities, probs. rewrite !map_map. apply map_ext_in. intros w I. destruct (EACH w I) as [W0 WT]. unfold fdiv. cbn [ndiv]. rewrite NZ. apply round_small.
    assert (Q0 : 0 <= w / s) by (apply Qle_shift_div_l; lra). rewrite Qabs_pos by exact Q0. apply Qle_trans with 2; [apply Qle_shift_div_r; lra|pose proof four_small; lra].
  - unfold probs. assert (G : forall l, (forall w, In w l -> 0 <= w <= T) -> Forall2 (fun p q => Qabs (p - q) <= (4 * n + 2) * u * q + two_to (-1075)) (map (fun w => round_q (w / s)) l) (map (fun w => w / T) l)).
    { induction l as [|w l IH]; intros E; cbn [map]; constructor; [|apply IH; intros; apply E; now right]. destruct (E w (or_introl eq_refl)) as [W0 WT].
      set (q := w / T). set (x := w / s). assert (q0 : 0 <= q) by (apply Qle_shift_div_l; lra). assert (q1 : q <= 1) by (apply Qle_shift_div_r; lra).
      assert (XS : x * s == q * T) by (unfold x, q; field; split; lra).
      assert (x0 : 0 <= x) by (apply Qle_shift_div_l; lra).
      assert (X2 : x <= 2 * q). { apply Qmult_le_r with s; [exact S0|]. rewrite XS. assert (q * T <= 2 * q * s) by (assert (T <= 2 * s) by lra; nra). lra. }
      assert (XQ : Qabs (x - q) <= 4 * n * u * q).
      { apply Qmult_le_r with s; [exact S0|]. assert (Z : Qabs (x - q) * s == Qabs (q * (T - s))). { rewrite <- (Qabs_pos s) at 1 by lra. rewrite <- Qabs_Qmult. setoid_replace ((x - q) * s) with (q * (T - s)) by (rewrite Qmult_comm; unfold Qminus; rewrite Qmult_plus_distr_r; rewrite (Qmult_comm s x), XS; ring). reflexivity. }
        rewrite Z, Qabs_Qmult, (Qabs_pos q q0). assert (DT : Qabs (T - s) <= 2 * n * u * T) by (apply abs_le; lra).
        apply Qle_trans with (q * (2 * n * u * T)); [rewrite (Qmult_comm q), (Qmult_comm q); apply Qmult_le_compat_r; assumption|].
        assert (TS : T <= 2 * s) by lra. assert (N0 : 0 <= n * u) by (apply Qmult_le_0_compat; lra). assert (NQ : 0 <= n * u * q) by (apply Qmult_le_0_compat; assumption).
        pose proof (Qmult_le_l_weak _ _ _ NQ TS). lra. }
      pose proof (round_q_slack x) as RX. rewrite (Qabs_pos x x0) in RX. assert (UX : u * x <= u * (2 * q)) by (apply Qmult_le_l; assumption).
      abs_in RX. abs_in XQ. assert (D : (4 * n + 2) * u * q == 4 * n * u * q + u * (2 * q)) by ring. apply abs_le; lra. }
    apply G. exact EACH.
Qed.

Notation e1 := ((4 * n + 3) * u).
Lemma eta_small : n * two_to (-1075) <= u.
Proof.
  pose proof few_q as FQ. pose proof u_pos as U. assert (E : two_to (-1075) == u * two_to (-1022)) by (rewrite <- two_to_plus; reflexivity). rewrite E. rewrite Qmult_assoc.
  assert (P : 0 < two_to (-1022)) by apply two_to_pos. apply Qle_trans with (two_to (-33) * two_to (-1022)); [apply Qmult_le_compat_r; lra|]. rewrite <- two_to_plus. apply two_to_le. lia.
Qed.
Lemma probs_length s : length (probs s) = length ws.
Proof. unfold probs. apply map_length. Qed.
Lemma probs_dyadic s : Forall dyadic (probs s).
Proof. unfold probs. apply Forall_map. apply Forall_forall. intros w _. apply round_q_is_dyadic. Qed.
Lemma probs_amounts s : 0 < s -> Forall (fun p => 0 <= p) (probs s).
Proof. intros S0. unfold probs. apply Forall_map. eapply Forall_impl; [|exact amounts]. intros w W. cbv beta in W. apply round_q_pos. apply Qle_shift_div_l; lra. Qed.
Lemma prefix_error s k : Qabs (s - T) <= 2 * n * u * T -> Qabs (qsum (firstn k (probs s)) - qsum (firstn k ws) / T) <= e1.
Proof.
  intros H. destruct (probs_error s H) as (S0 & _ & F). pose proof (dev_sum _ _ _ _ (Forall2_firstn _ k _ _ F)) as D. rewrite firstn_map in D. rewrite qsum_scaled in D.
  pose proof (qsum_firstn_le k ws amounts) as [Q0 Q1]. set (q := qsum (firstn k ws) / T) in *.
  assert (q0 : 0 <= q) by (apply Qle_shift_div_l; lra). assert (q1 : q <= 1) by (apply Qle_shift_div_r; lra).
  pose proof eta_small as ES. pose proof u_pos as U. pose proof one_q as N1.
  assert (C : count (firstn k (probs s)) * two_to (-1075) <= n * two_to (-1075)).
  { apply Qmult_le_compat_r; [|apply Qlt_le_weak, two_to_pos]. apply Qle_trans with (count (probs s)); [apply count_firstn|]. unfold count. rewrite probs_length. apply Qle_refl. }
  assert (A : (4 * n + 2) * u * q <= (4 * n + 2) * u * 1) by (apply Qmult_le_l_weak; [apply Qmult_le_0_compat; lra|exact q1]).
  abs_in D. apply abs_le; lra.
Qed.
Lemma whole_error s : Qabs (s - T) <= 2 * n * u * T -> Qabs (qsum (probs s) - 1) <= e1.
Proof.
  intros H. pose proof (prefix_error s (length ws) H) as P. rewrite firstn_all in P. rewrite <- (probs_length s) in P at 1. rewrite firstn_all in P.
  setoid_replace (T / T) with 1 in P by (field; lra). exact P.
Qed.
Lemma e1_small : e1 <= 7 * two_to (-33).
Proof. pose proof few_q as FQ. pose proof one_q as N1. pose proof u_pos as U. assert (u <= n * u) by (rewrite <- (Qmult_1_l u) at 1; apply Qmult_le_compat_r; lra). lra. Qed.
Lemma probs_cons s : exists x l, probs s = x :: l.
Proof. destruct (probs s) as [|x l] eqn:E; [|now exists x, l]. apply (f_equal (@length Q)) in E. rewrite probs_length in E. destruct ws; [change (qsum []) with 0 in some_weight; lra|discriminate E]. Qed.
Lemma probs_accepted s : Qabs (s - T) <= 2 * n * u * T -> faccepted (map Fin (probs s)) = true.
Proof.
  intros H. pose proof u_pos as U. pose proof few_q as FQ. pose proof few_small as FS. pose proof one_q as N1. pose proof (whole_error s H) as W. pose proof e1_small as ES.
  destruct (probs_error s H) as (S0 & _ & _). pose proof (probs_dyadic s) as FD. pose proof (probs_amounts s S0) as FA. pose proof (probs_length s) as PL.
  destruct (probs_cons s) as (x & l & E). rewrite E in *. change (qsum (x :: l)) with (x + qsum l) in W. abs_in W. inversion FD as [|? ? DX FD']; inversion FA as [|? ? AX FA']; subst.
  assert (LN : inject_Z (Z.of_nat (0 + length l)) <= n) by (unfold count; rewrite <- Zle_Qle; cbn [length] in PL; lia).
  assert (NL : 15 * inject_Z (Z.of_nat (0 + length l)) * u <= 15 * (n * u)). { assert (inject_Z (Z.of_nat (0 + length l)) * u <= n * u) by (apply Qmult_le_compat_r; lra). lra. }
  destruct (kahan_error l x 0 x 0%nat FD' FA' DX dyadic_0 AX) as (r & ER & RR).
  - lra.
  - change (Qabs 0) with 0. lra.
  - setoid_replace (x - x) with 0 by ring. change (Qabs 0) with 0. change (inject_Z (Z.of_nat 0)) with 0. lra.
  - lra.
  - abs_in RR. assert (R1 : Qabs (r - 1) <= two_to (-26)).
    { assert (X : two_to (-26) == 128 * two_to (-33)) by (change 128 with (two_to 7); rewrite <- two_to_plus; reflexivity). pose proof (two_to_pos (-33)). apply abs_le; lra. }
    assert (D26 : dyadic (two_to (-26))) by (exists 1%Z, (-26)%Z; split; [lia|split; [lia|unfold two_to; ring]]).
    assert (ED : fsub (Fin r) (Fin 1) = Fin (round_q (r - 1))). { unfold fsub, nsub. cbn [nneg nadd]. change (r + - (1)) with (r - 1). apply round_small. apply Qle_trans with (two_to (-26)); [exact R1|apply two_to_le; lia]. }
    pose proof (round_abs_le _ _ D26 R1) as RD. abs_in RD.
    unfold faccepted. cbn [map fkahan]. rewrite ER. cbv zeta. rewrite ED. cbn [is_nan negb andb]. apply andb_true_iff. split.
    + apply negb_true_iff. apply not_true_iff_false. intros EX. apply (proj1 (existsb_exists _ _)) in EX. destruct EX as (p & I & N). change (Fin x :: map Fin l) with (map Fin (x :: l)) in I. apply in_map_iff in I. destruct I as (q & <- & I). cbn [nlt] in N. apply qlt_iff in N. pose proof (proj1 (Forall_forall _ _) FA q I). cbv beta in H6. lra.
    + apply negb_true_iff. cbn [nneg]. unfold fmax. cbn [is_nan orb nle]. destruct (qle (round_q (r - 1)) (- round_q (r - 1))); cbn [nlt]; apply qlt_false; lra.
Qed.
Notation e2 := ((6 * n + 3) * u).
Definition csums (s : Q) : list Q := match probs s with [] => [] | x :: l => x :: csum_from x l end.
Lemma csums_length s : length (csums s) = length ws.
Proof. rewrite <- (probs_length s). unfold csums. destruct (probs s) as [|x l]; [reflexivity|]. cbn [length]. now rewrite csum_length. Qed.
Lemma e2_small : e2 <= 9 * two_to (-33).
Proof. pose proof few_q as FQ. pose proof one_q as N1. pose proof u_pos as U. assert (u <= n * u) by (rewrite <- (Qmult_1_l u) at 1; apply Qmult_le_compat_r; lra). lra. Qed.
Lemma csums_error s : Qabs (s - T) <= 2 * n * u * T -> fcumsum (map Fin (probs s)) = map Fin (csums s) /\
  forall k c, nth_error (csums s) k = Some c -> Qabs (c - qsum (firstn (S k) ws) / T) <= e2.
Proof.
  intros H. pose proof u_pos as U. pose proof few_q as FQ. pose proof few_small as FS. pose proof one_q as N1. pose proof (whole_error s H) as W. pose proof e1_small as ES.
  destruct (probs_error s H) as (S0 & _ & _). pose proof (probs_dyadic s) as FD. pose proof (probs_amounts s S0) as FA. pose proof (probs_length s) as PL.
  pose proof (fun k => prefix_error s k H) as PE. unfold csums. destruct (probs_cons s) as (x & l & E). rewrite E in *. change (qsum (x :: l)) with (x + qsum l) in W. abs_in W.
  inversion FD as [|? ? DX FD']; inversion FA as [|? ? AX FA']; subst.
  assert (LN : inject_Z (Z.of_nat (0 + length l)) <= n) by (unfold count; rewrite <- Zle_Qle; cbn [length] in PL; lia).
  assert (NL : inject_Z (Z.of_nat (0 + length l)) * u <= n * u) by (apply Qmult_le_compat_r; lra).
  destruct (csum_error l x x 0%nat FD' FA' DX AX) as [EF RF].
  - lra.
  - setoid_replace (x - x) with 0 by ring. change (Qabs 0) with 0. change (inject_Z (Z.of_nat 0)) with 0. lra.
  - lra.
  - split; [cbn [map fcumsum]; now rewrite EF|]. intros k c EK. specialize (PE (S k)). assert (D : Qabs (c - qsum (firstn (S k) (x :: l))) <= 2 * (n * u)).
    { destruct k as [|k]; cbn [nth_error] in EK.
      - injection EK as <-. change (firstn 1 (x :: l)) with [x]. change (qsum [x]) with (x + 0). assert (0 <= n * u) by (apply Qmult_le_0_compat; lra). apply abs_le; lra.
      - specialize (RF k c EK). change (firstn (S (S k)) (x :: l)) with (x :: firstn (S k) l). change (qsum (x :: firstn (S k) l)) with (x + qsum (firstn (S k) l)). abs_in RF. apply abs_le; lra. }
    abs_in PE. abs_in D. apply abs_le; lra.
Qed.
Lemma csums_rising s : 0 < s -> rising (csums s) /\ forall k a b w, nth_error (0 :: csums s) k = Some a -> nth_error (csums s) k = Some b -> nth_error ws k = Some w -> 0 <= a /\ a <= b /\ (w == 0 -> a == b).
Proof.
  intros S0. pose proof (probs_dyadic s) as FD. pose proof (probs_amounts s S0) as FA. unfold csums. assert (PN : forall k w, nth_error ws k = Some w -> w == 0 -> exists p, nth_error (probs s) k = Some p /\ p == 0).
  { intros k w EK W0. exists (round_q (w / s)). split; [unfold probs; now rewrite nth_error_map, EK|]. transitivity (round_q 0); [apply round_q_compat; rewrite W0; field; lra|apply round_q_dyadic; apply dyadic_0]. }
  destruct (probs_cons s) as (x & l & E). rewrite E in *. inversion FD as [|? ? DX FD']; inversion FA as [|? ? AX FA']; subst.
  assert (ST : forall k a b, nth_error (x :: csum_from x l) k = Some a -> nth_error (csum_from x l) k = Some b -> a <= b) by (intros; eapply (proj1 (csum_steps l x k a b DX FA' H H0))).
  assert (R : rising (x :: csum_from x l)) by (intros k a b EA EB; exact (ST k a b EA EB)). split; [exact R|].
  intros k a b w EA EB EW. destruct k as [|k]; cbn [nth_error] in EA, EB.
  - injection EA as <-. injection EB as <-. split; [apply Qle_refl|split; [exact AX|]]. intros W0. destruct (PN 0%nat w EW W0) as (p & EP & P0). injection EP as <-. now symmetry.
  - split; [apply Qle_trans with x; [exact AX|apply (rising_far _ R k 0 x a eq_refl); exact EA]|]. split; [exact (ST k a b EA EB)|]. intros W0. destruct (PN (S k) w EW W0) as (p & EP & P0).
    apply (proj2 (csum_steps l x k a b DX FA' EA EB) p EP P0).
Qed.
Notation top s := (last (csums s) 0).
Definition cuts (s : Q) : list Q := map (fun c => round_q (c / top s)) (csums s).
Lemma cuts_length s : length (cuts s) = length ws.
Proof. unfold cuts. rewrite map_length. apply csums_length. Qed.
Lemma last_nth (l : list Q) d : last l d = nth (pred (length l)) l d.
Proof. induction l as [|x [|y l] IH]; [reflexivity|reflexivity|]. change (last (x :: y :: l) d) with (last (y :: l) d). rewrite IH. reflexivity. Qed.
Lemma csums_last s : nth_error (csums s) (pred (length ws)) = Some (top s).
Proof.
  pose proof (csums_length s) as L. assert (P : (0 < length ws)%nat) by (destruct ws; [change (qsum []) with 0 in some_weight; lra|cbn; lia]).
  rewrite last_nth, L. destruct (nth_error (csums s) (pred (length ws))) as [c|] eqn:E; [now rewrite (nth_error_nth _ _ 0 E)|]. apply nth_error_None in E. lia.
Qed.
Lemma top_error s : Qabs (s - T) <= 2 * n * u * T -> Qabs (top s - 1) <= e2.
Proof.
  intros H. pose proof (proj2 (csums_error s H) _ _ (csums_last s)) as D. assert (P : (0 < length ws)%nat) by (destruct ws; [change (qsum []) with 0 in some_weight; lra|cbn; lia]).
  replace (S (pred (length ws))) with (length ws) in D by lia. rewrite firstn_all in D. setoid_replace (T / T) with 1 in D by (field; lra). exact D.
Qed.
Lemma csums_between s k c : 0 < s -> nth_error (csums s) k = Some c -> 0 <= c <= top s.
Proof.
  intros S0 E. destruct (csums_rising s S0) as [R B]. assert (K : (k < length ws)%nat) by (rewrite <- (csums_length s); apply nth_error_Some; rewrite E; discriminate).
  split.
  - destruct (nth_error (0 :: csums s) k) as [a|] eqn:EA; [|apply nth_error_None in EA; cbn [length] in EA; rewrite csums_length in EA; lia].
    destruct (nth_error ws k) as [w|] eqn:EW; [|apply nth_error_None in EW; lia]. destruct (B k a c w EA E EW) as (A0 & AC & _). lra.
  - apply (rising_far _ R (pred (length ws) - k) k c); [exact E|]. replace (k + (pred (length ws) - k))%nat with (pred (length ws)) by lia. apply csums_last.
Qed.
Lemma top_ge s : Qabs (s - T) <= 2 * n * u * T -> 1 # 2 <= top s.
Proof. intros H. pose proof (top_error s H) as TE. pose proof e2_small. pose proof few_small. abs_in TE. lra. Qed.
Lemma cuts_error s : Qabs (s - T) <= 2 * n * u * T -> fcdf (map Fin (probs s)) = map Fin (cuts s) /\ rising (cuts s) /\
  forall k c, nth_error (cuts s) k = Some c -> Qabs (c - qsum (firstn (S k) ws) / T) <= (12 * n + 8) * u.
Proof.
  intros H. destruct (probs_error s H) as (S0 & _ & _). destruct (csums_error s H) as [EC RC]. pose proof (top_ge s H) as TG. pose proof (top_error s H) as TE. pose proof u_pos as U. pose proof four_small as FOUR.
  assert (BT : forall c, In c (csums s) -> 0 <= c / top s <= 1).
  { intros c I. apply In_nth_error in I. destruct I as (k & E). destruct (csums_between s k c S0 E). split; [apply Qle_shift_div_l; lra|apply Qle_shift_div_r; lra]. }
  split; [|split].
  - unfold fcdf, cuts. rewrite EC. cbv zeta. assert (LT : last (map Fin (csums s)) (Fin 0) = Fin (top s)) by (generalize (csums s); intros m; induction m as [|a [|b m] IH]; [reflexivity|reflexivity|exact IH]).
    rewrite LT, !map_map. apply map_ext_in. intros c I. unfold fdiv. cbn [ndiv]. assert (NZ : qeq (top s) 0 = false) by (apply qeq_false; lra). rewrite NZ. apply round_small.
    destruct (BT c I). rewrite Qabs_pos by assumption. lra.
  - intros k a b EA EB. unfold cuts in EA, EB. rewrite nth_error_map in EA, EB. destruct (nth_error (csums s) k) as [a'|] eqn:EA'; [|discriminate EA]. destruct (nth_error (csums s) (S k)) as [b'|] eqn:EB'; [|discriminate EB].
    injection EA as <-. injection EB as <-. apply round_q_mono. unfold Qdiv. apply Qmult_le_compat_r; [exact (proj1 (csums_rising s S0) k a' b' EA' EB')|]. apply Qinv_le_0_compat. lra.
  - intros k c E. unfold cuts in E. rewrite nth_error_map in E. destruct (nth_error (csums s) k) as [a|] eqn:EA; [|discriminate E]. injection E as <-.
    specialize (RC k a EA). destruct (BT a (nth_error_In _ _ EA)) as [X0 X1]. set (x := a / top s) in *. assert (XA : x - a == x * (1 - top s)) by (unfold x; field; lra).
    assert (DX : Qabs (x - a) <= e2). { rewrite XA, Qabs_Qmult, (Qabs_pos x X0). assert (Qabs (1 - top s) <= e2) by (abs_in TE; apply abs_le; lra). apply Qle_trans with (1 * Qabs (1 - top s)); [apply Qmult_le_compat_r; [exact X1|apply Qabs_nonneg]|]. rewrite Qmult_1_l. exact H0. }
    pose proof (round_q_slack x) as RX. rewrite (Qabs_pos x X0) in RX. assert (UX : u * x <= u * 1) by (apply Qmult_le_l; assumption).
    assert (TI : two_to (-1075) <= u) by (apply two_to_le; lia). abs_in RX. abs_in DX. abs_in RC. apply abs_le; lra.
Qed.
Lemma cuts_ends s : Qabs (s - T) <= 2 * n * u * T -> last (cuts s) 0 == 1 /\
  forall k a b w, nth_error (0 :: cuts s) k = Some a -> nth_error (cuts s) k = Some b -> nth_error ws k = Some w -> a <= b /\ (w == 0 -> a == b).
Proof.
  intros H. destruct (probs_error s H) as (S0 & _ & _). pose proof (top_ge s H) as TG. pose proof (csums_last s) as CL. split.
  - rewrite last_nth, cuts_length. unfold cuts. assert (E : nth_error (map (fun c => round_q (c / top s)) (csums s)) (pred (length ws)) = Some (round_q (top s / top s))) by (now rewrite nth_error_map, CL).
    rewrite (nth_error_nth _ _ 0 E). transitivity (round_q 1); [apply round_q_compat; field; lra|]. apply round_q_dyadic. exists 1%Z, 0%Z. split; [lia|split; [lia|reflexivity]].
  - intros k a b w EA EB EW. unfold cuts in EB. rewrite nth_error_map in EB. destruct (nth_error (csums s) k) as [b'|] eqn:EB'; [|discriminate EB]. injection EB as <-.
    assert (A : exists a', nth_error (0 :: csums s) k = Some a' /\ a == round_q (a' / top s)).
    { destruct k as [|k]; cbn [nth_error] in EA |- *; [injection EA as <-; exists 0; split; [reflexivity|]|].
      - symmetry. transitivity (round_q 0); [apply round_q_compat; field; lra|apply round_q_dyadic; apply dyadic_0].
      - unfold cuts in EA. rewrite nth_error_map in EA. destruct (nth_error (csums s) k) as [a'|]; [|discriminate EA]. injection EA as <-. exists a'. split; reflexivity. }
    destruct A as (a' & EA' & AE). destruct (proj2 (csums_rising s S0) k a' b' w EA' EB' EW) as (_ & AB & ZZ). rewrite AE. split.
    + apply round_q_mono. unfold Qdiv. apply Qmult_le_compat_r; [exact AB|]. apply Qinv_le_0_compat. lra.
    + intros W0. apply round_q_compat. now rewrite (ZZ W0).
Qed.

Lemma wheel_cuts : exists edges : list Q, length edges = S (length ws) /\ nth 0 edges 1 == 0 /\ nth (length ws) edges 0 == 1 /\
  (forall v, 0 <= v < 1 -> exists i, (i < length ws)%nat /\ fwheel t (map Fin ws) (Fin v) = Ok (Some i) /\ fwheel_unchecked t (map Fin ws) (Fin v) = Ok i) /\
  (forall v i, 0 <= v < 1 -> (i < length ws)%nat -> (fwheel t (map Fin ws) (Fin v) = Ok (Some i) <-> nth i edges 0 <= v < nth (S i) edges 0)) /\
  (forall i, (i < length ws)%nat -> nth i edges 0 <= nth (S i) edges 0 /\ (nth i ws 0 == 0 -> nth i edges 0 == nth (S i) edges 0) /\ Qabs (nth (S i) edges 0 - nth i edges 0 - nth i ws 0 / T) <= (24 * n + 16) * u).
Proof.
  destruct total_error as (s & ES & HS). pose proof (probs_error s HS) as (S0 & EP & _). pose proof (probs_accepted s HS) as AC. destruct (cuts_error s HS) as (EC & R & RC). destruct (cuts_ends s HS) as [CL CE].
  pose proof (cuts_length s) as L. assert (P : (0 < length ws)%nat) by (destruct ws; [change (qsum []) with 0 in some_weight; lra|cbn; lia]).
  assert (UN : forall v, fwheel_unchecked t (map Fin ws) (Fin v) = Ok (fposition (map Fin (cuts s)) (Fin v))) by (intros v; unfold fwheel_unchecked, fchoice; now rewrite ES, EP, AC, EC).
  assert (WH : forall v, fwheel t (map Fin ws) (Fin v) = Ok (Some (fposition (map Fin (cuts s)) (Fin v)))).
  { intros v. unfold fwheel, fchoice. rewrite ES, EP. cbv zeta. cbn [neqb]. assert (NZ : qeq s 0 = false) by (apply qeq_false; lra). rewrite NZ. now rewrite AC, EC. }
  exists (0 :: cuts s). assert (LE : forall i, nth i (0 :: cuts s) 0 = lower_end (cuts s) i) by (intros [|i]; reflexivity).
  split; [cbn [length]; now rewrite L|]. split; [reflexivity|]. split; [|split; [|split]].
  - rewrite last_nth, L in CL. destruct (length ws) as [|m]; [lia|]. exact CL.
  - intros v V. exists (fposition (map Fin (cuts s)) (Fin v)). split; [|split; [apply WH|apply UN]]. rewrite <- L. rewrite last_nth, L in CL.
    assert (HI : exists c, In c (cuts s) /\ v < c). { exists (nth (pred (length ws)) (cuts s) 0). split; [apply nth_In; lia|lra]. }
    clear - HI. destruct HI as (c & I & VC). induction (cuts s) as [|d m IH]; [destruct I|]. cbn [map fposition nlt]. destruct (qlt v d) eqn:Q; [cbn; lia|]. apply qlt_false in Q. destruct I as [->|I]; [lra|]. specialize (IH I). cbn [length]. lia.
  - intros v i V LT. rewrite WH, LE. change (nth (S i) (0 :: cuts s) 0) with (nth i (cuts s) 0). rewrite <- (position_between (cuts s) v i R (proj1 V)) by lia. split; [intros E; now injection E|now intros ->].
  - intros i LT. change (nth (S i) (0 :: cuts s) 0) with (nth i (cuts s) 0). destruct (nth_error (cuts s) i) as [b|] eqn:EB; [|apply nth_error_None in EB; lia]. rewrite (nth_error_nth _ _ 0 EB).
    destruct (nth_error (0 :: cuts s) i) as [a|] eqn:EA; [|apply nth_error_None in EA; cbn [length] in EA; lia]. rewrite (nth_error_nth _ _ 0 EA).
    destruct (nth_error ws i) as [w|] eqn:EW; [|apply nth_error_None in EW; lia]. rewrite (nth_error_nth _ _ 0 EW). destruct (CE i a b w EA EB EW) as [AB ZZ]. split; [exact AB|split; [exact ZZ|]].
    pose proof (RC i b EB) as RB. pose proof u_pos as U. pose proof one_q as N1. assert (N0 : 0 <= (12 * n + 8) * u) by (apply Qmult_le_0_compat; lra).
    assert (RA : Qabs (a - qsum (firstn i ws) / T) <= (12 * n + 8) * u).
    { destruct i as [|i]; cbn [nth_error] in EA; [injection EA as <-|exact (RC i a EA)]. change (firstn 0 ws) with (@nil Q). change (qsum []) with 0. setoid_replace (0 - 0 / T) with 0 by (field; lra). change (Qabs 0) with 0. exact N0. }
    assert (SP : qsum (firstn (S i) ws) / T == qsum (firstn i ws) / T + w / T).
    { assert (FS : firstn (S i) ws = firstn i ws ++ [w]). { clear - EW. revert ws EW. induction i as [|i IH]; intros [|x l] E; try discriminate E; cbn [firstn nth_error app] in *; [now injection E as ->|]. f_equal. apply (IH l E). }
      rewrite FS, qsum_app. change (qsum [w]) with (w + 0). field. lra. }
    rewrite SP in RB. abs_in RA. abs_in RB. apply abs_le; lra.
Qed.
End Wheel.

Lemma u_is : u == (2 # 1) ^ (-53).
Proof. reflexivity. Qed.
Lemma count_qofnat (ws : list Q) : count ws == qofnat (length ws).
Proof. reflexivity. Qed.
Lemma wheel_drawn ws t v : usable ws -> Permutation (leaves t) (map Fin ws) -> 0 <= v < 1 ->
  exists i, (i < length ws)%nat /\ 0 < nth i ws 0 /\ fwheel t (map Fin ws) (Fin v) = Ok (Some i) /\ fwheel_unchecked t (map Fin ws) (Fin v) = Ok i.
Proof.
  intros (D & A & F & S & B) P V. destruct (wheel_cuts ws t D A F S B P) as (e & _ & _ & _ & DR & CH & WD). destruct (DR v V) as (i & LT & E1 & E2). exists i. split; [exact LT|]. split; [|split; assumption].
  destruct (Qlt_le_dec 0 (nth i ws 0)) as [|N]; [assumption|]. exfalso. assert (N0 : 0 <= nth i ws 0) by (apply (proj1 (Forall_forall _ _) A); now apply nth_In).
  destruct (WD i LT) as (_ & Z & _). assert (W0 : nth i ws 0 == 0) by (apply Qle_antisym; assumption). specialize (Z W0). apply (proj1 (CH v i V LT)) in E1. rewrite Z in E1. destruct E1. lra.
Qed.
Lemma wheel_proportional ws t : usable ws -> Permutation (leaves t) (map Fin ws) ->
  exists cuts : list Q, length cuts = S (length ws) /\ nth 0 cuts 1 == 0 /\ nth (length ws) cuts 0 == 1 /\
    forall i, (i < length ws)%nat ->
      (forall v, 0 <= v < 1 -> (fwheel t (map Fin ws) (Fin v) = Ok (Some i) <-> nth i cuts 0 <= v < nth (S i) cuts 0)) /\
      nth i cuts 0 <= nth (S i) cuts 0 /\
      Qabs (nth (S i) cuts 0 - nth i cuts 0 - nth i ws 0 / qsum ws) <= 24 * (qofnat (length ws) + 1) * (2 # 1) ^ (-53).
Proof.
  intros (D & A & F & S & B) P. destruct (wheel_cuts ws t D A F S B P) as (e & L & E0 & E1 & DR & CH & WD). exists e. split; [exact L|split; [exact E0|split; [exact E1|]]].
  intros i LT. split; [intros v V; exact (CH v i V LT)|]. destruct (WD i LT) as (MO & _ & DEV). split; [exact MO|]. eapply Qle_trans; [exact DEV|]. rewrite <- u_is, <- count_qofnat. pose proof u_pos. nra.
Qed.

(* nothing has a weight *)
Lemma zero_sum t : Forall (fun v => exists q, v = Fin q /\ q == 0) (leaves t) -> exists q, fsum_by t = Fin q /\ q == 0.
Proof.
  induction t as [v|a IHa b IHb]; cbn [leaves fsum_by]; intros F; [inversion F; assumption|]. apply Forall_app in F. destruct F as [FA FB]. destruct (IHa FA) as (p & -> & P). destruct (IHb FB) as (q & -> & Q).
  exists (round_q (p + q)). assert (Z : p + q == 0) by (rewrite P, Q; reflexivity). split.
  - unfold fadd. cbn [nadd]. apply round_small. rewrite Z. change (Qabs 0) with 0. apply Qlt_le_weak, two_to_pos.
  - transitivity (round_q 0); [now apply round_q_compat|apply round_q_dyadic, dyadic_0].
Qed.
Lemma kahan_nan l : forall s c, is_nan s = true \/ is_nan c = true \/ Exists (fun x => is_nan x = true) l -> is_nan (fkahan_from s c l) = true \/ (l = [] /\ is_nan c = true).
Proof.
  assert (NA : forall a b, is_nan a = true \/ is_nan b = true -> is_nan (fadd a b) = true) by (intros [| | |] [| | |] [H|H]; try discriminate H; reflexivity).
  assert (NS : forall a b, is_nan a = true \/ is_nan b = true -> is_nan (fsub a b) = true) by (intros [| | |] [| | |] [H|H]; try discriminate H; reflexivity).
  induction l as [|x l IH]; intros s c H; cbn [fkahan_from].
  - destruct H as [H|[H|H]]; [now left|now right|inversion H].
  - left. cbv zeta. destruct (IH (fadd s (fsub x c)) (fsub (fsub (fadd s (fsub x c)) s) (fsub x c))) as [Y|[-> Y]]; [|exact Y|].
    + destruct H as [H|[H|H]]; [left; apply NA; now left|left; apply NA; right; apply NS; now right|]. inversion H; subst; [left; apply NA; right; apply NS; now left|now right; right].
    + cbn [fkahan_from]. destruct H as [H|[H|H]]; [apply NA; now left|apply NA; right; apply NS; now right|]. inversion H as [? ? N|? ? N]; subst; [apply NA; right; apply NS; now left|inversion N].
Qed.
Lemma wheel_nothing ws t v : Forall (fun w => w == 0) ws -> ws <> [] -> Permutation (leaves t) (map Fin ws) ->
  fwheel t (map Fin ws) v = Ok None /\ fwheel_unchecked t (map Fin ws) v = Raise ValueError.
Proof.
  intros Z NE P. destruct (zero_sum t) as (q & E & Q0).
  { apply (Permutation_Forall (Permutation_sym P)). apply Forall_map. eapply Forall_impl; [|exact Z]. intros w W. now exists w. }
  assert (QZ : qeq q 0 = true) by now apply qeq_iff. split.
  - unfold fwheel. rewrite E. cbv zeta. cbn [neqb]. now rewrite QZ.
  - unfold fwheel_unchecked, fchoice. rewrite E. destruct ws as [|w ws']; [contradiction|]. inversion Z as [|? ? W0 _]; subst. cbn [map fprobabilities].
    assert (N : fdiv (Fin w) (Fin q) = NaN). { unfold fdiv. cbn [ndiv]. rewrite QZ. assert (W : qeq w 0 = true) by now apply qeq_iff. rewrite W. reflexivity. }
    unfold faccepted. cbn [fkahan map]. rewrite N. destruct (kahan_nan (map (fun w0 => fdiv w0 (Fin q)) (map Fin ws')) NaN (Fin 0)) as [Y|[_ Y]]; [now left|rewrite Y; reflexivity|discriminate Y].
Qed.

(* counts: the samples that rules do not match, ranks *)
Lemma counts_sum : forall ns, Forall (fun k => (Z.of_nat k < 2 ^ 53)%Z) ns -> qsum (map qofnat ns) <= qofnat (length ns) * two_to 53.
Proof.
  induction 1 as [|k ns K F IH]; [apply qle_iff; reflexivity|]. cbn [map length]. change (qsum (qofnat k :: map qofnat ns)) with (qofnat k + qsum (map qofnat ns)).
  assert (KQ : qofnat k <= two_to 53) by (rewrite two_to_int by lia; unfold qofnat; rewrite <- Zle_Qle; lia).
  assert (L : qofnat (S (length ns)) == qofnat (length ns) + 1) by (unfold qofnat; rewrite Nat2Z.inj_succ; unfold Z.succ; rewrite inject_Z_plus; reflexivity). rewrite L. lra.
Qed.
Lemma counts_usable ns : (Z.of_nat (length ns) <= 2 ^ 20)%Z -> Forall (fun k => (Z.of_nat k < 2 ^ 53)%Z) ns -> Exists (fun k => (0 < k)%nat) ns -> usable (map qofnat ns).
Proof.
  intros L F E. assert (A : Forall (fun w => 0 <= w) (map qofnat ns)) by (apply Forall_map, Forall_forall; intros k _; unfold qofnat; change 0 with (inject_Z 0); rewrite <- Zle_Qle; lia).
  split; [|split; [exact A|split; [now rewrite map_length|split]]].
  - apply Forall_map. eapply Forall_impl; [|exact F]. intros k K. cbv beta in K. exists (Z.of_nat k), 0%Z. split; [lia|split; [lia|]]. unfold qofnat. change ((2 # 1) ^ 0) with 1. ring.
  - clear L F. induction E as [k ns P|k ns E IH]; cbn [map] in A |- *; inversion A as [|? ? A1 A2]; subst; change (qsum (qofnat k :: map qofnat ns)) with (qofnat k + qsum (map qofnat ns)).
    + assert (0 < qofnat k) by (unfold qofnat; change 0 with (inject_Z 0); rewrite <- Zlt_Qlt; lia). pose proof (qsum_nonneg _ A2). lra.
    + specialize (IH A2). lra.
  - apply Qle_trans with (two_to 20 * two_to 53); [|rewrite <- two_to_plus; apply (two_to_le 73 900); lia]. eapply Qle_trans; [now apply counts_sum|]. apply Qmult_le_compat_r; [|apply Qlt_le_weak, two_to_pos].
    rewrite two_to_int by lia. unfold qofnat. rewrite <- Zle_Qle. exact L.
Qed.
Lemma counts_drawn ns t v : (Z.of_nat (length ns) <= 2 ^ 20)%Z -> Forall (fun k => (Z.of_nat k < 2 ^ 53)%Z) ns -> Exists (fun k => (0 < k)%nat) ns ->
  Permutation (leaves t) (map Fin (map qofnat ns)) -> 0 <= v < 1 ->
  exists i, (0 < nth i ns 0)%nat /\ fwheel t (map Fin (map qofnat ns)) (Fin v) = Ok (Some i) /\ fwheel_unchecked t (map Fin (map qofnat ns)) (Fin v) = Ok i.
Proof.
  intros L F E P V. destruct (wheel_drawn (map qofnat ns) t v (counts_usable ns L F E) P V) as (i & LT & W & D1 & D2). exists i. split; [|split; assumption].
  change 0 with (qofnat 0) in W at 2. rewrite map_nth in W. unfold qofnat in W. change 0 with (inject_Z 0) in W at 1. rewrite <- Zlt_Qlt in W. lia.
Qed.
