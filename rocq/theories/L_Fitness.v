From Coq Require Import Reals Qreals Lia Qminmax.
From Verif Require Import PyNum PyMon PyList L_Num M_Matching S_Matching L_Matching M_Fitness S_Fitness.
From Coq Require Import Lra.
Open Scope R_scope.

Lemma rdiv_ok a b : b <> 0 -> rdiv a b = Some (a / b).
Proof. intros H. unfold rdiv. destruct (Req_EM_T b 0); [contradiction|reflexivity]. Qed.
Lemma acc_ok e : pseudo_accuracy 2 e = Ok (exp (- (2) * e)).
Proof. unfold pseudo_accuracy. destruct (Rlt_dec 0 2); [reflexivity|lra]. Qed.
Lemma acc_range e : 0 <= e -> 0 < exp (- (2) * e) <= 1.
Proof.
  intros H. split; [apply exp_pos|]. rewrite <- exp_0.
  destruct H as [H|H]; [left; apply exp_increasing; lra|]. right. f_equal. rewrite <- H. ring.
Qed.
Lemma acc_mono e e' : e' < e -> exp (- (2) * e) < exp (- (2) * e').
Proof. intros H. apply exp_increasing. lra. Qed.
Lemma acc_mono_le e e' : e' <= e -> exp (- (2) * e) <= exp (- (2) * e').
Proof. intros [H|H]; [left; apply acc_mono; exact H|right; rewrite H; reflexivity]. Qed.

(* the two mixing functions on [0,1] *)
Lemma emary_range a x1 x2 : 0 <= a <= 1 -> 0 <= x1 <= 1 -> 0 <= x2 <= 1 -> 0 <= a * x1 + (1 - a) * x2 <= 1.
Proof. intros. split; nra. Qed.
Definition wuv a x1 x2 := (1 + a * a) * x1 * x2 / (a * a * x1 + x2).
Lemma wu_den a x1 x2 : 0 < x1 -> 0 <= x2 -> a <> 0 \/ 0 < x2 -> 0 < a * a * x1 + x2.
Proof.
  intros H1 H2 [Ha|H]; [|nra].
  assert (0 < a * a) by (destruct (Rdichotomy _ _ Ha); nra). nra.
Qed.
Lemma wu_ok a x1 x2 : 0 < x1 -> 0 <= x2 -> a <> 0 \/ 0 < x2 -> wu a x1 x2 = Some (wuv a x1 x2).
Proof. intros. apply rdiv_ok. pose proof (wu_den a x1 x2 H H0 H1). lra. Qed.
Lemma wu_range a x1 x2 : 0 < x1 <= 1 -> 0 <= x2 <= 1 -> a <> 0 \/ 0 < x2 -> 0 <= wuv a x1 x2 <= 1.
Proof.
  intros H1 H2 H. pose proof (wu_den a x1 x2 ltac:(lra) ltac:(lra) H) as HD. unfold wuv.
  assert (0 <= a * a) by nra. split.
  - apply Rmult_le_pos; [|left; apply Rinv_0_lt_compat; exact HD].
    repeat apply Rmult_le_pos; nra.
  - apply Rmult_le_reg_r with (a * a * x1 + x2); [exact HD|]. unfold Rdiv. rewrite Rmult_assoc, Rinv_l by lra.
    assert (x1 * x2 <= x2) by nra. assert (x1 * x2 <= x1) by nra. nra.
Qed.
Lemma wu_diff1 a x1 x1' x2 : a * a * x1 + x2 <> 0 -> a * a * x1' + x2 <> 0 ->
  wuv a x1' x2 - wuv a x1 x2 = (1 + a * a) * x2 * x2 * (x1' - x1) / ((a * a * x1' + x2) * (a * a * x1 + x2)).
Proof. intros. unfold wuv. field. split; assumption. Qed.
Lemma wu_diff2 a x1 x2 x2' : a * a * x1 + x2 <> 0 -> a * a * x1 + x2' <> 0 ->
  wuv a x1 x2' - wuv a x1 x2 = (1 + a * a) * (a * a) * x1 * x1 * (x2' - x2) / ((a * a * x1 + x2') * (a * a * x1 + x2)).
Proof. intros. unfold wuv. field. split; assumption. Qed.
Lemma div_nonneg p q : 0 <= p -> 0 < q -> 0 <= p / q.
Proof. intros. apply Rmult_le_pos; [assumption|]. left. apply Rinv_0_lt_compat; assumption. Qed.
Lemma div_pos p q : 0 < p -> 0 < q -> 0 < p / q.
Proof. intros. apply Rmult_lt_0_compat; [assumption|]. apply Rinv_0_lt_compat; assumption. Qed.
Lemma wu_mono1 a x1 x1' x2 : 0 < x1 -> x1 <= x1' -> 0 <= x2 -> a <> 0 \/ 0 < x2 -> wuv a x1 x2 <= wuv a x1' x2.
Proof.
  intros H1 H2 H3 H. pose proof (wu_den a x1 x2 H1 H3 H). pose proof (wu_den a x1' x2 ltac:(lra) H3 H).
  assert (0 <= wuv a x1' x2 - wuv a x1 x2); [|lra]. rewrite wu_diff1 by lra.
  apply div_nonneg; [|nra]. assert (0 <= a * a) by nra. assert (0 <= x2 * x2) by nra.
  assert (0 <= (1 + a * a) * (x2 * x2)) by nra. nra.
Qed.
Lemma wu_mono1_strict a x1 x1' x2 : 0 < x1 -> x1 < x1' -> 0 < x2 -> wuv a x1 x2 < wuv a x1' x2.
Proof.
  intros H1 H2 H3. pose proof (wu_den a x1 x2 H1 ltac:(lra) (or_intror H3)). pose proof (wu_den a x1' x2 ltac:(lra) ltac:(lra) (or_intror H3)).
  assert (0 < wuv a x1' x2 - wuv a x1 x2); [|lra]. rewrite wu_diff1 by lra.
  apply div_pos; [|nra]. assert (0 <= a * a) by nra. assert (0 < x2 * x2) by nra.
  assert (0 < (1 + a * a) * (x2 * x2)) by nra. nra.
Qed.
Lemma wu_mono2 a x1 x2 x2' : 0 < x1 -> 0 <= x2 -> x2 <= x2' -> a <> 0 \/ 0 < x2 -> wuv a x1 x2 <= wuv a x1 x2'.
Proof.
  intros H1 H2 H3 H. pose proof (wu_den a x1 x2 H1 H2 H).
  assert (Hb : a <> 0 \/ 0 < x2') by (destruct H; [left; assumption|right; lra]).
  pose proof (wu_den a x1 x2' H1 ltac:(lra) Hb).
  assert (0 <= wuv a x1 x2' - wuv a x1 x2); [|lra]. rewrite wu_diff2 by lra.
  apply div_nonneg; [|nra]. assert (0 <= a * a) by nra.
  assert (0 <= (1 + a * a) * (a * a)) by nra. assert (0 < x1 * x1) by nra.
  replace ((1 + a * a) * (a * a) * x1 * x1 * (x2' - x2)) with (((1 + a * a) * (a * a)) * (x1 * x1) * (x2' - x2)) by ring.
  apply Rmult_le_pos; [apply Rmult_le_pos|]; lra.
Qed.
Lemma wu_mono2_strict a x1 x2 x2' : 0 < x1 -> 0 <= x2 -> x2 < x2' -> a <> 0 -> wuv a x1 x2 < wuv a x1 x2'.
Proof.
  intros H1 H2 H3 H. pose proof (wu_den a x1 x2 H1 H2 (or_introl H)).
  pose proof (wu_den a x1 x2' H1 ltac:(lra) (or_introl H)).
  assert (0 < wuv a x1 x2' - wuv a x1 x2); [|lra]. rewrite wu_diff2 by lra.
  apply div_pos; [|nra]. assert (0 < a * a) by (destruct (Rdichotomy _ _ H); nra).
  assert (0 < (1 + a * a) * (a * a)) by nra. assert (0 < x1 * x1) by nra.
  replace ((1 + a * a) * (a * a) * x1 * x1 * (x2' - x2)) with (((1 + a * a) * (a * a)) * (x1 * x1) * (x2' - x2)) by ring.
  apply Rmult_lt_0_compat; [apply Rmult_lt_0_compat|]; lra.
Qed.

(* ----- rule fitness ----- *)
Definition rfv (k : rule_fitness_kind) (share e : R) : R :=
  match k with
  | PseudoAccuracy => exp (- (2) * e) * 100
  | VolumeEmary a => (a * exp (- (2) * e) + (1 - a) * share) * 100
  | VolumeWu a => wuv a (exp (- (2) * e)) share * 100
  end.
Lemma rule_fitness_val k space vol e :
  rule_params_ok k -> 0 <= e -> 0 < Q2R (space_volume space) -> 0 <= vol ->
  rule_fitness k space vol e = Ok (Some (rfv k (vol / Q2R (space_volume space)) e)).
Proof.
  intros HK He HS HV.
  destruct k as [|a|a]; simpl; unfold volume_fitness; rewrite acc_ok; simpl; auto; rewrite rdiv_ok by lra; simpl; auto.
  rewrite wu_ok; [reflexivity|apply exp_pos|apply div_nonneg; lra|left; exact HK].
Qed.
Lemma rfv_range k s e : rule_params_ok k -> 0 <= e -> 0 <= s <= 1 -> 0 <= rfv k s e <= 100.
Proof.
  intros HK He Hs. pose proof (acc_range e He) as Ha. destruct k as [|a|a]; simpl in *.
  - lra.
  - pose proof (emary_range a (exp (- (2) * e)) s HK ltac:(lra) Hs). lra.
  - pose proof (wu_range a _ s Ha Hs (or_introl HK)). lra.
Qed.
Lemma rfv_mono k s s' e e' : rule_params_ok k -> 0 <= e' -> e' <= e -> 0 <= s -> s <= s' -> rfv k s e <= rfv k s' e'.
Proof.
  intros HK He Hee Hs Hss. pose proof (acc_mono_le e e' Hee) as Ha. pose proof (exp_pos (- (2) * e)) as Hp.
  destruct k as [|a|a]; simpl in *; [lra|nra|].
  apply Rmult_le_compat_r; [lra|]. apply Rle_trans with (wuv a (exp (- (2) * e')) s).
  - apply wu_mono1; auto.
  - apply wu_mono2; auto. apply exp_pos.
Qed.
Lemma rfv_top k : rule_params_ok k -> rfv k 1 0 = 100.
Proof.
  intros HK. assert (E : exp (- (2) * 0) = 1) by (rewrite <- exp_0; f_equal; ring).
  destruct k as [|a|a]; simpl in *; rewrite E; [ring|ring|]. unfold wuv. field. nra.
Qed.

(* volumes of boxes inside the space *)
Lemma qprod_product l : (qprod l == product l)%Q.
Proof. induction l; simpl; [reflexivity|]. rewrite IHl. reflexivity. Qed.
Lemma width_le t b : t <> MinPercentage -> (lo t b <= hi t b)%Q -> (0 <= width t b /\ width t b <= hi t b - lo t b)%Q.
Proof.
  intros HM HP. destruct b as [p q]. destruct t; try contradiction; simpl in *.
  - split; Lqa.lra.
  - destruct (Q.min_spec p q) as [[? E1]|[? E1]]; rewrite E1 in *; destruct (Q.max_spec p q) as [[? E2]|[? E2]]; rewrite E2 in *;
      unfold qmax; destruct (qle_spec (q - p) (- (q - p))) as [H1|H1]; split; Lqa.lra.
  - L_Num.qcases; split; Lqa.lra.
Qed.
Lemma inside_volume space m :
  mt m <> MinPercentage -> proper m -> inside space m ->
  (0 <= volume m /\ volume m <= space_volume space)%Q.
Proof.
  intros HM HP HI. unfold volume, space_volume, inside, proper in *.
  induction HI as [|lh b sp bs Hb HI IH]; simpl; [split; Lqa.lra|].
  inversion HP as [|? ? Hp HP']; subst. destruct (IH HP') as [I1 I2]. clear IH HI HP HP'. simpl in Hb, Hp.
  destruct (width_le (mt m) b HM Hp) as [W1 W2].
  set (p := qprod (map (width _) _)) in *. set (q := qprod _) in *. set (w := width (mt m) b) in *.
  split; [apply Qmult_le_0_compat; assumption|].
  apply Qle_trans with ((snd lh - fst lh) * p)%Q.
  - apply Qmult_le_compat_r; [Lqa.lra|assumption].
  - rewrite !(Qmult_comm (snd lh - fst lh)). apply Qmult_le_compat_r; [assumption|]. Lqa.lra.
Qed.
Lemma rule_fitness_in_range k space m e :
  rule_params_ok k -> 0 <= e -> (0 < space_volume space)%Q ->
  mt m <> MinPercentage -> proper m -> inside space m ->
  exists f, rule_fitness k space (Q2R (volume m)) e = Ok (Some f) /\ 0 <= f <= 100.
Proof.
  intros HK He HS HM HP HI. destruct (inside_volume space m HM HP HI) as [V1 V2].
  apply Qreals.Qlt_Rlt in HS. apply Qreals.Qle_Rle in V1, V2. rewrite RMicromega.Q2R_0 in HS, V1.
  eexists. split; [apply rule_fitness_val; auto|]. apply rfv_range; auto. split; [apply div_nonneg; lra|].
  apply Rmult_le_reg_r with (Q2R (space_volume space)); [exact HS|]. unfold Rdiv. rewrite Rmult_assoc, Rinv_l by lra. lra.
Qed.
Lemma rule_fitness_monotone k space vol vol' e e' f f' :
  rule_params_ok k -> (0 < space_volume space)%Q -> 0 <= e' -> e' <= e -> 0 <= vol -> vol <= vol' ->
  rule_fitness k space vol e = Ok (Some f) -> rule_fitness k space vol' e' = Ok (Some f') -> f <= f'.
Proof.
  intros HK HS H1 H2 H3 H4 E E'. apply Qreals.Qlt_Rlt in HS. rewrite RMicromega.Q2R_0 in HS.
  rewrite rule_fitness_val in E, E'; auto; try lra. injection E as <-. injection E' as <-.
  apply rfv_mono; auto; [apply div_nonneg; lra|].
  apply Rmult_le_compat_r; [left; apply Rinv_0_lt_compat; exact HS|exact H4].
Qed.
Lemma rule_fitness_best k space :
  rule_params_ok k -> (0 < space_volume space)%Q -> rule_fitness k space (Q2R (space_volume space)) 0 = Ok (Some 100).
Proof.
  intros HK HS. apply Qreals.Qlt_Rlt in HS. rewrite RMicromega.Q2R_0 in HS.
  rewrite rule_fitness_val; auto; try lra. unfold Rdiv. rewrite Rinv_r by lra. rewrite rfv_top; auto.
Qed.
(* a constant feature: the space has volume 0 and the volume-based fitness is a division by zero *)
Lemma rule_fitness_flat k space vol e :
  k <> PseudoAccuracy -> (space_volume space == 0)%Q -> rule_fitness k space vol e = Ok None.
Proof.
  intros HK HS. apply Qreals.Qeq_eqR in HS. rewrite RMicromega.Q2R_0 in HS.
  destruct k as [|a|a]; [contradiction| |]; simpl; unfold volume_fitness; rewrite acc_ok; simpl; unfold rdiv;
    destruct (Req_EM_T (Q2R (space_volume space)) 0); try contradiction; reflexivity.
Qed.

(* ----- solution fitness ----- *)
Definition sfv (k : sol_fitness_kind) (share e : R) : R :=
  match k with
  | PseudoBIC => 0
  | ComplexityEmary a => (a * exp (- (2) * e) + (1 - a) * share) * 100
  | ComplexityWu a => wuv a (exp (- (2) * e)) share * 100
  end.
Lemma cnorm_ok c n : (0 < n)%nat -> c_norm (INR c) (INR n) = Some (1 - INR c / INR n).
Proof. intros H. unfold c_norm. rewrite rdiv_ok; [reflexivity|]. apply not_0_INR. lia. Qed.
Lemma cnorm_range c n : (c <= n)%nat -> (0 < n)%nat -> 0 <= 1 - INR c / INR n <= 1.
Proof.
  intros H Hn. apply lt_0_INR in Hn. apply le_INR in H. pose proof (pos_INR c).
  pose proof (div_nonneg _ _ H0 Hn). split; [|lra].
  assert (INR c / INR n <= 1); [|lra].
  apply Rmult_le_reg_r with (INR n); [exact Hn|]. unfold Rdiv. rewrite Rmult_assoc, Rinv_l by lra. lra.
Qed.
Lemma sol_fitness_val k n e c s :
  sol_params_ok k -> 0 <= e -> (0 < n)%nat -> (c <= n)%nat ->
  sol_fitness k n e c s = Ok (Some (sfv k (1 - INR c / INR n) e)).
Proof.
  intros HK He Hn Hc. pose proof (cnorm_range c n Hc Hn).
  destruct k as [|a|a]; [contradiction| |]; simpl; unfold complexity_fitness; rewrite acc_ok; simpl;
    rewrite cnorm_ok by exact Hn; simpl; auto.
  rewrite wu_ok; [reflexivity|apply exp_pos|lra|left; exact HK].
Qed.
Lemma sol_fitness_in_range k n e c s :
  sol_params_ok k -> 0 <= e -> (0 < n)%nat -> (c <= n)%nat ->
  exists f, sol_fitness k n e c s = Ok (Some f) /\ 0 <= f <= 100.
Proof.
  intros HK He Hn Hc. eexists. split; [apply sol_fitness_val; auto|].
  pose proof (cnorm_range c n Hc Hn) as HR. pose proof (acc_range e He) as Ha.
  destruct k as [|a|a]; [contradiction| |]; simpl in *.
  - pose proof (emary_range a (exp (- (2) * e)) _ ltac:(split; lra) ltac:(lra) HR). lra.
  - pose proof (wu_range a _ _ Ha HR (or_introl HK)). lra.
Qed.
Lemma sol_fitness_error_mono k n e e' c s s' f f' :
  sol_params_ok k -> 0 <= e' -> e' < e -> (c < n)%nat ->
  sol_fitness k n e c s = Ok (Some f) -> sol_fitness k n e' c s' = Ok (Some f') -> f < f'.
Proof.
  intros HK H1 H2 Hc E E'. rewrite sol_fitness_val in E, E'; auto; try lra; try lia. injection E as <-. injection E' as <-.
  pose proof (acc_mono e e' H2) as Ha. pose proof (exp_pos (- (2) * e)) as Hp.
  assert (HR : 0 < 1 - INR c / INR n).
  { assert (Hn : 0 < INR n) by (apply lt_0_INR; lia). apply lt_INR in Hc.
    assert (INR c / INR n < 1); [|lra]. apply Rmult_lt_reg_r with (INR n); [exact Hn|]. unfold Rdiv. rewrite Rmult_assoc, Rinv_l by lra. lra. }
  destruct k as [|a|a]; [contradiction| |]; simpl in *; [nra|].
  apply Rmult_lt_compat_r; [lra|]. apply wu_mono1_strict; auto.
Qed.
Lemma sol_fitness_complexity_mono k n e c c' s s' f f' :
  sol_params_ok k -> 0 <= e -> (c' < c)%nat -> (c <= n)%nat ->
  sol_fitness k n e c s = Ok (Some f) -> sol_fitness k n e c' s' = Ok (Some f') -> f < f'.
Proof.
  intros HK H1 H2 Hc E E'. rewrite sol_fitness_val in E, E'; auto; try lra; try lia. injection E as <-. injection E' as <-.
  pose proof (exp_pos (- (2) * e)) as Hp. pose proof (cnorm_range c n Hc ltac:(lia)) as HR.
  assert (HC : 1 - INR c / INR n < 1 - INR c' / INR n).
  { assert (Hn : 0 < INR n) by (apply lt_0_INR; lia). apply lt_INR in H2. pose proof (Rinv_0_lt_compat _ Hn).
    unfold Rdiv. nra. }
  destruct k as [|a|a]; [contradiction| |]; simpl in *; [nra|].
  apply Rmult_lt_compat_r; [lra|]. apply wu_mono2_strict; auto; lra.
Qed.
(* Wu: with every rule selected the accuracy no longer counts *)
Lemma wu_full_flat n a e s : a <> 0 -> (0 < n)%nat -> 0 <= e -> sol_fitness (ComplexityWu a) n e n s = Ok (Some 0).
Proof.
  intros Ha Hn He. rewrite sol_fitness_val; auto. simpl. do 2 f_equal. unfold wuv.
  assert (E : 1 - INR n / INR n = 0). { unfold Rdiv. rewrite Rinv_r; [ring|]. apply not_0_INR. lia. }
  rewrite E. field. pose proof (exp_pos (- (2) * e)). assert (0 < a * a) by (destruct (Rdichotomy _ _ Ha); nra). nra.
Qed.
(* the fitness of a solution does not depend on the genome length, except for the pseudo-BIC *)
Lemma sol_fitness_size_irrelevant k n e c s s' : sol_params_ok k -> sol_fitness k n e c s = sol_fitness k n e c s'.
Proof. destruct k; simpl; intros; [contradiction| |]; reflexivity. Qed.
Lemma bic_size_matters : exists n e c s f f', (s < 5)%nat /\ sol_fitness PseudoBIC n e c s = Ok (Some f) /\
  sol_fitness PseudoBIC n e c (s + 1) = Ok (Some f') /\ f' < f.
Proof.
  exists 3%nat, 1, 1%nat, 1%nat. eexists; eexists. split; [lia|]. split; [reflexivity|]. split; [reflexivity|].
  simpl. rewrite ln_1. assert (0 < ln (1 + 1)). { rewrite <- ln_1. apply ln_increasing; lra. } lra.
Qed.

Lemma bic_strict : forall n e e' c c' s f f', (1 < s)%nat -> 0 < e' -> e' <= e -> (c' <= c)%nat -> (e' < e \/ (c' < c)%nat) ->
  sol_fitness PseudoBIC n e c s = Ok (Some f) -> sol_fitness PseudoBIC n e' c' s = Ok (Some f') -> f < f'.
Proof.
  intros n e e' c c' s f f' Hs He' Hee Hcc Hor. unfold sol_fitness. destruct (Nat.eqb_spec s 0) as [|Hs0]; [lia|].
  intros H1 H2. inversion H1; inversion H2; subst f f'. clear H1 H2.
  assert (Hs1 : 1 < INR s) by (apply (lt_INR 1); exact Hs).
  assert (Hln : 0 < ln (INR s)) by (rewrite <- ln_1; apply ln_increasing; lra).
  assert (Hle : ln e' <= ln e). { destruct Hee as [Hlt| ->]; [left; apply ln_increasing; lra|right; reflexivity]. }
  assert (Hc : INR c' <= INR c) by (apply le_INR; exact Hcc).
  assert (A : INR s * ln e' <= INR s * ln e) by (apply Rmult_le_compat_l; lra).
  assert (B : INR c' * ln (INR s) <= INR c * ln (INR s)) by (apply Rmult_le_compat_r; lra).
  destruct Hor as [Hlt|Hlt].
  - assert (INR s * ln e' < INR s * ln e) by (apply Rmult_lt_compat_l; [lra|apply ln_increasing; lra]). lra.
  - assert (INR c' * ln (INR s) < INR c * ln (INR s)) by (apply Rmult_lt_compat_r; [lra|apply lt_INR; exact Hlt]). lra.
Qed.

Lemma minpct_above_100 : exists a m space e f,
  0 <= a <= 1 /\ mt m = MinPercentage /\ proper m /\ inside space m /\ (0 < space_volume space)%Q /\ 0 <= e /\
  rule_fitness (VolumeEmary a) space (Q2R (volume m)) e = Ok (Some f) /\ 100 < f.
Proof.
  exists (1/2), (mkMatching MinPercentage [(0, 1)%Q]), [(0, 1)%Q], (1/10). eexists. split; [lra|]. split; [reflexivity|].
  split; [repeat constructor; simpl; Lqa.lra|]. split; [repeat constructor; simpl; Lqa.lra|]. split; [reflexivity|].
  split; [lra|].
  assert (HV : Q2R (volume (mkMatching MinPercentage [(0, 1)%Q])) = 2). { vm_compute volume. unfold Q2R. simpl. lra. }
  assert (HS : Q2R (space_volume [(0, 1)%Q]) = 1). { vm_compute space_volume. unfold Q2R. simpl. lra. }
  split; [apply rule_fitness_val; simpl; rewrite ?HV, ?HS; lra|].
  cbn [rfv]. rewrite HV, HS. pose proof (exp_pos (- (2) * (1/10))). lra.
Qed.
Lemma wu_full_not_strict : exists n e e' s f, (0 < n)%nat /\ 0 <= e' /\ e' < e /\
  sol_fitness (ComplexityWu (3/10)) n e n s = Ok (Some f) /\ sol_fitness (ComplexityWu (3/10)) n e' n s = Ok (Some f).
Proof.
  exists 1%nat, 1, (1/2), 1%nat, 0. split; [lia|]. split; [lra|]. split; [lra|]. split; apply wu_full_flat; try lia; lra.
Qed.
