(* Examples and counterexamples on volumes, errors and fitness values in double precision. *)
From Coq Require Import Permutation Lqa.
From Verif Require Import PyNum PyFloat PyList PyMon M_Matching M_Float M_FloatFitness S_Float L_Num L_Float L_FloatProps L_FloatMix L_FloatFitness.

Definition d10 (q : Q) : num := round (Fin q).
Lemma d10_finite q : is_fin (d10 q) = true -> finite (d10 q).
Proof. intros H. split; [apply round_is_double|exact H]. Qed.
Definition unit_space : fbounds := [(Fin (-(1)), Fin 1); (Fin (-(1)), Fin 1)].
Definition some_bounds : fbounds := [(d10 (-3 # 10), d10 (7 # 10)); (d10 (1 # 10), Fin 1)].
Definition more_bounds : fbounds := [(d10 (-4 # 10), d10 (8 # 10)); (d10 (1 # 10), Fin 1)].
Lemma minus_one_finite : finite (Fin (-(1))).
Proof. split; [|reflexivity]. split; [exists (-1)%Z, 0%Z; repeat split; lia|]. apply qlt_iff. vm_compute. reflexivity. Qed.
Lemma one_finite : finite (Fin 1).
Proof. split; [exact one_double|reflexivity]. Qed.
Lemma unit_space_finite : Forall finite_pair unit_space.
Proof. constructor; [|constructor; [|constructor]]; (split; [exact minus_one_finite|exact one_finite]). Qed.
Lemma some_finite : Forall finite_pair some_bounds.
Proof. constructor; [|constructor; [|constructor]]; split; first [exact one_finite|apply d10_finite; vm_compute; reflexivity]. Qed.
Lemma more_finite : Forall finite_pair more_bounds.
Proof. constructor; [|constructor; [|constructor]]; split; first [exact one_finite|apply d10_finite; vm_compute; reflexivity]. Qed.
Lemma some_inside : Forall2 lies_in unit_space some_bounds.
Proof. constructor; [|constructor; [|constructor]]; (split; [|split]; vm_compute; reflexivity). Qed.
Lemma some_in_more : Forall2 lies_in more_bounds some_bounds.
Proof. constructor; [|constructor; [|constructor]]; (split; [|split]; vm_compute; reflexivity). Qed.
Lemma share_ex : Forall finite_pair unit_space /\ Forall finite_pair some_bounds /\ Forall2 lies_in unit_space some_bounds /\
  is_fin (fspace_volume unit_space) = true /\ nlt (Fin 0) (fspace_volume unit_space) = true /\ nlt (Fin 0) (fshare (mkF OrderedBound some_bounds) unit_space) = true.
Proof. split; [exact unit_space_finite|]. split; [exact some_finite|]. split; [exact some_inside|]. split; [|split]; vm_compute; reflexivity. Qed.
Lemma wider_ex : Forall finite_pair more_bounds /\ Forall finite_pair some_bounds /\ Forall2 lies_in more_bounds some_bounds /\ is_fin (fvolume (mkF OrderedBound more_bounds)) = true.
Proof. split; [exact more_finite|]. split; [exact some_finite|]. split; [exact some_in_more|]. vm_compute. reflexivity. Qed.

(* an exponential: 1/2 everywhere below 0, but 0 below -746 *)
Definition some_exp (x : num) : num := if nle x (Fin (-(746))) then Fin 0 else Fin (1 # 2).
Lemma some_exp_law : forall x, nle x (fmul (Fin (-(2))) (Fin least_error)) = true -> within (Fin 0, Fin (1 - (2 # 1) ^ (-13))) (some_exp x).
Proof. intros x _. unfold some_exp. destruct (nle x (Fin (-(746)))); split; vm_compute; reflexivity. Qed.
Lemma alpha_ex : finite (d10 (85 # 100)) /\ within (Fin 0, Fin 1) (d10 (85 # 100)).
Proof. split; [apply d10_finite; vm_compute; reflexivity|]. split; vm_compute; reflexivity. Qed.

(* the quotient leaves the interval *)
Lemma wu_above_one : exists alpha x1 x2, finite alpha /\ finite x1 /\ finite x2 /\ within (Fin 0, Fin 1) alpha /\ within (Fin 0, Fin 1) x1 /\ within (Fin 0, Fin 1) x2 /\
  nlt (Fin 1) (fwu alpha x1 x2) = true.
Proof.
  exists (d10 (63 # 1000)), (Fin 1), (Fin (1 - two_to (-52))).
  split; [apply d10_finite; vm_compute; reflexivity|]. split; [exact one_finite|]. split.
  { split; [|reflexivity]. split; [exists (2 ^ 52 - 1)%Z, (-52)%Z; split; [lia|split; [lia|vm_compute; reflexivity]]|]. apply qlt_iff. vm_compute. reflexivity. }
  split; [split; vm_compute; reflexivity|]. split; [split; vm_compute; reflexivity|]. split; [split; vm_compute; reflexivity|]. vm_compute. reflexivity.
Qed.

(* many features *)
Definition wide_space : fbounds := repeat (Fin (-(1)), Fin 1) (32 * 32).
Definition half_space : fbounds := repeat (Fin 0, Fin 1) (32 * 32).
Lemma wide_finite : Forall finite_pair wide_space.
Proof. apply Forall_forall. intros b I. apply repeat_spec in I. subst b. split; [exact minus_one_finite|exact one_finite]. Qed.
Lemma half_finite : Forall finite_pair half_space.
Proof. apply Forall_forall. intros b I. apply repeat_spec in I. subst b. split; [split; [exact zero_double|reflexivity]|exact one_finite]. Qed.
Lemma repeat_2 {A B} (R : A -> B -> Prop) a b n : R a b -> Forall2 R (repeat a n) (repeat b n).
Proof. intros H. induction n; cbn; constructor; auto. Qed.
Lemma map_repeat {A B} (f : A -> B) a n : map f (repeat a n) = repeat (f a) n.
Proof. induction n; cbn; congruence. Qed.
Lemma power_double k : (0 <= k < 1024)%Z -> double (Fin (two_to k)).
Proof. intros H. split; [exists 1%Z, k; split; [lia|split; [lia|unfold two_to; ring]]|]. fold (two_to 1024). rewrite Qabs_pos by (apply Qlt_le_weak, two_to_pos). apply Qlt_le_trans with (2 * two_to k); [pose proof (two_to_pos k); lra|]. rewrite <- two_to_succ. apply two_to_le. lia. Qed.
Lemma double_compat p q : p == q -> double (Fin p) -> double (Fin q).
Proof. intros E [D B]. split; [now apply (dyadic_compat p)|]. now rewrite <- E. Qed.
Lemma doubling w n : forall k r, w == 2 -> r == two_to k -> (0 <= k)%Z -> (k + Z.of_nat n = 1024)%Z -> (0 < n)%nat -> fold_left fmul (repeat (Fin w) n) (Fin r) = PInf.
Proof.
  induction n as [|n IH]; intros k r W R K S N; [lia|]. cbn [repeat fold_left]. unfold fmul at 2. cbn [nmul].
  assert (E : r * w == two_to (k + 1)) by (rewrite R, W, two_to_succ; ring).
  destruct n as [|n].
  - assert (k = 1023)%Z by lia. subst k. cbn [repeat fold_left]. assert (X : round_q (r * w) == two_to 1024).
    { rewrite (round_q_compat _ _ E). apply round_q_dyadic. exists 1%Z, 1024%Z. split; [lia|split; [lia|]]. change (1023 + 1)%Z with 1024%Z. unfold two_to. ring. }
    unfold round. assert (Y : qle (two_to 1024) (round_q (r * w)) = true) by (apply qle_iff; rewrite X; apply Qle_refl). rewrite Y. reflexivity.
  - destruct (round_double_eq (r * w)) as (q & -> & Q); [apply (double_compat (two_to (k + 1))); [now symmetry|apply power_double; lia]|].
    apply (IH (k + 1)%Z); [exact W|now rewrite Q|lia|lia|lia].
Qed.
Lemma staying w n : forall r, w == 1 -> r == 1 -> exists q, fold_left fmul (repeat (Fin w) n) (Fin r) = Fin q /\ q == 1.
Proof.
  induction n as [|n IH]; intros r W R; cbn [repeat fold_left]; [now exists r|]. unfold fmul at 2. cbn [nmul].
  destruct (round_double_eq (r * w)) as (q & -> & Q); [apply (double_compat 1); [rewrite R, W; ring|exact one_double]|]. apply IH; [exact W|]. rewrite Q, R, W. ring.
Qed.
Lemma width_two : exists w, fsub (Fin 1) (Fin (-(1))) = Fin w /\ w == 2.
Proof. exists (round_q (1 - -(1))). split; vm_compute; reflexivity. Qed.
Lemma width_one : exists w, fsub (Fin 1) (Fin 0) = Fin w /\ w == 1.
Proof. exists (round_q (1 - 0)). split; vm_compute; reflexivity. Qed.
Lemma wide_volume : fspace_volume wide_space = PInf /\ fvolume (mkF OrderedBound wide_space) = PInf /\ exists q, fvolume (mkF OrderedBound half_space) = Fin q /\ q == 1.
Proof.
  destruct width_two as (w & E & W). destruct width_one as (v & F & V). unfold fspace_volume, fvolume, fprod, wide_space, half_space. cbn [fbnd fmt]. rewrite !map_repeat. cbn [fwidth fst snd]. rewrite E, F.
  assert (X : fold_left fmul (repeat (Fin w) (32 * 32)) (Fin 1) = PInf) by (apply (doubling w (32 * 32) 0 1 W); [reflexivity|lia|reflexivity|apply Nat.ltb_lt; reflexivity]).
  split; [exact X|]. split; [exact X|]. apply staying; [exact V|reflexivity].
Qed.
Lemma many_features : exists space small, Forall finite_pair space /\ Forall finite_pair small /\ Forall2 lies_in space small /\ Forall2 lies_in space space /\
  (length space <= 32 * 32)%nat /\ nlt (Fin 0) (fvolume (mkF OrderedBound small)) = true /\
  fshare (mkF OrderedBound small) space = Fin 0 /\
  (forall alpha acc, is_nan (fvolume_fitness (femary alpha) acc (mkF OrderedBound space) space) = true) /\
  (forall alpha acc, is_nan (fvolume_fitness (fwu alpha) acc (mkF OrderedBound space) space) = true).
Proof.
  assert (S : fshare (mkF OrderedBound wide_space) wide_space = NaN) by (unfold fshare; destruct wide_volume as (-> & -> & _); reflexivity).
  exists wide_space, half_space. split; [exact wide_finite|]. split; [exact half_finite|].
  split; [apply repeat_2; split; [|split]; vm_compute; reflexivity|]. split; [apply repeat_2; split; [|split]; vm_compute; reflexivity|].
  split; [unfold wide_space; rewrite repeat_length; apply le_n|]. destruct wide_volume as (V1 & V2 & q & V3 & Q). split; [rewrite V3; cbn [nlt]; apply qlt_iff; lra|].
  split; [unfold fshare; rewrite V1, V3; vm_compute; reflexivity|].
  assert (N1 : forall a, fadd a NaN = NaN) by (intros [?| | |]; reflexivity). assert (N2 : forall a, fmul a NaN = NaN) by (intros [?| | |]; reflexivity).
  assert (N3 : forall a, fdiv NaN a = NaN) by (intros [?| | |]; reflexivity).
  split; intros alpha acc; unfold fvolume_fitness; rewrite S.
  - unfold femary. rewrite N2, N1. reflexivity.
  - unfold fwu. cbv zeta. rewrite !N2, N3. reflexivity.
Qed.

(* large errors *)
Lemma large_errors : forall exp : num -> num, (forall x, nle x (Fin (-(746))) = true -> exp x = Fin 0) ->
  forall e1 e2, nle (Fin 373) e1 = true -> nle (Fin 373) e2 = true -> fpseudo_accuracy exp (Fin 2) e1 = Fin 0 /\ fpseudo_accuracy exp (Fin 2) e2 = Fin 0.
Proof.
  intros exp H.
  assert (ONE : forall e, nle (Fin 373) e = true -> fpseudo_accuracy exp (Fin 2) e = Fin 0).
  { intros e L. unfold fpseudo_accuracy. apply H. unfold fmul. apply round_le_double.
    - split; [exists (-746)%Z, 0%Z; repeat split; lia|]. apply qlt_iff. vm_compute. reflexivity.
    - destruct e as [q| | |]; cbn [nle] in L; try discriminate L; [|reflexivity]. cbn [nneg nmul nle]. apply qle_iff in L. apply qle_iff. lra. }
  intros e1 e2 L1 L2. split; now apply ONE.
Qed.
Lemma large_errors_alike : forall exp : num -> num, (forall x, nle x (Fin (-(746))) = true -> exp x = Fin 0) ->
  exists e1 e2, finite e1 /\ finite e2 /\ nlt e1 e2 = true /\
  forall f m space, fvolume_fitness f (fpseudo_accuracy exp (Fin 2) e1) m space = fvolume_fitness f (fpseudo_accuracy exp (Fin 2) e2) m space.
Proof.
  intros exp H. exists (Fin 373), (Fin 1000). split; [|split; [|split; [vm_compute; reflexivity|]]].
  - split; [|reflexivity]. split; [exists 373%Z, 0%Z; repeat split; lia|]. apply qlt_iff. vm_compute. reflexivity.
  - split; [|reflexivity]. split; [exists 1000%Z, 0%Z; repeat split; lia|]. apply qlt_iff. vm_compute. reflexivity.
  - intros f m space. destruct (large_errors exp H (Fin 373) (Fin 1000)) as [-> ->]; reflexivity.
Qed.

(* errors *)
Definition ys : list Q := [1 # 2; 3; -(7 # 4); 2].
Definition ps : list Q := [3 # 4; 5 # 2; -(1); 2].
Lemma small_moderate q m e : (Z.abs m < 2 ^ 53)%Z -> (-1074 <= e)%Z -> q == inject_Z m * two_to e -> Qabs q <= 100 -> moderate_value q.
Proof. intros A B C D. split; [now exists m, e|]. apply Qle_trans with 100; [exact D|]. fold (two_to 400). apply Qle_trans with (two_to 7); [vm_compute; discriminate|apply two_to_le; lia]. Qed.
Ltac modest m e := apply (small_moderate _ m e); [lia|lia|vm_compute; reflexivity|vm_compute; discriminate].
Lemma ys_moderate : Forall moderate_value ys.
Proof. constructor; [modest 1%Z (-1)%Z|]. constructor; [modest 3%Z 0%Z|]. constructor; [modest (-7)%Z (-2)%Z|]. constructor; [modest 2%Z 0%Z|constructor]. Qed.
Lemma ps_moderate : Forall moderate_value ps.
Proof. constructor; [modest 3%Z (-2)%Z|]. constructor; [modest 5%Z (-1)%Z|]. constructor; [modest (-1)%Z 0%Z|]. constructor; [modest 2%Z 0%Z|constructor]. Qed.
(* numpy adds blocks *)
Definition in_blocks (l : list num) : M_FloatFitness.order := match l with [a; b; c; d] => Plus (Plus (Leaf c) (Leaf a)) (Plus (Leaf b) (Leaf d)) | _ => Leaf NaN end.
Lemma in_blocks_all l : length l = 4%nat -> Permutation (leaves (in_blocks l)) l.
Proof.
  destruct l as [|a [|b [|c [|d [|? ?]]]]]; intros E; try discriminate E. cbn [in_blocks leaves app].
  apply Permutation_trans with [a; c; b; d]; [apply perm_swap|]. apply perm_skip. apply perm_swap.
Qed.
Definition blocks : M_FloatFitness.order := in_blocks (fsquares (map Fin ys) (map Fin ps)).
Lemma error_ex : ys <> [] /\ length ys = length ps /\ Forall moderate_value ys /\ Forall moderate_value ps /\ Permutation (leaves blocks) (fsquares (map Fin ys) (map Fin ps)).
Proof.
  split; [discriminate|]. split; [reflexivity|]. split; [exact ys_moderate|]. split; [exact ps_moderate|].
  apply in_blocks_all. vm_compute. reflexivity.
Qed.
(* the same squares added in two orders *)
Definition big_y : list num := [Fin (two_to 27); Fin 1; Fin 1; Fin 1].
Definition zeros : list num := [Fin 0; Fin 0; Fin 0; Fin 0].
Definition left_to_right (l : list num) : M_FloatFitness.order := match l with [] => Leaf (Fin 0) | v :: l' => fold_left (fun t v => Plus t (Leaf v)) l' (Leaf v) end.
Lemma two27_finite : finite (Fin (two_to 27)).
Proof. split; [|reflexivity]. split; [exists 1%Z, 27%Z; repeat split; lia|]. apply qlt_iff. vm_compute. reflexivity. Qed.
Lemma order_matters : exists y p t1 t2, Forall finite y /\ Forall finite p /\ length y = length p /\
  Permutation (leaves t1) (fsquares y p) /\ Permutation (leaves t2) (fsquares y p) /\ nlt (ferror_by t1 (length y)) (ferror_by t2 (length y)) = true.
Proof.
  exists big_y, zeros, (left_to_right (fsquares big_y zeros)), (left_to_right (rev (fsquares big_y zeros))).
  split; [constructor; [exact two27_finite|]; constructor; [exact one_finite|]; constructor; [exact one_finite|]; constructor; [exact one_finite|constructor]|].
  split; [repeat (constructor; [split; [exact zero_double|reflexivity]|]); constructor|]. split; [reflexivity|]. split; [|split].
  - replace (leaves (left_to_right (fsquares big_y zeros))) with (fsquares big_y zeros) by (vm_compute; reflexivity). apply Permutation_refl.
  - replace (leaves (left_to_right (rev (fsquares big_y zeros)))) with (rev (fsquares big_y zeros)) by (vm_compute; reflexivity). apply Permutation_sym, Permutation_rev.
  - vm_compute. reflexivity.
Qed.
