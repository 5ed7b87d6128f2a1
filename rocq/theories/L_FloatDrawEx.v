(* Examples and counterexamples on drawing by weights in double precision. *)
From Coq Require Import Permutation Lqa.
From Verif Require Import PyNum PyFloat PyList PyMon M_Matching M_Float M_FloatFitness M_FloatDraw S_Float S_FloatDraw L_Num L_Float L_FloatProps L_FloatMix L_FloatFitness L_FloatDraw.

Lemma digits_dyadic m e : (Z.abs m <? 2 ^ 53)%Z = true -> (-1074 <=? e)%Z = true -> dyadic (inject_Z m * (2 # 1) ^ e).
Proof. intros A B. exists m, e. split; [now apply Z.ltb_lt|split; [now apply Z.leb_le|reflexivity]]. Qed.
(* fitness values of four solutions *)
Definition some_weights : list Q := [3 # 4; 0; 5 # 2; 1 # 8].
Definition some_order : M_FloatFitness.order := Plus (Plus (Leaf (Fin (5 # 2))) (Leaf (Fin (3 # 4)))) (Plus (Leaf (Fin 0)) (Leaf (Fin (1 # 8)))).
Lemma some_weights_ex : usable some_weights /\ Permutation (leaves some_order) (map Fin some_weights).
Proof.
  split; [split; [|split; [|split; [|split]]]|].
  - constructor; [|constructor; [|constructor; [|constructor; [|constructor]]]].
    + apply (dyadic_compat (inject_Z 3 * (2 # 1) ^ (-2))); [reflexivity|]. now apply digits_dyadic.
    + apply dyadic_0.
    + apply (dyadic_compat (inject_Z 5 * (2 # 1) ^ (-1))); [reflexivity|]. now apply digits_dyadic.
    + apply (dyadic_compat (inject_Z 1 * (2 # 1) ^ (-3))); [reflexivity|]. now apply digits_dyadic.
  - constructor; [|constructor; [|constructor; [|constructor; [|constructor]]]]; apply qle_iff; reflexivity.
  - vm_compute. discriminate.
  - apply qlt_iff. reflexivity.
  - apply Qle_trans with ((2 # 1) ^ 2); [apply qle_iff; reflexivity|]. apply (two_to_le 2 900). lia.
  - cbn [some_order leaves app map some_weights]. apply perm_trans with (Fin (3 # 4) :: [Fin (5 # 2)] ++ [Fin 0; Fin (1 # 8)]); [apply perm_swap|]. apply perm_skip. cbn [app]. apply perm_swap.
Qed.
Lemma some_draws : fwheel some_order (map Fin some_weights) (Fin (1 # 10)) = Ok (Some 0%nat) /\ fwheel some_order (map Fin some_weights) (Fin (1 # 2)) = Ok (Some 2%nat) /\
  fwheel some_order (map Fin some_weights) (Fin (99 # 100)) = Ok (Some 3%nat).
Proof. split; [|split]; vm_compute; reflexivity. Qed.

(* a weight that is never drawn *)
Definition uneven : list Q := [1; (2 # 1) ^ (-60)].
Definition uneven_order : M_FloatFitness.order := Plus (Leaf (Fin 1)) (Leaf (Fin ((2 # 1) ^ (-60)))).
Lemma uneven_cdf : exists a b, fcdf (fprobabilities (fsum_by uneven_order) (map Fin uneven)) = [Fin a; Fin b] /\ qeq a 1 = true /\ qeq b 1 = true.
Proof. eexists. eexists. split; [vm_compute; reflexivity|split; reflexivity]. Qed.
Lemma never_drawn : exists ws t i, usable ws /\ Permutation (leaves t) (map Fin ws) /\ (i < length ws)%nat /\ 0 < nth i ws 0 /\ forall v, 0 <= v < 1 -> fwheel t (map Fin ws) (Fin v) <> Ok (Some i).
Proof.
  exists uneven, uneven_order, 1%nat. split; [|split; [apply Permutation_refl|split; [cbn; lia|split; [apply qlt_iff; vm_compute; reflexivity|]]]].
  - split; [|split; [|split; [|split]]].
    + constructor; [|constructor; [|constructor]].
      * apply (dyadic_compat (inject_Z 1 * (2 # 1) ^ 0)); [reflexivity|]. now apply digits_dyadic.
      * apply (dyadic_compat (inject_Z 1 * (2 # 1) ^ (-60))); [apply Qmult_1_l|]. now apply digits_dyadic.
    + constructor; [|constructor; [|constructor]]; apply qle_iff; vm_compute; reflexivity.
    + vm_compute. discriminate.
    + apply qlt_iff. vm_compute. reflexivity.
    + apply Qle_trans with ((2 # 1) ^ 2); [apply qle_iff; vm_compute; reflexivity|]. apply (two_to_le 2 900). lia.
  - intros v V. destruct uneven_cdf as (a & b & E & A & B). apply qeq_iff in A. unfold fwheel. cbv zeta. destruct (neqb (fsum_by uneven_order) (Fin 0)); [discriminate|].
    unfold fchoice. destruct (faccepted _); [|discriminate]. rewrite E. cbn [fposition nlt]. assert (Q : qlt v a = true) by (apply qlt_iff; lra). rewrite Q. discriminate.
Qed.

(* weights whose sum is no longer a number *)
Definition huge : num := Fin ((2 # 1) ^ 1023).
Lemma huge_finite : finite huge.
Proof.
  split; [|reflexivity]. split; [apply (dyadic_compat (inject_Z 1 * (2 # 1) ^ 1023)); [apply Qmult_1_l|now apply digits_dyadic]|].
  rewrite Qabs_pos by (apply Qlt_le_weak, (two_to_pos 1023)). change ((2 # 1) ^ 1024) with (two_to (1023 + 1)). rewrite two_to_succ. pose proof (two_to_pos 1023). change ((2 # 1) ^ 1023) with (two_to 1023). lra.
Qed.
Lemma huge_sum : fadd huge huge = PInf.
Proof. vm_compute. reflexivity. Qed.
Lemma sum_too_large : exists ws t, Forall finite ws /\ Forall (fun w => nlt (Fin 0) w = true) ws /\ Permutation (leaves t) ws /\ forall v, fwheel t ws v = Raise ValueError.
Proof.
  exists [huge; huge], (Plus (Leaf huge) (Leaf huge)). split; [constructor; [exact huge_finite|constructor; [exact huge_finite|constructor]]|]. split; [constructor; [|constructor; [|constructor]]; apply qlt_iff, (two_to_pos 1023)|].
  split; [apply Permutation_refl|]. intros v. unfold fwheel, fchoice. cbn [fsum_by]. rewrite huge_sum. cbv zeta. cbn [neqb]. assert (E : faccepted (fprobabilities PInf [huge; huge]) = false) by (vm_compute; reflexivity). now rewrite E.
Qed.

(* an error whose square is 0 *)
Definition tiny : num := Fin ((2 # 1) ^ (-600)).
Lemma tiny_finite : finite tiny.
Proof.
  split; [|reflexivity]. split; [apply (dyadic_compat (inject_Z 1 * (2 # 1) ^ (-600))); [apply Qmult_1_l|now apply digits_dyadic]|].
  rewrite Qabs_pos by (apply Qlt_le_weak, (two_to_pos (-600))). apply Qle_lt_trans with (two_to 1023); [apply (two_to_le (-600) 1023); lia|]. change ((2 # 1) ^ 1024) with (two_to (1023 + 1)). rewrite two_to_succ. pose proof (two_to_pos 1023). lra.
Qed.
Lemma tiny_square : fsquared_errors [tiny; Fin 0] [Fin 0; Fin 0] = [Fin 0; Fin 0].
Proof. vm_compute. reflexivity. Qed.
Lemma small_errors_alike : exists pred y t, Forall finite pred /\ Forall finite y /\ length pred = length y /\ Permutation (leaves t) (fsquared_errors pred y) /\
  (exists i j, neqb (nth i pred NaN) (nth i y NaN) = false /\ nth j pred NaN = nth j y NaN /\ is_fin (nth j y NaN) = true) /\ forall v, fwheel t (fsquared_errors pred y) v = Ok None.
Proof.
  assert (Z : finite (Fin 0)). { split; [|reflexivity]. split; [apply dyadic_0|]. change (Qabs 0) with 0. apply (two_to_pos 1024). }
  exists [tiny; Fin 0], [Fin 0; Fin 0], (Plus (Leaf (Fin 0)) (Leaf (Fin 0))). rewrite tiny_square.
  split; [constructor; [exact tiny_finite|constructor; [exact Z|constructor]]|]. split; [constructor; [exact Z|constructor; [exact Z|constructor]]|]. split; [reflexivity|]. split; [apply Permutation_refl|].
  split; [exists 0%nat, 1%nat; split; [apply qeq_false; cbn [nth]; pose proof (two_to_pos (-600)); change ((2 # 1) ^ (-600)) with (two_to (-600)); lra|split; reflexivity]|].
  intros v. vm_compute. reflexivity.
Qed.

(* how many rules do not match each of three samples *)
Definition some_counts : list nat := [2%nat; 0%nat; 5%nat].
Definition counts_order : M_FloatFitness.order := Plus (Leaf (Fin (qofnat 2))) (Plus (Leaf (Fin (qofnat 0))) (Leaf (Fin (qofnat 5)))).
Lemma some_counts_ex : (Z.of_nat (length some_counts) <= 2 ^ 20)%Z /\ Forall (fun k => (Z.of_nat k < 2 ^ 53)%Z) some_counts /\ Exists (fun k => (0 < k)%nat) some_counts /\
  Permutation (leaves counts_order) (map Fin (map qofnat some_counts)).
Proof. split; [vm_compute; discriminate|]. split; [constructor; [|constructor; [|constructor; [|constructor]]]; vm_compute; reflexivity|]. split; [apply Exists_cons_hd; lia|]. apply Permutation_refl. Qed.
Definition no_weights : list Q := [0; 0 # 3].
Lemma no_weights_ex : Forall (fun w => w == 0) no_weights /\ no_weights <> [] /\ Permutation (leaves (Plus (Leaf (Fin (0 # 3))) (Leaf (Fin 0)))) (map Fin no_weights).
Proof. split; [constructor; [|constructor; [|constructor]]; reflexivity|]. split; [discriminate|]. apply perm_swap. Qed.
