(* Examples and counterexamples on rates, pheromones and means in double precision. *)
From Coq Require Import Permutation Lqa.
From Verif Require Import PyNum PyFloat PyList PyMon M_Matching M_Float M_FloatFitness M_FloatRates S_Float S_FloatRates L_Num L_Float L_FloatProps L_FloatMix L_FloatFitness L_FloatFitnessEx L_FloatRates.

Lemma d10_upto b q : is_fin (d10 q) = true -> nle (Fin 0) (d10 q) && nle (d10 q) (Fin b) = true -> double_upto b (d10 q).
Proof. intros F W. apply andb_true_iff in W. split; [now apply d10_finite|exact W]. Qed.
(* the limits that saga1 has by default *)
Definition default_range : frange := mkRange (d10 (5 # 1000)) (d10 (15 # 100)) (d10 (1 # 1000)) (d10 (25 # 100)) (d10 (11 # 10)) (d10 (1 # 2)) (d10 1) (d10 (11 # 10)).
Lemma default_range_ex : sane_range default_range /\ rates_within default_range (d10 (25 # 1000), d10 (75 # 100)) /\ double (d10 (25 # 1000)) /\ double (d10 (75 # 100)) /\
  fadjusts default_range [Fin 1; Fin 1; Fin 0; NaN] (d10 (25 # 1000), d10 (75 # 100)) <> Ok (d10 (25 # 1000), d10 (75 # 100)).
Proof.
  split; [|split; [|split; [apply round_is_double|split; [apply round_is_double|]]]].
  - split; [|split; [|split; [|split]]].
    + split; [apply d10_finite; vm_compute; reflexivity|split; [apply d10_finite; vm_compute; reflexivity|vm_compute; reflexivity]].
    + split; [apply d10_finite; vm_compute; reflexivity|split; [apply d10_finite; vm_compute; reflexivity|vm_compute; reflexivity]].
    + split; vm_compute; reflexivity.
    + split; [apply d10_finite; vm_compute; reflexivity|vm_compute; reflexivity].
    + split; [apply d10_finite; vm_compute; reflexivity|vm_compute; reflexivity].
  - split; split; vm_compute; reflexivity.
  - intros E. apply (f_equal (fun r => match r with Ok (a, _) => neqb a (d10 (25 # 1000)) | _ => true end)) in E. vm_compute in E. discriminate E.
Qed.
Lemma direction_ex : fadjust default_range (Fin (1 # 2)) (d10 (25 # 1000), d10 (75 # 100)) = Ok (pymin (m_max default_range) (fmul (d10 (25 # 1000)) (d10 (11 # 10))), pymax (c_min default_range) (fdiv (d10 (75 # 100)) (d10 (11 # 10)))).
Proof. vm_compute. reflexivity. Qed.
(* three solutions, equally fit *)
Definition thrice : list num := [d10 (1 # 10); d10 (1 # 10); d10 (1 # 10)].
Definition thrice_order : M_FloatFitness.order := Plus (Plus (Leaf (d10 (1 # 10))) (Leaf (d10 (1 # 10)))) (Leaf (d10 (1 # 10))).
Lemma rate_ex : double_upto 1 (d10 (4 # 10)) /\ double_upto 1 (d10 (9 # 10)) /\ nle (d10 (4 # 10)) (d10 (9 # 10)) = true /\ double_upto 100 (d10 (51 # 10)) /\ double_upto 100 (d10 (13 # 10)) /\ double_upto 100 (d10 (99 # 10)) /\
  within (d10 (13 # 10), d10 (99 # 10)) (d10 (7 # 1)) /\ within (d10 (13 # 10), d10 (99 # 10)) (d10 (13 # 10)).
Proof. repeat match goal with |- _ /\ _ => split | |- double_upto _ _ => apply d10_upto | |- within _ _ => split end; vm_compute; reflexivity. Qed.
Lemma above_maximum : exists lo hi mean fmx f, double_upto 1 lo /\ double_upto 1 hi /\ nle lo hi = true /\ double_upto 100 mean /\ double_upto 100 fmx /\ double_upto 100 f /\ nle f fmx = true /\ nlt hi (fmrate lo hi mean fmx f) = true.
Proof.
  exists (d10 (3 # 100)), (d10 (3 # 10)), (d10 (1 # (2 ^ 60))), (d10 100), (d10 (1 # (2 ^ 59))).
  repeat match goal with |- _ /\ _ => split | |- double_upto _ _ => apply d10_upto | |- within _ _ => split end; vm_compute; reflexivity.
Qed.
Lemma below_minimum : exists lo hi mean fmn fmx fa fb, double_upto 1 lo /\ double_upto 1 hi /\ nle lo hi = true /\ double_upto 100 mean /\ double_upto 100 fmn /\ double_upto 100 fmx /\
  within (fmn, fmx) mean /\ within (fmn, fmx) fa /\ within (fmn, fmx) fb /\ nlt (fxrate lo hi mean fmn fmx fa fb) lo = true.
Proof.
  exists (d10 (1 # 100)), (d10 (1 # 10)), (d10 2), (d10 1), (d10 3), (d10 1), (d10 1).
  repeat match goal with |- _ /\ _ => split | |- double_upto _ _ => apply d10_upto | |- within _ _ => split end; vm_compute; reflexivity.
Qed.
Lemma equally_fit : exists f t n, double_upto 100 f /\ Permutation (leaves t) (repeat f n) /\ nlt f (fmean t n) = true /\ nlt (Fin 1) (fgdm t n f) = true /\
  (forall lo hi, fmrate lo hi (fmean t n) f f = hi) /\
  neqb (fxrate (d10 (4 # 10)) (d10 (9 # 10)) (fmean t n) f f f f) (d10 (4 # 10)) = true.
Proof.
  exists (d10 (1 # 10)), thrice_order, 3%nat. split; [apply d10_upto; vm_compute; reflexivity|]. split; [apply Permutation_refl|]. split; [vm_compute; reflexivity|]. split; [vm_compute; reflexivity|]. split; [|vm_compute; reflexivity].
  intros lo hi. unfold fmrate. replace (neqb (d10 (1 # 10)) (fmean thrice_order 3)) with false by (vm_compute; reflexivity). replace (nlt (fmean thrice_order 3) (d10 (1 # 10))) with false by (vm_compute; reflexivity). reflexivity.
Qed.
Lemma pheromone_ex : double_upto 1 (d10 (1 # 10)) /\ finite (d10 (1 # 2)) /\ finite (d10 50) /\ nle (d10 (1 # 2)) (d10 50) = true /\ amount (d10 (1 # 2)) /\ Forall amount [d10 (33 # 10); PInf] /\
  fpheromone (d10 (1 # 10)) (d10 (1 # 2)) (d10 50) [] (d10 (1 # 2)) = d10 (1 # 2).
Proof.
  split; [apply d10_upto; vm_compute; reflexivity|]. split; [apply d10_finite; vm_compute; reflexivity|]. split; [apply d10_finite; vm_compute; reflexivity|]. split; [vm_compute; reflexivity|]. split; [vm_compute; reflexivity|].
  split; [constructor; [vm_compute; reflexivity|constructor; [vm_compute; reflexivity|constructor]]|vm_compute; reflexivity].
Qed.
Definition some_fitness : list Q := [5 # 2; 3 # 4; 9 # 8].
Lemma mean_ex : some_fitness <> [] /\ (Z.of_nat (length some_fitness) <= 2 ^ 20)%Z /\ Forall dyadic some_fitness /\ 0 <= 3 # 4 /\ 5 # 2 <= 100 /\ Forall (fun q => 3 # 4 <= q <= 5 # 2) some_fitness /\
  Permutation (leaves (Plus (Leaf (Fin (5 # 2))) (Plus (Leaf (Fin (3 # 4))) (Leaf (Fin (9 # 8)))))) (map Fin some_fitness).
Proof.
  split; [discriminate|]. split; [vm_compute; discriminate|]. split; [|split; [apply qle_iff; reflexivity|split; [apply qle_iff; reflexivity|split; [|apply Permutation_refl]]]].
  - constructor; [|constructor; [|constructor; [|constructor]]]; [exists 5%Z, (-1)%Z|exists 3%Z, (-2)%Z|exists 9%Z, (-3)%Z]; (split; [lia|split; [lia|reflexivity]]).
  - constructor; [|constructor; [|constructor; [|constructor]]]; split; apply qle_iff; reflexivity.
Qed.
