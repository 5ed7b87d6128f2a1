(* C68: drawing by weights in double precision. *)
From Coq Require Import Permutation.
From Verif Require Import PyNum PyFloat PyList PyMon M_FloatFitness M_FloatDraw S_Float S_FloatDraw L_FloatDraw L_FloatDrawEx.

(* Whatever is rounded, and in whatever order the weights are added: numpy accepts the probabilities, and what is drawn has a weight above 0. *)
Theorem C68_drawn_has_weight : forall ws t v, usable ws -> Permutation (leaves t) (map Fin ws) -> 0 <= v < 1 ->
  exists i, (i < length ws)%nat /\ 0 < nth i ws 0 /\ fwheel t (map Fin ws) (Fin v) = Ok (Some i) /\ fwheel_unchecked t (map Fin ws) (Fin v) = Ok i.
Proof. exact wheel_drawn. Qed.
Print Assumptions C68_drawn_has_weight.
Example C68_drawn_has_weight_ex : (usable some_weights /\ Permutation (leaves some_order) (map Fin some_weights)) /\
  fwheel some_order (map Fin some_weights) (Fin (1 # 10)) = Ok (Some 0%nat) /\ fwheel some_order (map Fin some_weights) (Fin (1 # 2)) = Ok (Some 2%nat) /\
  fwheel some_order (map Fin some_weights) (Fin (99 # 100)) = Ok (Some 3%nat).
Proof. exact (conj some_weights_ex some_draws). Qed.

(* Full property: the probability of being drawn is the weight divided by the sum of the weights.  Proved: up to 24 (n + 1) 2^-53.
   The random numbers v for which i is drawn are those between two consecutive cuts. *)
Theorem C68_proportional_partial : forall ws t, usable ws -> Permutation (leaves t) (map Fin ws) ->
  exists cuts : list Q, length cuts = S (length ws) /\ nth 0 cuts 1 == 0 /\ nth (length ws) cuts 0 == 1 /\
    forall i, (i < length ws)%nat ->
      (forall v, 0 <= v < 1 -> (fwheel t (map Fin ws) (Fin v) = Ok (Some i) <-> nth i cuts 0 <= v < nth (S i) cuts 0)) /\
      nth i cuts 0 <= nth (S i) cuts 0 /\
      Qabs (nth (S i) cuts 0 - nth i cuts 0 - nth i ws 0 / qsum ws) <= 24 * (qofnat (length ws) + 1) * (2 # 1) ^ (-53).
Proof. exact wheel_proportional. Qed.
Print Assumptions C68_proportional_partial.
Example C68_proportional_partial_ex : usable some_weights /\ Permutation (leaves some_order) (map Fin some_weights).
Proof. exact some_weights_ex. Qed.

(* Counts as weights (samples not matched, ranks): no error, and never something counted 0 times. *)
Theorem C68_counts_drawn : forall ns t v, (Z.of_nat (length ns) <= 2 ^ 20)%Z -> Forall (fun k => (Z.of_nat k < 2 ^ 53)%Z) ns -> Exists (fun k => (0 < k)%nat) ns ->
  Permutation (leaves t) (map Fin (map qofnat ns)) -> 0 <= v < 1 ->
  exists i, (0 < nth i ns 0)%nat /\ fwheel t (map Fin (map qofnat ns)) (Fin v) = Ok (Some i) /\ fwheel_unchecked t (map Fin (map qofnat ns)) (Fin v) = Ok i.
Proof. exact counts_drawn. Qed.
Print Assumptions C68_counts_drawn.
Example C68_counts_drawn_ex : (Z.of_nat (length some_counts) <= 2 ^ 20)%Z /\ Forall (fun k => (Z.of_nat k < 2 ^ 53)%Z) some_counts /\ Exists (fun k => (0 < k)%nat) some_counts /\
  Permutation (leaves counts_order) (map Fin (map qofnat some_counts)).
Proof. exact some_counts_ex. Qed.

(* When all weights are 0: no bias where the sum is compared with 0 (origins, the selection of solutions), an error where it is not (the selection of rules, the onlooker bees). *)
Theorem C68_no_weights : forall ws t v, Forall (fun w => w == 0) ws -> ws <> [] -> Permutation (leaves t) (map Fin ws) ->
  fwheel t (map Fin ws) v = Ok None /\ fwheel_unchecked t (map Fin ws) v = Raise ValueError.
Proof. exact wheel_nothing. Qed.
Print Assumptions C68_no_weights.
Example C68_no_weights_ex : Forall (fun w => w == 0) no_weights /\ no_weights <> [] /\ Permutation (leaves (Plus (Leaf (Fin (0 # 3))) (Leaf (Fin 0)))) (map Fin no_weights).
Proof. exact no_weights_ex. Qed.

(* Something with a weight above 0 may have no chance at all. *)
Theorem C68_every_weight_has_a_chance_refuted : exists ws t i, usable ws /\ Permutation (leaves t) (map Fin ws) /\ (i < length ws)%nat /\ 0 < nth i ws 0 /\
  forall v, 0 <= v < 1 -> fwheel t (map Fin ws) (Fin v) <> Ok (Some i).
Proof. exact never_drawn. Qed.
Print Assumptions C68_every_weight_has_a_chance_refuted.

(* Positive finite weights whose sum overflows: numpy refuses the probabilities, which are all 0. *)
Theorem C68_large_weights_refuted : exists ws t, Forall finite ws /\ Forall (fun w => nlt (Fin 0) w = true) ws /\ Permutation (leaves t) ws /\ forall v, fwheel t ws v = Raise ValueError.
Proof. exact sum_too_large. Qed.
Print Assumptions C68_large_weights_refuted.

(* Squared errors may underflow: one sample is predicted wrongly and another exactly, and yet there is no bias towards the first. *)
Theorem C68_small_errors_refuted : exists pred y t, Forall finite pred /\ Forall finite y /\ length pred = length y /\ Permutation (leaves t) (fsquared_errors pred y) /\
  (exists i j, neqb (nth i pred NaN) (nth i y NaN) = false /\ nth j pred NaN = nth j y NaN /\ is_fin (nth j y NaN) = true) /\
  forall v, fwheel t (fsquared_errors pred y) v = Ok None.
Proof. exact small_errors_alike. Qed.
Print Assumptions C68_small_errors_refuted.
