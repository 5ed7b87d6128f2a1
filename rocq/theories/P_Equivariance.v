(* C79: targets that are shifted or rescaled. *)
From Verif Require Import PyNum PyList PyMon PyRng L_GenomeProps M_Matching S_Matching M_Rule L_RuleProps M_Mixing S_Mixing S_Discovery S_Invariance S_Equivariance L_Equivariance.

(* targets shifted by c: a rule keeps its error, fitness and experience and predicts c more *)
Theorem C79_shift_rules : forall (L : learner) c m X y d r r', follows L (shift c) -> sound_fitness L -> table d X y -> length (bnd m) = d ->
  fitted_from L X y m r -> fitted_from L X (retargeted (shift c) y) m r' -> shifted c r r'.
Proof. intros L c m X y d r r' HF HS. exact (shift_fit L c HF HS m X y d r r'). Qed.
Print Assumptions C79_shift_rules.
(* every filter keeps the same rules; where one of them matches, a solution predicts c more; elsewhere it predicts 0 as before *)
Theorem C79_shift_predictions : forall (L : learner) c ms pool pool' genome mx X y d g, follows L (shift c) -> sound_fitness L ->
  table d X y -> Forall (fun m => length (bnd m) = d) ms -> Forall (fun m => exists x, In x X /\ covers m x) ms ->
  Forall2 (fitted_from L X y) ms pool -> Forall2 (fitted_from L X (retargeted (shift c) y)) ms pool' -> length genome = length pool ->
  (forall r w, In r (compress pool genome) -> has_weight L mx d r w -> 0 < w) ->
  (exists e g', forall Z, Forall (fun x => length x = d) Z -> Z <> [] -> sol_predict L mx genome pool Z false g = (Raise e, g') /\ sol_predict L mx genome pool' Z false g = (Raise e, g')) \/
  (exists out h h' g', incl out (compress pool genome) /\ (mfilter mx = KeepAll -> out = compress pool genome) /\ (forall x, length x = d -> mixed L mx d out x (h x)) /\
    (forall Z, Forall (fun x => length x = d) Z -> sol_predict L mx genome pool Z false g = (Ok (map h Z), g') /\ sol_predict L mx genome pool' Z false g = (Ok (map h' Z), g')) /\
    forall x, length x = d -> ((exists r, In r out /\ covers (cond r) x) -> h' x == h x + c) /\ ((forall r, In r out -> ~ covers (cond r) x) -> h x == 0 /\ h' x == 0)).
Proof. intros L c ms pool pool' genome mx X y d g HF HS. exact (shift_predictions L c HF HS ms pool pool' genome mx X y d g). Qed.
Print Assumptions C79_shift_predictions.
(* so a solution that matches all samples keeps its error, complexity and fitness *)
Theorem C79_shift_solutions : forall (L : learner) c ms pool pool' genome mx sfit X y d g, follows L (shift c) -> sound_fitness L -> (forall e e' c n, e == e' -> same_num (sfit e c n) (sfit e' c n)) ->
  table d X y -> X <> [] -> Forall (fun m => length (bnd m) = d) ms -> Forall (fun m => exists x, In x X /\ covers m x) ms ->
  Forall2 (fitted_from L X y) ms pool -> Forall2 (fitted_from L X (retargeted (shift c) y)) ms pool' -> length genome = length pool ->
  mfilter mx = KeepAll -> (forall r w, In r (compress pool genome) -> has_weight L mx d r w -> 0 < w) -> Forall (fun x => exists r, In r (compress pool genome) /\ covers (cond r) x) X ->
  exists a a' g', sol_fit L mx sfit genome pool X y g = (Ok a, g') /\ sol_fit L mx sfit genome pool' X (retargeted (shift c) y) g = (Ok a', g') /\ same_measures a a'.
Proof. intros L c ms pool pool' genome mx sfit X y d g HF HS. exact (shift_solution L c HF HS ms pool pool' genome mx sfit X y d g). Qed.
Print Assumptions C79_shift_solutions.
(* a solution that leaves samples unmatched does not: it predicts 0 there, whatever the targets *)
Theorem C79_shift_refuted : exists (L : learner) c ms pool pool' genome mx sfit X y d g a a' g', follows L (shift c) /\ sound_fitness L /\ table d X y /\
  Forall2 (fitted_from L X y) ms pool /\ Forall2 (fitted_from L X (retargeted (shift c) y)) ms pool' /\ mfilter mx = KeepAll /\
  sol_fit L mx sfit genome pool X y g = (Ok a, g') /\ sol_fit L mx sfit genome pool' X (retargeted (shift c) y) g = (Ok a', g') /\ ~ serror a == serror a'.
Proof.
  exists mean_learner, 1, two_boxes, (map (learned_from three_rows [1; 1; 4]) two_boxes), (map (learned_from three_rows [2; 2; 5]) two_boxes), [true; false], plain_mixing, (fun _ _ _ => Fin 0), three_rows, [1; 1; 4], 1%nat, (scripted []).
  do 3 eexists. split; [apply mean_shift|]. split; [exact mean_sound|]. split; [apply three_table|]. split; [apply boxes_learned|]. split; [repeat constructor|]. split; [reflexivity|].
  split; [vm_compute; reflexivity|]. split; [vm_compute; reflexivity|]. vm_compute. discriminate.
Qed.
Print Assumptions C79_shift_refuted.

(* targets multiplied by k: the error of a rule grows by k*k *)
Theorem C79_scale_rules : forall (L : learner) k m X y d r r', ~ k == 0 -> follows L (scale k) -> table d X y -> length (bnd m) = d ->
  fitted_from L X y m r -> fitted_from L X (retargeted (scale k) y) m r' -> above_floor r -> above_floor r' -> scaled k r r'.
Proof. intros L k m X y d r r' _ HF. exact (scale_fit L k HF m X y d r r'). Qed.
Print Assumptions C79_scale_rules.
(* if no error is at the lower limit, all weights change by the same factor, and a solution without a filter predicts k times as much everywhere *)
Theorem C79_scale_predictions : forall (L : learner) k ms pool pool' genome mx X y d g, ~ k == 0 -> follows L (scale k) ->
  table d X y -> Forall (fun m => length (bnd m) = d) ms -> Forall (fun m => exists x, In x X /\ covers m x) ms ->
  Forall2 (fitted_from L X y) ms pool -> Forall2 (fitted_from L X (retargeted (scale k) y)) ms pool' -> Forall above_floor pool -> Forall above_floor pool' -> length genome = length pool ->
  mfilter mx = KeepAll -> (forall r w, In r (compress pool genome) -> has_weight L mx d r w -> 0 < w) ->
  exists h h', (forall Z, Forall (fun x => length x = d) Z -> sol_predict L mx genome pool Z false g = (Ok (map h Z), g) /\ sol_predict L mx genome pool' Z false g = (Ok (map h' Z), g)) /\
    forall x, length x = d -> h' x == k * h x.
Proof. intros L k ms pool pool' genome mx X y d g Hk HF. exact (scale_predictions L k Hk HF ms pool pool' genome mx X y d g). Qed.
Print Assumptions C79_scale_predictions.
(* the lower limit 1e-4 of the error does not scale: with an exact rule the mixture changes *)
Theorem C79_scale_refuted : exists (L : learner) k ms pool pool' genome mx X y d g x p p', ~ k == 0 /\ follows L (scale k) /\ table d X y /\
  Forall2 (fitted_from L X y) ms pool /\ Forall2 (fitted_from L X (retargeted (scale k) y)) ms pool' /\ mfilter mx = KeepAll /\
  (forall r w, In r (compress pool genome) -> has_weight L mx d r w -> 0 < w) /\
  sol_predict L mx genome pool [x] false g = (Ok [p], g) /\ sol_predict L mx genome pool' [x] false g = (Ok [p'], g) /\ ~ p' == k * p.
Proof.
  exists mean_learner, 2, two_boxes, (map (learned_from three_rows [1; 1; 4]) two_boxes), (map (learned_from three_rows [2; 2; 8]) two_boxes), [true; true], plain_mixing, three_rows, [1; 1; 4], 1%nat, (scripted []), [0].
  do 2 eexists. split; [discriminate|]. split; [apply mean_scale|]. split; [apply three_table|]. split; [apply boxes_learned|]. split; [repeat constructor|]. split; [reflexivity|].
  split; [exact (boxes_weights 1 1 4)|]. split; [vm_compute; reflexivity|]. split; [vm_compute; reflexivity|]. vm_compute. discriminate.
Qed.
Print Assumptions C79_scale_refuted.
Example C79_satisfiable : let y := [1; 3; 8] in let pool := map (learned_from three_rows y) two_boxes in
  follows mean_learner (shift 5) /\ follows mean_learner (scale 5) /\ sound_fitness mean_learner /\ table 1 three_rows y /\ Forall (fun m => length (bnd m) = 1%nat) two_boxes /\
  Forall (fun m => exists x, In x three_rows /\ covers m x) two_boxes /\ Forall2 (fitted_from mean_learner three_rows y) two_boxes pool /\
  (forall r w, In r (compress pool [true; true]) -> has_weight mean_learner plain_mixing 1 r w -> 0 < w) /\ Forall above_floor pool /\
  Forall above_floor (map (learned_from three_rows (retargeted (scale 5) y)) two_boxes) /\ Forall (fun x => exists r, In r (compress pool [true; true]) /\ covers (cond r) x) three_rows.
Proof.
  split; [apply mean_shift|]. split; [apply mean_scale|]. split; [exact mean_sound|]. split; [apply three_table|]. split; [exact boxes_dim|]. split; [exact boxes_match|]. split; [apply boxes_learned|].
  split; [exact (boxes_weights 1 3 8)|]. split; [repeat (apply Forall_cons; [do 2 eexists; split; [vm_compute; reflexivity|]; split; [reflexivity|reflexivity]|]); apply Forall_nil|].
  split; [repeat (apply Forall_cons; [do 2 eexists; split; [vm_compute; reflexivity|]; split; [reflexivity|reflexivity]|]); apply Forall_nil|].
  repeat (apply Forall_cons; [eexists; split; [right; left; reflexivity|constructor; [split; discriminate|constructor]]|]). apply Forall_nil.
Qed.
