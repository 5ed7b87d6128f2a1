(* C78: what is learned does not depend on the order of the samples, on the way samples are written down, nor on samples a rule does not match. *)
From Coq Require Import Permutation.
From Verif Require Import PyNum PyList PyMon PyRng M_Matching S_Matching M_Rule L_RuleProps M_Mixing S_Discovery S_Invariance L_Invariance.

(* a rule is fitted from the samples it matches: two data sets with the same matched samples, in the same order, give the same rule; only match_set_
   tells them apart *)
Theorem C78_matched_only : forall (L : learner) m X y X' y' k,
  table (length (bnd m)) X y -> table (length (bnd m)) X' y' ->
  kept (fun p => covers m (fst p)) (combine X y) k -> kept (fun p => covers m (fst p)) (combine X' y') k ->
  exists r r' a a', fitted_from L X y m r /\ fitted_from L X' y' m r' /\ cond r = cond r' /\ rmodel r = rmodel r' /\ att r = Some a /\ att r' = Some a' /\
    is_fitted a = is_fitted a' /\ error a = error a' /\ fitness a = fitness a' /\ experience a = experience a' /\ pred a = pred a'.
Proof. intros L m X y X' y' k [H1 H2] [H3 H4]. exact (matched_only L m X y X' y' k H1 H2 H3 H4). Qed.
Print Assumptions C78_matched_only.
Example C78_matched_satisfiable : let m := mkMatching OrderedBound [(0, 1)] in
  table 1 [[0]; [5]; [1]] [1; 7; 2] /\ table 1 [[0]; [1]; [9]; [8]] [1; 2; 3; 4] /\
  kept (fun p => covers m (fst p)) (combine [[0]; [5]; [1]] [1; 7; 2]) [([0], 1); ([1], 2)] /\ kept (fun p => covers m (fst p)) (combine [[0]; [1]; [9]; [8]] [1; 2; 3; 4]) [([0], 1); ([1], 2)].
Proof.
  assert (HY : forall q, 0 <= q /\ q <= 1 -> covers (mkMatching OrderedBound [(0, 1)]) [q]) by (intros q Hq; constructor; [exact Hq|constructor]).
  assert (HN : forall q, 1 < q -> ~ covers (mkMatching OrderedBound [(0, 1)]) [q]) by (intros q Hq H; inversion H as [|? ? ? ? [_ HA]]; exact (Qle_not_lt _ _ HA Hq)).
  split; [split; [repeat constructor|reflexivity]|]. split; [split; [repeat constructor|reflexivity]|]. split.
  - apply kept_yes; [apply HY; split; discriminate|]. apply kept_no; [apply HN; reflexivity|]. apply kept_yes; [apply HY; split; discriminate|apply kept_nil].
  - apply kept_yes; [apply HY; split; discriminate|]. apply kept_yes; [apply HY; split; discriminate|]. apply kept_no; [apply HN; reflexivity|]. apply kept_no; [apply HN; reflexivity|apply kept_nil].
Qed.

(* samples in another order, features in another order, conditions in another representation: the fitted rules agree in condition, predictions, error,
   fitness and experience *)
Theorem C78_same_rules : forall (L : learner) v d m m' X y X' y', indifferent L v d ->
  table d X y -> table d X' y' -> seen v (combine X y) (combine X' y') -> same_box v d m m' ->
  exists r r', fitted_from L X y m r /\ fitted_from L X' y' m' r' /\ same_rule L v d r r'.
Proof. intros L v d m m' X y X' y' HI. exact (same_fit L v d HI m m' X y X' y'). Qed.
Print Assumptions C78_same_rules.
(* ... and so do solutions made of them: the same measurements from the same random numbers, or the same exception *)
Theorem C78_same_solutions : forall (L : learner) v d ms ms' pool pool' genome mx sfit X y X' y' g, indifferent L v d ->
  (forall e e' c n, e == e' -> same_num (sfit e c n) (sfit e' c n)) ->
  table d X y -> table d X' y' -> X <> [] -> seen v (combine X y) (combine X' y') -> Forall2 (same_box v d) ms ms' -> Forall (fun m => exists x, In x X /\ covers m x) ms ->
  Forall2 (fitted_from L X y) ms pool -> Forall2 (fitted_from L X' y') ms' pool' -> length genome = length pool ->
  match sol_fit L mx sfit genome pool X y g, sol_fit L mx sfit genome pool' X' y' g with
  | (Ok a, g1), (Ok a', g2) => same_measures a a' /\ g1 = g2
  | (Raise e, g1), (Raise e', g2) => e = e' /\ g1 = g2
  | _, _ => False
  end.
Proof. intros L v d ms ms' pool pool' genome mx sfit X y X' y' g HI. exact (solutions_same L v d HI ms ms' pool pool' genome mx sfit X y X' y' g). Qed.
Print Assumptions C78_same_solutions.
(* ... and the same predictions for every sample *)
Theorem C78_same_predictions : forall (L : learner) v d ms ms' pool pool' genome mx X y X' y' g, indifferent L v d ->
  table d X y -> table d X' y' -> seen v (combine X y) (combine X' y') -> Forall2 (same_box v d) ms ms' -> Forall (fun m => exists x, In x X /\ covers m x) ms ->
  Forall2 (fitted_from L X y) ms pool -> Forall2 (fitted_from L X' y') ms' pool' -> length genome = length pool ->
  (exists e g', forall Z, Forall (fun x => length x = d) Z -> Z <> [] -> sol_predict L mx genome pool Z false g = (Raise e, g') /\ sol_predict L mx genome pool' (map v Z) false g = (Raise e, g')) \/
  (exists h h' g', (forall Z, Forall (fun x => length x = d) Z -> sol_predict L mx genome pool Z false g = (Ok (map h Z), g') /\ sol_predict L mx genome pool' (map v Z) false g = (Ok (map h' (map v Z)), g')) /\
    forall x, length x = d -> h' (v x) == h x).
Proof.
  intros L v d ms ms' pool pool' genome mx X y X' y' g HI HT HT' HS HB HC HP HP' HG.
  assert (HV : forall Z, Forall (fun x => length x = d) Z -> Forall (fun x => length x = d) (map v Z)) by (induction 1; cbn; constructor; auto; apply (ind_length _ _ _ HI); assumption).
  destruct (predictions_same L v d HI ms ms' pool pool' genome mx X y X' y' g HT HT' HS HB HC HP HP' HG) as [(e & g' & A & B)|(h & h' & g' & A & B & C)]; [left; exists e, g'|right; exists h, h', g'].
  - intros Z HZ HN. split; [apply A; assumption|apply B; [apply HV; exact HZ|destruct Z; [congruence|discriminate]]].
  - split; [|exact C]. intros Z HZ. split; [apply A; exact HZ|apply B; apply HV; exact HZ].
Qed.
Print Assumptions C78_same_predictions.
(* what counts as the same condition: the features in another order; limits sorted or not; centre and spread instead of limits, within the feature
   space *)
Theorem C78_same_conditions :
  (forall p d m, Permutation p (seq 0 d) -> length (bnd m) = d -> same_box (rearranged 0 p) d m (mkMatching (mt m) (rearranged (0, 0) p (bnd m)))) /\
  (forall bs, same_box (fun x => x) (length bs) (mkMatching UnorderedBound bs) (mkMatching OrderedBound (map (fun b => (qmin (fst b) (snd b), qmax (fst b) (snd b))) bs))) /\
  (forall bs, Forall (fun b => 0 <= snd b /\ -(1) <= fst b - snd b /\ fst b + snd b <= 1) bs ->
     same_box (fun x => x) (length bs) (mkMatching CenterSpread bs) (mkMatching OrderedBound (map (fun b => (fst b - snd b, fst b + snd b)) bs))).
Proof. split; [exact rearranged_box|split; [exact unordered_box|exact centre_box]]. Qed.
Print Assumptions C78_same_conditions.
(* a condition given by lower limit and percentage has another volume than the others for the same samples, so its fitness differs *)
Theorem C78_percentage_refuted : exists (L : learner) m m' X y r r' a a', (forall x, covers m' x <-> covers m x) /\ length (bnd m) = length (bnd m') /\ table (length (bnd m)) X y /\
  fitted_from L X y m r /\ fitted_from L X y m' r' /\ att r = Some a /\ att r' = Some a' /\ ~ same_num (fitness a) (fitness a').
Proof. exists by_volume. exact percentage_differs. Qed.
Print Assumptions C78_percentage_refuted.
Example C78_satisfiable : let v := rearranged 0 [1; 0]%nat in let m := mkMatching OrderedBound [(0, 1); (2, 5)] in let m' := mkMatching OrderedBound [(2, 5); (0, 1)] in
  indifferent mean_learner v 2 /\ table 2 [[0; 3]; [1; 9]] [4; 6] /\ table 2 [[9; 1]; [3; 0]] [6; 4] /\
  seen v (combine [[0; 3]; [1; 9]] [4; 6]) (combine [[9; 1]; [3; 0]] [6; 4]) /\ same_box v 2 m m' /\ In [0; 3] [[0; 3]; [1; 9]] /\ covers m [0; 3].
Proof.
  assert (HP : Permutation [1; 0]%nat (seq 0 2)) by apply perm_swap.
  split; [apply mean_indifferent; intros x _; apply (rearranged_length _ 2); exact HP|]. split; [split; [repeat constructor|reflexivity]|]. split; [split; [repeat constructor|reflexivity]|].
  split; [apply perm_swap|]. split; [exact (rearranged_box [1; 0]%nat 2 (mkMatching OrderedBound [(0, 1); (2, 5)]) HP eq_refl)|]. split; [left; reflexivity|].
  constructor; [split; discriminate|]. constructor; [split; discriminate|constructor].
Qed.
